(** C114: levees. *)
From Coq Require Import ZArith Bool String List Lia QArith Qcanon.
From Verif Require Import Num XQ XQLaws F64 F64Laws Py NumFacts NumMore Walker ParticleTrack SpecWeights SpecPick SpecWalk SpecHist SpecInit
  SpecMotion SpecApi SpecBarrier ProofInit ProofApi ProofApi2 ProofHist ProofStep ProofPick Examples ExamplesExact P_Motion.
Import ListNotations.
Open Scope Z_scope.

(** C114 A particle seeded on a wet cell of a region that is enclosed by land or dry cells, also at the corners, stays in the region and on wet cells for ever: whatever is
    called, whatever is drawn (draws that map to zero excepted, as in C16), for doubles and for exact arithmetic. Land cells must not be deep. *)
Theorem C114_levee_partial :
  forall T (N : Num T) (NL : NumLaws T) (NM : NumMore T) G lm L W (p : params T) P draws s w q (R : Z -> Z -> Prop),
    session G lm L W p P draws s -> s_walk s = Some w -> (q < count w)%nat -> nisnan (o_dry P) = false -> (forall u, G u -> clear_draw lm P u) ->
    dry_land P -> enclosed P R ->
    let r := hist P w q in
    R (xat r 0) (yat r 0) -> wet P (xat r 0) (yat r 0) ->
    forall i, (i < length (r_x r))%nat -> R (xat r i) (yat r i) /\ wet P (xat r i) (yat r i).
Proof.
  intros T N NL NM G lm L W p P draws s w q R SS SW Hq DN CD DL EN r R0 W0. subst r. set (r := hist P w q) in *. induction i as [|i IH]; intros Hi; [split; assumption|].
  destruct (IH ltac:(lia)) as (RI & WI). pose proof (session_wet lm L W p P draws s w q i SS SW Hq DN CD Hi) as WA. fold r in WA.
  pose proof (session_step_size lm L W p P draws s w q i SS SW Hq Hi) as (SX & SY). fold r in SX, SY.
  assert (IG : in_grid P (xat r (S i)) (yat r (S i))).
  { destruct (session_field lm L W p P draws s SS) as (FO & _ & _ & _ & EL & EW). pose proof SS as ((_ & L3 & W3 & _) & _). destruct (history_positions lm P r FO (session_hist lm L W p P draws s w q SS SW Hq) (S i) Hi) as (SP & _). apply safe_in_grid; [lia | lia | exact SP]. }
  assert (WN : wet P (xat r (S i)) (yat r (S i))).
  { destruct WA as [WA|(_ & DP)]; [exact WA|]. assert (D : nltb (o_dry P) (cell (o_depth P) (xat r (S i)) (yat r (S i))) = true) by (apply (lt_le_trans _ _ _ (proj1 WI)), DP; lia).
    split; [exact D|]. intros E. rewrite (DL _ _ IG E) in D. discriminate. }
  split; [|exact WN]. exact (EN _ _ _ _ RI WI IG SX SY WN).
Qed.
Print Assumptions C114_levee_partial.
(** With the default cell types no land cell is deep. *)
Theorem C114_default_types :
  forall T (N : Num T) (NL : NumLaws T) (NM : NumMore T) G lm L W (p : params T) P draws s, session G lm L W p P draws s -> p_ct p = None -> dry_land P.
Proof.
  intros T N NL NM G lm L W p P draws s SS CT x y (Hx & Hy) E. destruct (session_field lm L W p P draws s SS) as (_ & _ & _ & _ & EL & EW). destruct SS as ((SH & _) & (p' & EI) & _).
  rewrite EL in Hx. rewrite EW in Hy. rewrite (init_cell_types lm L W p P p' x y SH CT EI Hx Hy) in E. destruct (_ || _) in E; [discriminate|]. destruct (nltb (cell (o_depth P) x y) (o_dry P)) eqn:D; [|discriminate].
  destruct (nltb (o_dry P) (cell (o_depth P) x y)) eqn:D'; [|reflexivity]. pose proof (lt_le_trans _ _ _ D (lt_le _ _ D')) as F. rewrite lt_irrefl in F. discriminate.
Qed.
Print Assumptions C114_default_types.

(** 7 x 7 cells, flow down and to the right, and a stream that always delivers 15/16. *)
Definition ba_params (depth : Z -> Z -> xq) (ct : option (arr Z)) : params xq :=
  {| p_dx := Some (nofZ 10); p_depth := Some (Arr 7 7 depth); p_stage := Some (Arr 7 7 (fun _ _ => n1)); p_topo := None;
     p_model := Some "DeltaRCM"%string; p_qx := Some (Arr 7 7 (fun _ _ => n1)); p_qy := Some (Arr 7 7 (fun _ _ => n1)); p_u := None; p_v := None;
     p_theta := Some n1; p_gamma := None; p_diff := None; p_dry := None; p_ct := ct; p_steep := None;
     p_dist := None; p_ivec := None; p_jvec := None; p_iwalk := None; p_jwalk := None; p_angles := None;
     p_roi := None; p_vars := None |}.
Definition ba_u : xq := XFin (Q2Qc (15 # 16)).
Definition ba_draws (n : nat) : xq := ba_u.
Definition ba_G (u : xq) : Prop := u = ba_u.
Definition ba_ops (x y : Z) : list (op xq) := [OpGen 1 [x] [y] n0 Exact None; OpRun; OpRun].
Definition ba_P (p : params xq) : pobj xq := fst (unerr (gx_none, p) (init eq_lm p)).
Definition ba_s (p : params xq) x y : psim xq := unerr (init_sim eq_lm (ba_P p) 0) (do_ops eq_lm (ba_P p) ba_draws (ba_ops x y) (init_sim eq_lm (ba_P p) 0)).
Definition ba_w (p : params xq) x y : walk xq := dflt (s_walk (ba_s p x y)) {| xinds := []; yinds := []; times := []; opts := [] |}.
Definition cells_7 (f : Z -> Z -> bool) : bool := forallb (fun i => forallb (f i) (zrange 0 7)) (zrange 0 7).
Lemma cells_7_all f : cells_7 f = true -> forall i j, 0 <= i < 7 -> 0 <= j < 7 -> f i j = true.
Proof.
  intros H i j Hi Hj. unfold cells_7 in H. rewrite forallb_forall in H. specialize (H i (in_zrange _ _ _ Hi)). rewrite forallb_forall in H. exact (H j (in_zrange _ _ _ Hj)).
Qed.
Definition ba_wet (P : pobj xq) x y : bool := nltb (o_dry P) (cell (o_depth P) x y) && negb (cell (o_ct P) x y =? 2).
Lemma ba_wet_ok P x y : ba_wet P x y = true <-> wet P x y.
Proof. unfold ba_wet, wet. rewrite andb_true_iff, negb_true_iff, Z.eqb_neq. tauto. Qed.
Definition ba_ok (p : params xq) (x y : Z) : bool :=
  is_ok (init eq_lm p) && is_ok (do_ops eq_lm (ba_P p) ba_draws (ba_ops x y) (init_sim eq_lm (ba_P p) 0)) && match s_walk (ba_s p x y) with Some w => (count w =? 1)%nat | None => false end &&
  (nrow (o_depth (ba_P p)) =? 7) && (ncol (o_depth (ba_P p)) =? 7) && negb (nisnan (o_dry (ba_P p))) &&
  cells_7 (fun i j => nltb n0 (mapped_draw (pick_vector (ba_P p) (weights_of eq_lm (ba_P p) i j)) ba_u) || negb ((1 <=? i) && (i <? 6) && (1 <=? j) && (j <? 6))).
Lemma ba_facts p x y : standard eq_lm 7 7 p -> ba_ok p x y = true -> 1 <= x <= 5 -> 1 <= y <= 5 ->
  session ba_G eq_lm 7 7 p (ba_P p) ba_draws (ba_s p x y) /\ s_walk (ba_s p x y) = Some (ba_w p x y) /\ (0 < count (ba_w p x y))%nat /\ nisnan (o_dry (ba_P p)) = false /\
  (forall u, ba_G u -> clear_draw eq_lm (ba_P p) u) /\ forall i j, in_grid (ba_P p) i j <-> 0 <= i < 7 /\ 0 <= j < 7.
Proof.
  intros ST H Hx Hy. unfold ba_ok in H. rewrite !andb_true_iff, !Z.eqb_eq, negb_true_iff in H. destruct H as ((((((H1 & H2) & H3) & H4) & H5) & H6) & H7).
  split; [|split; [|split; [|split; [|split]]]].
  - split; [exact ST|]. split. { exists (snd (unerr (gx_none, p) (init eq_lm p))). unfold ba_P. rewrite <- surjective_pairing. apply is_ok_unerr, H1. }
    split. { intros n. split; [split; vm_compute; reflexivity | reflexivity]. } exists 0%nat, (ba_ops x y). split; [|apply is_ok_unerr, H2].
    constructor; [split; [|exact I] | repeat (constructor; [split; exact I|]); constructor]. split; [lia|]. split; [reflexivity|]. cbn [combine In]. intros a b [E|[]]. injection E as <- <-. right. rewrite H4, H5. lia.
  - unfold ba_w. destruct (s_walk (ba_s p x y)); [reflexivity | discriminate].
  - unfold ba_w. destruct (s_walk (ba_s p x y)); [|discriminate]. apply Nat.eqb_eq in H3. cbn [dflt]. lia.
  - exact H6.
  - intros u -> i j (Hi & Hj). rewrite H4 in Hi. rewrite H5 in Hj. pose proof (cells_7_all _ H7 i j ltac:(lia) ltac:(lia)) as C. cbv beta in C. apply orb_true_iff in C as [C|C]; [exact C|].
    apply negb_true_iff in C. repeat (apply andb_false_iff in C as [C|C]); lia.
  - intros i j. unfold in_grid. rewrite H4, H5. tauto.
Qed.
Lemma ba_standard depth ct : (forall c, ct = Some c -> nrow c = 7 /\ ncol c = 7 /\ forall i j, 0 <= i < 7 -> 0 <= j < 7 -> (i = 0 \/ j = 0 \/ i = 6 \/ j = 6) -> cell c i j = -1) -> standard eq_lm 7 7 (ba_params depth ct).
Proof.
  intros HC. split. { repeat split; try lia; try (intros; discriminate);
    match goal with |- nrow ?a = _ => idtac | |- ncol ?a = _ => idtac end;
    match goal with H : _ = Some ?a |- _ => first [injection H as <-; reflexivity | apply (HC a H)] end. }
  split; [lia|]. split; [lia|]. split; [repeat split|]. split; [intros c Hc; exact (proj2 (proj2 (HC c Hc)))|]. split; [intros g Hg; discriminate|].
  split. { intros d H. cbn [eq_lm gx_lm m_pow]. destruct (nltb d n0) eqn:E; [|reflexivity]. rewrite (leb_trans d n0) in H; [discriminate | apply lt_le, E | vm_compute; reflexivity]. }
  split; [split; [vm_compute; reflexivity | split; [vm_compute; reflexivity | intros x _; reflexivity]]|]. intros dx Hd. injection Hd as <-. vm_compute. reflexivity.
Qed.
Definition ba_R (Rb : Z -> Z -> bool) (x y : Z) : Prop := (0 <= x < 7 /\ 0 <= y < 7) /\ Rb x y = true.
Definition ba_enclosed (P : pobj xq) (Rb : Z -> Z -> bool) (sides : bool) : bool :=
  cells_7 (fun x y => negb (Rb x y && ba_wet P x y) ||
    cells_7 (fun x' y' => Rb x' y' || negb (ba_wet P x' y') || (if sides then 1 <? Z.abs (x' - x) + Z.abs (y' - y) else (1 <? Z.abs (x' - x)) || (1 <? Z.abs (y' - y))))).
Lemma ba_enclosed_ok P Rb sides : (forall i j, in_grid P i j <-> 0 <= i < 7 /\ 0 <= j < 7) -> ba_enclosed P Rb sides = true -> if sides then enclosed_sides P (ba_R Rb) else enclosed P (ba_R Rb).
Proof.
  intros IG H.
  assert (K : forall x y x' y', ba_R Rb x y -> wet P x y -> in_grid P x' y' -> wet P x' y' -> (if sides then Z.abs (x' - x) + Z.abs (y' - y) <= 1 else Z.abs (x' - x) <= 1 /\ Z.abs (y' - y) <= 1) -> ba_R Rb x' y').
  { intros x y x' y' ((Hx & Hy) & RB) WB HG WB' NR. apply IG in HG. split; [exact HG|]. apply ba_wet_ok in WB. apply ba_wet_ok in WB'. pose proof (cells_7_all _ H x y Hx Hy) as C. cbv beta in C.
    rewrite RB, WB in C. cbn [andb negb orb] in C. pose proof (cells_7_all _ C x' y' (proj1 HG) (proj2 HG)) as D. cbv beta in D. rewrite WB' in D. cbn [negb] in D. rewrite orb_false_r in D. apply orb_true_iff in D as [D|D]; [exact D|].
    destruct sides; [lia|]. apply orb_true_iff in D as [D|D]; lia. }
  destruct sides; intros x y x' y'; intros; eapply K; try eassumption; auto.
Qed.
Definition ba_moves (p : params xq) (Rb : Z -> Z -> bool) (x y : Z) (out : bool) : bool :=
  let r := hist (ba_P p) (ba_w p x y) 0 in
  (xat r 0 =? x) && (yat r 0 =? y) && (1 <? length (r_x r))%nat && ba_wet (ba_P p) x y && Rb x y && (if out then negb (Rb (xat r 1) (yat r 1)) else true).
Lemma ba_moves_ok p Rb x y out : 1 <= x <= 5 -> 1 <= y <= 5 -> ba_moves p Rb x y out = true ->
  let r := hist (ba_P p) (ba_w p x y) 0 in
  ba_R Rb (xat r 0) (yat r 0) /\ wet (ba_P p) (xat r 0) (yat r 0) /\ (1 < length (r_x r))%nat /\ (out = true -> ~ ba_R Rb (xat r 1) (yat r 1)).
Proof.
  intros Hx Hy H r. unfold ba_moves in H. fold r in H. rewrite !andb_true_iff, !Z.eqb_eq, Nat.ltb_lt, ba_wet_ok in H. destruct H as (((((EX & EY) & H3) & H4) & H5) & H6). rewrite EX, EY.
  split; [split; [lia | exact H5]|]. split; [exact H4|]. split; [exact H3|]. intros ->. intros (_ & C). rewrite C in H6. discriminate.
Qed.

(** The hypotheses hold: a levee two cells wide, from corner to corner. *)
Definition ba_above (i j : Z) : bool := i + j <? 7.
Definition ba_wide : params xq := ba_params (fun i j => if (i + j =? 7) || (i + j =? 8) then n0 else n1) None.
Lemma ba_wide_check : ba_ok ba_wide 2 2 && ba_enclosed (ba_P ba_wide) ba_above false && ba_moves ba_wide ba_above 2 2 false = true.
Proof. vm_compute. reflexivity. Qed.
Example C114_example : exists s w, session ba_G eq_lm 7 7 ba_wide (ba_P ba_wide) ba_draws s /\ s_walk s = Some w /\ (0 < count w)%nat /\ p_ct ba_wide = None /\ nisnan (o_dry (ba_P ba_wide)) = false /\
  (forall u, ba_G u -> clear_draw eq_lm (ba_P ba_wide) u) /\ enclosed (ba_P ba_wide) (ba_R ba_above) /\
  let r := hist (ba_P ba_wide) w 0 in ba_R ba_above (xat r 0) (yat r 0) /\ wet (ba_P ba_wide) (xat r 0) (yat r 0) /\ (1 < length (r_x r))%nat.
Proof.
  pose proof ba_wide_check as C. rewrite !andb_true_iff in C. destruct C as ((C1 & C2) & C3). destruct (ba_facts ba_wide 2 2) as (A & B & C & D & E & F); [apply ba_standard; intros c Hc; discriminate | exact C1 | lia | lia|].
  destruct (ba_moves_ok ba_wide ba_above 2 2 false ltac:(lia) ltac:(lia) C3) as (M1 & M2 & M3 & _).
  exists (ba_s ba_wide 2 2), (ba_w ba_wide 2 2). repeat (split; [assumption || reflexivity|]). split; [exact (ba_enclosed_ok _ _ false F C2)|]. auto.
Qed.

(** Refuted for a line of land cells that touch at their corners only: a step to a diagonal neighbour crosses it. *)
Definition ba_thin : params xq := ba_params (fun i j => if i + j =? 7 then n0 else n1) None.
Lemma ba_thin_check : ba_ok ba_thin 3 3 && ba_enclosed (ba_P ba_thin) ba_above true && ba_moves ba_thin ba_above 3 3 true = true.
Proof. vm_compute. reflexivity. Qed.
Theorem C114_corners_refuted :
  exists G lm L W (p : params xq) P draws s w R,
    session G lm L W p P draws s /\ s_walk s = Some w /\ (0 < count w)%nat /\ p_ct p = None /\ nisnan (o_dry P) = false /\ (forall u, G u -> clear_draw lm P u) /\ enclosed_sides P R /\
    let r := hist P w 0 in R (xat r 0) (yat r 0) /\ wet P (xat r 0) (yat r 0) /\ (1 < length (r_x r))%nat /\ ~ R (xat r 1) (yat r 1).
Proof.
  pose proof ba_thin_check as C. rewrite !andb_true_iff in C. destruct C as ((C1 & C2) & C3). destruct (ba_facts ba_thin 3 3) as (A & B & C & D & E & F); [apply ba_standard; intros c Hc; discriminate | exact C1 | lia | lia|].
  destruct (ba_moves_ok ba_thin ba_above 3 3 true ltac:(lia) ltac:(lia) C3) as (M1 & M2 & M3 & M4).
  exists ba_G, eq_lm, 7, 7, ba_thin, (ba_P ba_thin), ba_draws, (ba_s ba_thin 3 3), (ba_w ba_thin 3 3), (ba_R ba_above). repeat (split; [assumption || reflexivity|]). split; [exact (ba_enclosed_ok _ _ true F C2)|]. auto.
Qed.
Print Assumptions C114_corners_refuted.

(** Refuted if land cells are deeper than dry_depth: from a dead end the particle goes to a deepest neighbour, be it land. *)
Definition ba_pond (i j : Z) : bool := (i =? 3) && (j =? 3).
Definition ba_ct : arr Z := Arr 7 7 (fun i j => if (i =? 0) || (j =? 0) || (i =? 6) || (j =? 6) then -1 else if ba_pond i j then 0 else 2).
Definition ba_deep : params xq := ba_params (fun _ _ => n1) (Some ba_ct).
Lemma ba_deep_check : ba_ok ba_deep 3 3 && ba_enclosed (ba_P ba_deep) ba_pond false && ba_moves ba_deep ba_pond 3 3 true = true.
Proof. vm_compute. reflexivity. Qed.
Theorem C114_deep_land_refuted :
  exists G lm L W (p : params xq) P draws s w R,
    session G lm L W p P draws s /\ s_walk s = Some w /\ (0 < count w)%nat /\ nisnan (o_dry P) = false /\ (forall u, G u -> clear_draw lm P u) /\ enclosed P R /\
    let r := hist P w 0 in R (xat r 0) (yat r 0) /\ wet P (xat r 0) (yat r 0) /\ (1 < length (r_x r))%nat /\ ~ R (xat r 1) (yat r 1).
Proof.
  pose proof ba_deep_check as C. rewrite !andb_true_iff in C. destruct C as ((C1 & C2) & C3). destruct (ba_facts ba_deep 3 3) as (A & B & C & D & E & F).
  { apply ba_standard. intros c Hc. injection Hc as <-. split; [reflexivity|]. split; [reflexivity|]. intros i j _ _ H. cbn [cell ba_ct].
    assert (X : (i =? 0) || (j =? 0) || (i =? 6) || (j =? 6) = true) by (rewrite !orb_true_iff, !Z.eqb_eq; tauto). rewrite X. reflexivity. }
  { exact C1. } { lia. } { lia. }
  destruct (ba_moves_ok ba_deep ba_pond 3 3 true ltac:(lia) ltac:(lia) C3) as (M1 & M2 & M3 & M4).
  exists ba_G, eq_lm, 7, 7, ba_deep, (ba_P ba_deep), ba_draws, (ba_s ba_deep 3 3), (ba_w ba_deep 3 3), (ba_R ba_pond). repeat (split; [assumption || reflexivity|]). split; [exact (ba_enclosed_ok _ _ false F C2)|]. auto.
Qed.
Print Assumptions C114_deep_land_refuted.
