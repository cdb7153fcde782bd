(** C118 With gamma = 1 particles move down the water surface; C119 no step goes up the water surface and against the flow (binary64). *)
From Coq Require Import ZArith Bool String List Lia.
From Verif Require Import Num F64 F64Laws NumFacts NumMore Py Walker ParticleTrack SpecWeights SpecPick SpecWalk SpecHist SpecInit SpecMotion SpecApi SpecDown
  ProofWeights ProofWeightLaws ProofWeightExt ProofPick ProofStep ProofRun ProofHist ProofMotion ProofApi ProofInit ProofApi2 ProofDown Examples ExamplesExact ExamplesReach P_Motion.
Import ListNotations.
Open Scope Z_scope.

Definition cells_of (r : prow f64) : list (Z * Z) := map (fun i => (xat r i, yat r i)) (seq 0 (length (r_x r))).
Definition grid_cells (L W : Z) : list (Z * Z) := list_prod (map Z.of_nat (seq 0 (Z.to_nat L))) (map Z.of_nat (seq 0 (Z.to_nat W))).

Lemma descends (lev : nat -> f64) n : (forall i, (S i < n)%nat -> nltb (lev (S i)) (lev i) = true) -> forall i j, (i < j)%nat -> (j < n)%nat -> nltb (lev j) (lev i) = true.
Proof.
  intros H i j. induction j as [|j IH]; [lia|]. intros A B. assert (i = j \/ i < j)%nat as [->|A'] by lia; [apply H; lia|].
  eapply lt_le_trans; [apply H; lia | apply lt_le, IH; lia].
Qed.
Lemma nodup_map {A B} (f : A -> B) l : (forall a b, In a l -> In b l -> f a = f b -> a = b) -> NoDup l -> NoDup (map f l).
Proof.
  intros H N. induction N as [|a l NI N IH]; cbn [map]; constructor.
  - intros I. apply in_map_iff in I as (b & E & I). apply NI. rewrite (H a b); [exact I | left; reflexivity | right; exact I | symmetry; exact E].
  - apply IH. intros x y A1 A2. apply H; right; assumption.
Qed.
(** C119 No step goes up the water surface and against the flow at once (any gamma). *)
Theorem C119_down_or_along :
  forall G lm L W (p : params f64) P draws s w q i,
    session G lm L W p P draws s -> s_walk s = Some w -> (q < count w)%nat -> (forall u, G u -> clear_draw lm P u) -> finite_levels P ->
    let r := hist P w q in (S i < length (r_x r))%nat ->
    dead_end lm P (xat r i) (yat r i) \/ nltb (level P r (S i)) (level P r i) = true \/ along_flow P (xat r i) (yat r i) (xat r (S i)) (yat r (S i)).
Proof.
  intros G lm L W p P draws s w q i SS SW Hq CD FL r Hi.
  pose proof (session_hist _ _ _ _ _ _ _ w q SS SW Hq) as HO. fold r in HO.
  assert (SS' := SS). destruct SS' as (ST & (p' & EI) & _). destruct (standard_field_ok _ _ _ _ _ _ ST EI) as (FO & EL & EW & DC). assert (ST' := ST). destruct ST' as (_ & L3 & W3 & DT & _).
  pose proof (api_tables lm p P p' DT EI) as D8. assert (FO' := FO). destruct FO' as (Hw & GO & Hp & _).
  destruct (history_positions lm P r FO HO i ltac:(lia)) as (SP & _). destruct HO as (_ & _ & DS & _).
  destruct (step_weight G lm P _ _ _ _ _ _ FO D8 CD SP (DS i Hi)) as (I & k & Hk & EX & EY & PW).
  destruct (not_dead lm P _ _ k GO Hp Hw I Hk PW) as [X|X]; [left; exact X|]. right. destruct (dist_pos lm L W p P p' k ST EI Hk) as (D1 & D2).
  destruct (weight_reason lm P _ _ k GO I Hk FL D1 D2 X) as [Y|Y]; [left | right; exists k; auto]. unfold nb in Y. rewrite <- EX, <- EY in Y. exact Y.
Qed.
Print Assumptions C119_down_or_along.
(** C118 *)
Theorem C118_downhill :
  forall G lm L W (p : params f64) P draws s w q,
    session G lm L W p P draws s -> s_walk s = Some w -> (q < count w)%nat ->
    p_gamma p = Some n1 -> (forall u, G u -> clear_draw lm P u) -> finite_levels P ->
    let r := hist P w q in
    (* every step leads to a lower water level, unless it starts at a dead end *)
    (forall i, (S i < length (r_x r))%nat -> dead_end lm P (xat r i) (yat r i) \/ nltb (level P r (S i)) (level P r i) = true) /\
    (* without dead ends the levels fall from record to record, no cell is recorded twice, and there are at most as many records as cells *)
    (no_dead_end lm P r ->
       (forall i j, (i < j < length (r_x r))%nat -> nltb (level P r j) (level P r i) = true) /\
       (forall i j, (i < j < length (r_x r))%nat -> (xat r i, yat r i) <> (xat r j, yat r j)) /\
       Z.of_nat (length (r_x r)) <= L * W).
Proof.
  intros G lm L W p P draws s w q SS SW Hq GA CD FL r.
  pose proof (session_hist _ _ _ _ _ _ _ w q SS SW Hq) as HO. fold r in HO.
  assert (SS' := SS). destruct SS' as (ST & (p' & EI) & _). destruct (standard_field_ok _ _ _ _ _ _ ST EI) as (FO & EL & EW & DC). assert (ST' := ST). destruct ST' as (_ & L3 & W3 & DT & _ & _ & _ & SQ & _).
  pose proof (api_tables lm p P p' DT EI) as D8. assert (FO' := FO). destruct FO' as (Hw & GO & Hp & _).
  assert (OG : o_gamma P = n1).
  { destruct (init_ok _ _ _ _ EI) as (dx & depth & pd & stage & ps & f & _ & _ & _ & _ & _ & E). decompose [and] E. rewrite GA in *. assumption. }
  assert (STEP : forall i, (S i < length (r_x r))%nat -> dead_end lm P (xat r i) (yat r i) \/ nltb (level P r (S i)) (level P r i) = true).
  { intros i Hi. destruct (history_positions lm P r FO HO i ltac:(lia)) as (SP & _). destruct HO as (_ & _ & DS & _).
    destruct (step_weight G lm P _ _ _ _ _ _ FO D8 CD SP (DS i Hi)) as (I & k & Hk & EX & EY & PW).
    destruct (not_dead lm P _ _ k GO Hp Hw I Hk PW) as [X|X]; [left; exact X|]. right. destruct (dist_pos lm L W p P p' k ST EI Hk) as (D1 & D2).
    pose proof (downhill_weight lm P _ _ k OG I Hk FL D1 D2 X) as Y. unfold nb in Y. rewrite <- EX, <- EY in Y. exact Y. }
  split; [exact STEP|]. intros ND.
  assert (DES : forall i j, (i < j < length (r_x r))%nat -> nltb (level P r j) (level P r i) = true).
  { intros i j (A & B). eapply (descends (level P r)); [|exact A | exact B]. intros m Hm. destruct (STEP m Hm) as [X|X]; [destruct (ND m Hm X) | exact X]. }
  assert (DIF : forall i j, (i < j < length (r_x r))%nat -> (xat r i, yat r i) <> (xat r j, yat r j)).
  { intros i j H E. injection E as E1 E2. pose proof (DES i j H) as X. unfold level in X. rewrite E1, E2 in X. rewrite ltb_def, andb_negb_r in X. discriminate. }
  split; [exact DES|]. split; [exact DIF|].
  assert (NDUP : NoDup (cells_of r)).
  { unfold cells_of. apply nodup_map; [|apply seq_NoDup]. intros i j A B E. apply in_seq in A, B. destruct (Nat.lt_trichotomy i j) as [C|[C|C]]; [|exact C|]; exfalso.
    - exact (DIF i j ltac:(lia) E). - exact (DIF j i ltac:(lia) (Logic.eq_sym E)). }
  assert (INC : incl (cells_of r) (grid_cells L W)).
  { intros c Hc. unfold cells_of in Hc. apply in_map_iff in Hc as (i & <- & Hi). apply in_seq in Hi. destruct (history_positions lm P r FO HO i ltac:(lia)) as (GI & _).
    unfold safe_pos in GI. rewrite EL, EW in GI. assert (GB : 0 <= xat r i < L /\ 0 <= yat r i < W) by (destruct GI as [E|GI]; [injection E as E1 E2; lia | lia]). apply in_prod; apply in_map_iff; [exists (Z.to_nat (xat r i)) | exists (Z.to_nat (yat r i))]; (split; [lia | apply in_seq; lia]). }
  pose proof (NoDup_incl_length NDUP INC) as LE. unfold cells_of, grid_cells in LE. rewrite prod_length, !map_length, !seq_length in LE. nia.
Qed.
Print Assumptions C118_downhill.

(** The example field with gamma = 1, five iterations, two particles: the first makes five moves and meets no dead end. *)
Definition dn_params : params f64 := gx_params_gamma n1.
Definition dn_P : pobj f64 := fst (unerr (gx_none, dn_params) (init ex_lm dn_params)).
Definition dn_ops : list (op f64) := [OpGen 2 [2; 3] [3; 2] n0 Exact None; OpRun; OpRun; OpRun; OpRun; OpRun].
Definition dn_s : psim f64 := unerr (init_sim ex_lm dn_P 0) (do_ops ex_lm dn_P ex_draws dn_ops (init_sim ex_lm dn_P 0)).
Definition dn_w : walk f64 := dflt (s_walk dn_s) {| xinds := []; yinds := []; times := []; opts := [] |}.
Section Check.
Variables (P : pobj f64) (w : walk f64).
Definition in_ring (i j : Z) : bool := (1 <=? i) && (i <? nrow (o_depth P) - 1) && (1 <=? j) && (j <? ncol (o_depth P) - 1).
Definition clear_check (i j : Z) : bool :=
  negb (in_ring i j) || (let v := pick_vector P (weights_of ex_lm P i j) in forallb (fun u => nltb n0 (mapped_draw v u)) ex_vals).
Definition cell_check (i j : Z) : bool :=
  (nisfin (cell (o_stage P) i j) || nisnan (cell (o_stage P) i j)) &&
  (negb (in_ring i j) ||
   forallb (fun k => let x := slope P i j k in (nisfin x || nisnan x) && nisfin (inertia P i j k)) (seq 0 9) && nisfin (total9 (slope P i j)) && nisfin (total9 (inertia P i j))).
Definition live_check (r : prow f64) : bool :=
  forallb (fun i => existsb (fun k => nltb n0 (base_weight ex_lm P (xat r i) (yat r i) k)) (seq 0 9)) (seq 0 (length (r_x r))).
Lemma live_ok r : live_check r = true -> no_dead_end ex_lm P r.
Proof.
  intros H i Hi D. unfold live_check in H. rewrite forallb_forall in H. specialize (H i ltac:(apply in_seq; lia)). apply existsb_exists in H as (k & Hk & E). apply in_seq in Hk. rewrite (D k ltac:(lia)) in E. discriminate.
Qed.
Lemma in_ring_ok i j : inside P i j -> negb (in_ring i j) = true -> False.
Proof. intros I C. apply negb_true_iff in C. unfold inside, in_ring in *. repeat (apply andb_false_iff in C as [C|C]); lia. Qed.
Lemma inside_ok i j : inside P i j -> all_cells P cell_check = true ->
  (forall k, (k < 9)%nat -> not_inf (slope P i j k)) /\ nisfin (total9 (slope P i j)) = true /\ finite9 (inertia P i j).
Proof.
  intros I H. pose proof (all_cells_ok _ _ H i j ltac:(unfold inside, in_grid in *; lia)) as C. unfold cell_check in C. apply andb_true_iff in C as (_ & C). apply orb_true_iff in C as [C|C].
  - destruct (in_ring_ok i j I C).
  - cbv zeta in C. rewrite !andb_true_iff, (forallb_forall (fun k => _ && _)) in C. destruct C as ((B & C) & D). assert (B' : forall k, (k < 9)%nat -> not_inf (slope P i j k) /\ nisfin (inertia P i j k) = true) by (intros k Hk; specialize (B k ltac:(apply in_seq; lia)); apply andb_true_iff in B as (B1 & B2); apply orb_true_iff in B1; split; [exact B1 | exact B2]).
    split; [intros k Hk; apply B', Hk|]. split; [exact C|]. split; [intros k Hk; apply B', Hk | exact D].
Qed.
Lemma cells_finite : all_cells P cell_check = true -> finite_levels P.
Proof.
  intros H. split; [|intros i j I; apply (inside_ok i j I H)]. intros i j I. pose proof (all_cells_ok _ _ H i j I) as C. apply andb_true_iff in C as (C & _). apply orb_true_iff in C. exact C.
Qed.
Lemma cells_clear : all_cells P clear_check = true -> forall u, ex_G u -> clear_draw ex_lm P u.
Proof.
  intros H u G i j I. pose proof (all_cells_ok _ _ H i j ltac:(unfold inside, in_grid in *; lia)) as C. unfold clear_check in C. apply orb_true_iff in C as [C|C]; [destruct (in_ring_ok i j I C)|].
  cbv zeta in C. rewrite forallb_forall in C. apply C, G.
Qed.
End Check.
Lemma dn_cells : all_cells dn_P (cell_check dn_P) = true.
Proof. vm_compute. reflexivity. Qed.
Lemma dn_clear : all_cells dn_P (clear_check dn_P) = true.
Proof. vm_compute. reflexivity. Qed.
Definition dn_check (d : psim f64) (r : res (psim f64)) : bool :=
  is_ok r && match s_walk (unerr d r) with
  | Some w => (1 <? count w)%nat && let h := hist dn_P w 0 in (4 <? length (r_x h))%nat && live_check dn_P h
  | None => false end.
Lemma dn_check_ok d r w0 : dn_check d r = true -> r = Ok (unerr d r) /\ s_walk (unerr d r) = Some (dflt (s_walk (unerr d r)) w0) /\
  (1 < count (dflt (s_walk (unerr d r)) w0))%nat /\ no_dead_end ex_lm dn_P (hist dn_P (dflt (s_walk (unerr d r)) w0) 0) /\ (4 < length (r_x (hist dn_P (dflt (s_walk (unerr d r)) w0) 0)))%nat.
Proof.
  unfold dn_check. intros H. apply andb_true_iff in H as (A & H). split; [apply is_ok_unerr, A|]. destruct (s_walk (unerr d r)) as [w|]; [|discriminate]. cbn [dflt].
  apply andb_true_iff in H as (B & H). cbv zeta in H. apply andb_true_iff in H as (C & D). split; [reflexivity|]. split; [apply Nat.ltb_lt, B|]. split; [apply live_ok, D | apply Nat.ltb_lt, C].
Qed.
Lemma dn_checked : dn_check (init_sim ex_lm dn_P 0) (do_ops ex_lm dn_P ex_draws dn_ops (init_sim ex_lm dn_P 0)) = true.
Proof. vm_compute. reflexivity. Qed.
Example C118_example : session ex_G ex_lm 10 9 dn_params dn_P ex_draws dn_s /\ s_walk dn_s = Some dn_w /\ (1 < count dn_w)%nat /\ p_gamma dn_params = Some n1 /\
  (forall u, ex_G u -> clear_draw ex_lm dn_P u) /\ finite_levels dn_P /\ no_dead_end ex_lm dn_P (hist dn_P dn_w 0) /\ (4 < length (r_x (hist dn_P dn_w 0)))%nat.
Proof.
  destruct (dn_check_ok _ _ {| xinds := []; yinds := []; times := []; opts := [] |} dn_checked) as (F1 & F2 & F3 & F4 & F5).
  split; [|split; [|split; [|split; [|split; [|split; [|split]]]]]].
  - split. { destruct ex_standard as (S1 & S2 & S3 & S4 & S5 & S6 & S7 & S8 & S9). split; [exact S1|]. split; [exact S2|]. split; [exact S3|]. split; [exact S4|]. split; [exact S5|].
      split; [intros g Hg; injection Hg as <-; split; vm_compute; reflexivity|]. split; [exact S7|]. split; [exact S8 | exact S9]. }
    split. { exists (snd (unerr (gx_none, dn_params) (init ex_lm dn_params))). unfold dn_P. rewrite <- surjective_pairing. apply is_ok_unerr. vm_compute. reflexivity. }
    split; [exact ex_stream_G|]. exists 0%nat, dn_ops. split.
    + constructor; [|repeat (constructor; [split; exact I|]); constructor]. split; [|exact I]. split; [lia|]. split; [reflexivity|].
      intros x y [H|[H|[]]]; injection H as <- <-; right; vm_compute; repeat split; congruence.
    + exact F1.
  - exact F2.
  - exact F3.
  - reflexivity.
  - exact (cells_clear _ dn_clear).
  - exact (cells_finite _ dn_cells).
  - exact F4.
  - exact F5.
Qed.

Example C119_example : session ex_G ex_lm 10 9 ex_params ex_P ex_draws ex_s /\ s_walk ex_s = Some ex_w /\ (forall u, ex_G u -> clear_draw ex_lm ex_P u) /\ finite_levels ex_P /\
  no_dead_end ex_lm ex_P (hist ex_P ex_w 0) /\ (1 < length (r_x (hist ex_P ex_w 0)))%nat.
Proof.
  split; [exact ex_session_G|]. split; [apply ex_walk|]. split; [exact ex_clear|]. split; [apply cells_finite; vm_compute; reflexivity|]. split; [apply live_ok; vm_compute; reflexivity|]. apply Nat.ltb_lt. vm_compute. reflexivity.
Qed.
