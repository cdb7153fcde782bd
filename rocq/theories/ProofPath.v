From Coq Require Import ZArith Bool String List Lia QArith Qcanon.
From Verif Require Import Num XQ XQLaws XQFacts Py NumFacts NumMore Walker ParticleTrack Gen SpecWeights SpecPick SpecWalk SpecHist SpecInit SpecMotion SpecApi SpecDraw SpecPath
  ProofWeights ProofWeightLaws ProofInit ProofPick ProofPickExact ProofStep ProofHist ProofApi ProofApi2 ProofInside ProofStuck ProofDrawRun.
Import ListNotations.
Open Scope Z_scope.

Lemma after_app {T} (P : pobj T) ks1 ks2 c : after P c (ks1 ++ ks2) = after P (after P c ks1) ks2.
Proof. revert c. induction ks1; intros c; [reflexivity | apply IHks1]. Qed.
Lemma after_S {T} (P : pobj T) c ks i : (i < length ks)%nat -> after P c (firstn (S i) ks) =
  let d := after P c (firstn i ks) in (fst d + nth (nth i ks 0%nat) (o_jwalk P) 0, snd d + nth (nth i ks 0%nat) (o_iwalk P) 0).
Proof. intros H. rewrite (firstn_S_nth ks 0%nat i H), after_app. reflexivity. Qed.

Lemma add_fin (a b : xq) : nisfin (nadd a b) = true -> nisfin a = true /\ nisfin b = true.
Proof. destruct a as [|[]|a], b as [|[]|b]; cbn; auto. Qed.
Lemma cumsum_fin_all (l : list xq) k : (k < length l)%nat -> nisfin (nth k (cumsum l) nnan) = true -> forall j, (j <= k)%nat -> nisfin (nth j l n0) = true.
Proof.
  induction k as [|k IH]; intros H F j Hj.
  - assert (j = 0%nat) by lia. subst j. rewrite cumsum_0 in F. destruct l; [cbn in H; lia | exact F].
  - rewrite cumsum_S in F by exact H. apply add_fin in F as (A & B). destruct (Nat.eq_dec j (S k)) as [->|NE]; [exact B|]. apply IH; [lia | exact A | lia].
Qed.
Lemma all_fin_map (l : list xq) : (forall j, (j < length l)%nat -> nisfin (nth j l n0) = true) -> exists w, l = map XFin w.
Proof.
  induction l as [|a l IH]; intros H; [exists []; reflexivity|]. destruct IH as (w & ->); [intros j Hj; apply (H (S j)); cbn; lia|].
  specialize (H 0%nat ltac:(cbn; lia)). cbn in H. destruct a as [| |a]; try discriminate. exists (a :: w). reflexivity.
Qed.
Lemma Qcsum_pos w k : Forall (fun x => (0 <= x)%Qc) w -> (k < length w)%nat -> (0 < nth k w 0)%Qc -> (0 < Qcsum w)%Qc.
Proof.
  intros F H L. pose proof (prefix_mono w 0 k F ltac:(lia)) as A. pose proof (prefix_mono w (S k) (length w) F ltac:(lia)) as B. rewrite prefix_all in B.
  rewrite prefix_S in B by exact H. change (prefix_sum w 0) with 0%Qc in A. unfold Qclt, Qcle in *. rewrite this_add in B. change (this 0%Qc) with 0%Q in *. Lqa.lra.
Qed.
Lemma interior_weighs lm (P : pobj xq) x y : field_ok lm P -> depth_clean P -> weights_finite lm P -> o_steep P = false -> inside P x y ->
  exists w, weighs lm P (x, y) w /\ length w = 9%nat.
Proof.
  intros (WF & GO & PO & _) DC FI ST IN. assert (GI : in_grid P x y) by (unfold inside in IN; unfold in_grid; lia).
  specialize (FI x y GI). unfold pick_vector in FI. rewrite ST in FI. pose proof (weights_length lm P x y WF GI) as L9.
  destruct (all_fin_map (map nanz (weights_of lm P x y))) as (w & E).
  { intros j Hj. rewrite map_length, L9 in Hj. apply (cumsum_fin_all _ 8); [rewrite map_length; lia | exact FI | lia]. }
  exists w. assert (LW : length w = 9%nat) by (rewrite <- (map_length XFin), <- E, map_length; exact L9). split; [|exact LW]. split; [exact E|].
  assert (NN : Forall (fun x => (0 <= x)%Qc) w).
  { apply Forall_forall. intros a Ha. apply In_nth with (d := 0%Qc) in Ha as (k & Hk & <-).
    assert (NG : nn (nth k (map nanz (weights_of lm P x y)) n0)) by (apply no_negative_nanz; intros m; apply weights_never_negative; assumption).
    rewrite E, nth_xfin in NG. unfold nn in NG. rewrite n0_xq in NG. apply xq_leb in NG. exact NG. }
  split; [exact NN|]. destruct (interior_has_positive lm P x y) as (k & K9 & KP); try assumption.
  apply (Qcsum_pos w k NN ltac:(lia)). apply xq_ltb. rewrite <- nth_xfin, <- E, nth_nanz, <- n0_xq.
  rewrite nanz_id; [exact KP|]. destruct (nth k (weights_of lm P x y) n0) eqn:EE; [discriminate KP | reflexivity | reflexivity].
Qed.
Lemma selects_chooses lm (P : pobj xq) x y w u k : o_steep P = false -> weighs lm P (x, y) w -> length w = 9%nat -> unit_draw u -> (k < 9)%nat ->
  (selects lm P x y u k <-> chooses w k u).
Proof.
  intros ST (E & NN & PS) LW (U0 & U1) K. unfold selects. rewrite ST. cbn [fst snd] in E.
  destruct u as [|b|u]; [discriminate U0 | destruct b; [discriminate U0 | discriminate U1] |]. rewrite n0_xq in U0. apply xq_leb in U0. rewrite n1_xq in U1. apply xq_ltb in U1.
  assert (RP : forall k, (exists v, random_pick (weights_of lm P x y) (XFin u) = Ok (k, v)) <-> random_pick (map XFin w) (XFin u) = Ok (k, map XFin w)).
  { intros k0. rewrite !random_pick_pick, nanz_map_fin, E. destruct (pick (map XFin w) (XFin u)); cbn [bind]; split.
    - intros (v & H). injection H as -> _. reflexivity.
    - intros H. exists (map XFin w). exact H.
    - intros (v & H). discriminate.
    - discriminate. }
  rewrite RP. rewrite (random_pick_interval w u k NN PS U0 U1). unfold chooses, lo_draw, hi_draw. split.
  - intros (_ & A & B). exists u. auto.
  - intros (v & Ev & A & B). injection Ev as <-. split; [lia|]. auto.
Qed.

Lemma default_steps k k' : (k < 9)%nat -> (k' < 9)%nat -> nth k default_jwalk 0 = nth k' default_jwalk 0 -> nth k default_iwalk 0 = nth k' default_iwalk 0 -> k = k'.
Proof. intros A B. do 9 (destruct k as [|k]; [do 9 (destruct k' as [|k']; [cbn; intros; first [reflexivity | discriminate | lia]|]); lia|]). lia. Qed.
Lemma default_stay k : (k < 9)%nat -> nth k default_jwalk 0 = 0 -> nth k default_iwalk 0 = 0 -> k = 4%nat.
Proof. intros A B C. apply default_steps; [exact A | lia | rewrite B; reflexivity | rewrite C; reflexivity]. Qed.
Lemma default_small k : -1 <= nth k default_jwalk 0 <= 1 /\ -1 <= nth k default_iwalk 0 <= 1.
Proof. do 9 (destruct k as [|k]; [cbn; lia|]). destruct k; cbn; lia. Qed.

Section Run.
Context {G : xq -> Prop}.
Variables (lm : Libm xq) (L W : Z) (p : params xq) (P : pobj xq) (draws : nat -> xq) (st : nat -> psim xq) (wk : nat -> walk xq) (n : nat).
Hypothesis S0 : session G lm L W p P draws (st 0%nat).
Hypothesis RUN : forall i, (i < n)%nat -> s_walk (st i) = Some (wk i) /\ run_step lm P draws (st i) = Ok (wk (S i), st (S i)).
Lemma run_sessions i : (i <= n)%nat -> session G lm L W p P draws (st i).
Proof.
  induction i as [|i IH]; intros H; [exact S0|]. destruct (RUN i ltac:(lia)) as (_ & R). eapply (session_op lm L W p P draws (st i) OpRun); [apply IH; lia | split; exact I|].
  cbn [do_op]. rewrite R. reflexivity.
Qed.
Lemma run_counts q i : (i <= n)%nat -> (q < count (wk 0%nat))%nat -> (q < count (wk i))%nat.
Proof.
  induction i as [|i IH]; intros H Hq; [exact Hq|]. destruct (RUN i ltac:(lia)) as (E & R).
  destruct (session_run lm L W p P draws (st i) (wk i) (wk (S i)) (st (S i)) q (run_sessions i ltac:(lia)) E R) as (_ & C & _). rewrite C. apply IH; [lia | exact Hq].
Qed.
End Run.

Lemma one_step_to lm (P : pobj xq) r u v r' : one_step lm P r u v r' ->
  (last_x r, last_y r) <> (0, 0) -> ~ edge_nearby P (last_x r) (last_y r) -> o_iwalk P = default_iwalk -> o_jwalk P = default_jwalk -> row_rect r ->
  exists k, (k < 9)%nat /\ selects lm P (last_x r) (last_y r) u k /\ (last_x r', last_y r') = (last_x r + nth k (o_jwalk P) 0, last_y r + nth k (o_iwalk P) 0).
Proof.
  intros O NZ NE TI TJ (RP & LY & _). unfold one_step in O. cbv zeta in O. rewrite TI, TJ in *. destruct O as [(C & ->)|(_ & _ & k & K9 & K4 & SE & ND & ->)].
  - destruct C as [C|[C|(k & K9 & SE & C)]]; [contradiction | contradiction|]. exists k. split; [exact K9|]. split; [exact SE|].
    assert (k = 4%nat) as -> by (destruct C as [C|(C1 & C2)]; [exact C | apply default_stay; assumption]). cbn [nth default_iwalk default_jwalk]. f_equal; lia.
  - exists k. split; [exact K9|]. split; [exact SE|]. f_equal.
    + unfold last_x at 1, xat, last_ix. cbn [r_x with_record]. rewrite app_length. cbn [length]. replace (length (r_x r) + 1 - 1)%nat with (length (r_x r)) by lia.
      rewrite app_nth2, Nat.sub_diag by lia. reflexivity.
    + unfold last_y at 1, yat, last_ix. cbn [r_x r_y with_record]. rewrite app_length. cbn [length]. replace (length (r_x r) + 1 - 1)%nat with (length (r_x r)) by lia.
      rewrite app_nth2 by lia. replace (length (r_x r) - length (r_y r))%nat with 0%nat by lia. reflexivity.
Qed.

(** A cell away from edges lies two cells inside the ring. *)
Lemma no_edge_inside lm (P : pobj xq) x y : field_ok lm P -> 0 <= x < nrow (o_depth P) -> 0 <= y < ncol (o_depth P) -> ~ edge_nearby P x y ->
  2 <= x < nrow (o_depth P) - 2 /\ 2 <= y < ncol (o_depth P) - 2.
Proof.
  intros (WF & _ & _ & RC & _ & HL & HW) Hx Hy NE.
  assert (NR : forall x' y', 0 <= x' < nrow (o_depth P) -> 0 <= y' < ncol (o_depth P) -> x - 1 <= x' <= x + 1 -> y - 1 <= y' <= y + 1 ->
    ~ (x' = 0 \/ y' = 0 \/ x' = nrow (o_depth P) - 1 \/ y' = ncol (o_depth P) - 1)).
  { intros x' y' A B C D E. apply NE. exists x', y'. split; [unfold in_grid; lia|]. split; [lia|]. split; [lia|]. apply RC. split; [unfold in_grid; lia|]. unfold inside. lia. }
  pose proof (NR x y Hx Hy ltac:(lia) ltac:(lia)).
  assert (~ (x = 1 \/ x = nrow (o_depth P) - 2)) by (intros [Q|Q]; [apply (NR (x - 1) y) | apply (NR (x + 1) y)]; lia).
  assert (~ (y = 1 \/ y = ncol (o_depth P) - 2)) by (intros [Q|Q]; [apply (NR x (y - 1)) | apply (NR x (y + 1))]; lia).
  lia.
Qed.

Theorem path_draws {G : xq -> Prop} lm L W (p : params xq) P draws (st : nat -> psim xq) (wk : nat -> walk xq) q (ks : list nat) :
  session G lm L W p P draws (st 0%nat) -> weights_finite lm P -> o_steep P = false ->
  (forall i, (i < length ks)%nat -> s_walk (st i) = Some (wk i) /\ run_step lm P draws (st i) = Ok (wk (S i), st (S i))) ->
  s_walk (st 0%nat) = Some (wk 0%nat) -> (q < count (wk 0%nat))%nat ->
  let c i := after P (place P (wk 0%nat) q) (firstn i ks) in
  (forall i, (i < length ks)%nat -> (nth i ks 0 < 9)%nat /\ c i <> (0, 0) /\ ~ edge_nearby P (fst (c i)) (snd (c i))) ->
  exists ws : nat -> list Qc,
    (forall i, (i < length ks)%nat -> weighs lm P (c i) (ws i) /\ length (ws i) = 9%nat) /\
    ((forall i, (i <= length ks)%nat -> place P (wk i) q = c i) <->
     (forall i, (i < length ks)%nat -> chooses (ws i) (nth i ks 0%nat) (direction_draw P draws (st i) (wk i) q))).
Proof.
  intros S0 FI ST RUN W0 Hq c PC. set (n := length ks) in *.
  destruct (session_field lm L W p P draws (st 0%nat) S0) as (FO & DC & US & _ & EL & EW).
  assert (TB : o_iwalk P = default_iwalk /\ o_jwalk P = default_jwalk).
  { destruct S0 as ((_ & _ & _ & DT & _) & (p' & EI) & _). destruct (init_ok lm p P p' EI) as (? & ? & ? & ? & ? & ? & HH).
    decompose [and] HH. destruct DT as (_ & _ & _ & D1 & D2 & _). rewrite D1 in *. rewrite D2 in *. cbn [dflt] in *. split; assumption. }
  destruct TB as (TI & TJ).
  assert (RR : forall i, (i <= n)%nat -> s_walk (st i) = Some (wk i) -> row_rect (hist P (wk i) q)).
  { intros i Hi E. apply (session_hist lm L W p P draws (st i) (wk i) q (run_sessions lm L W p P draws st wk n S0 RUN i Hi) E).
    apply (run_counts lm L W p P draws st wk n S0 RUN q i Hi Hq). }
  assert (CG : forall i, (i < n)%nat -> 2 <= fst (c i) < nrow (o_depth P) - 2 /\ 2 <= snd (c i) < ncol (o_depth P) - 2).
  { induction i as [|i IH]; intros Hi; destruct (PC _ Hi) as (_ & _ & NE); apply (no_edge_inside lm P _ _ FO); try exact NE.
    - unfold c. cbn [firstn after place fst]. rewrite EL. pose proof (RR 0%nat ltac:(lia) W0) as (RP & _).
      apply (session_positions lm L W p P draws (st 0%nat) (wk 0%nat) q (last_ix (hist P (wk 0%nat) q)) S0 W0 Hq). unfold last_ix. lia.
    - unfold c. cbn [firstn after place snd]. rewrite EW. pose proof (RR 0%nat ltac:(lia) W0) as (RP & _).
      apply (session_positions lm L W p P draws (st 0%nat) (wk 0%nat) q (last_ix (hist P (wk 0%nat) q)) S0 W0 Hq). unfold last_ix. lia.
    - specialize (IH ltac:(lia)). unfold c. rewrite after_S by (fold n; lia). cbv zeta. fold (c i). cbn [fst]. rewrite TJ. pose proof (default_small (nth i ks 0%nat)). lia.
    - specialize (IH ltac:(lia)). unfold c. rewrite after_S by (fold n; lia). cbv zeta. fold (c i). cbn [snd]. rewrite TI. pose proof (default_small (nth i ks 0%nat)). lia. }
  assert (WE : forall m, (m <= n)%nat -> exists ws : nat -> list Qc, forall i, (i < m)%nat -> weighs lm P (c i) (ws i) /\ length (ws i) = 9%nat).
  { induction m as [|m IH]; intros Hm; [exists (fun _ => []); intros; lia|]. destruct (IH ltac:(lia)) as (ws & H).
    destruct (interior_weighs lm P (fst (c m)) (snd (c m)) FO DC FI ST) as (w & Hw & L9); [pose proof (CG m ltac:(lia)); unfold inside; lia|]. rewrite <- surjective_pairing in Hw.
    exists (fun i => if Nat.eqb i m then w else ws i). intros i Hi. destruct (Nat.eqb_spec i m) as [->|NE]; [split; assumption|]. apply H. lia. }
  destruct (WE n (Nat.le_refl n)) as (ws & HW). exists ws. split; [exact HW|].
  assert (STEP : forall i, (i < n)%nat -> place P (wk i) q = c i ->
    (place P (wk (S i)) q = c (S i) <-> chooses (ws i) (nth i ks 0%nat) (direction_draw P draws (st i) (wk i) q))).
  { intros i Hi EP. destruct (RUN i Hi) as (E & R). pose proof (run_sessions lm L W p P draws st wk n S0 RUN i ltac:(lia)) as SI.
    destruct (session_draws lm L W p P draws (st i) (wk i) (wk (S i)) (st (S i)) SI E R) as (OS & _).
    specialize (OS q (run_counts lm L W p P draws st wk n S0 RUN q i ltac:(lia) Hq)).
    destruct (PC i Hi) as (K9 & NZ & NE). destruct (HW i Hi) as (WG & L9).
    unfold place in EP. destruct (one_step_to lm P _ _ _ _ OS) as (k & Hk & SE & EN); try assumption.
    { rewrite EP. exact NZ. } { pose proof (f_equal fst EP) as E1. pose proof (f_equal snd EP) as E2. cbn [fst snd] in E1, E2. rewrite E1, E2. exact NE. } { apply RR; [lia | exact E]. }
    assert (ED : direction_draw P draws (st i) (wk i) q = draws (w_pos (s_wst (st i)) + tally (awake P (wk i)) q)%nat) by reflexivity. rewrite <- ED in SE.
    assert (EX : last_x (hist P (wk i) q) = fst (c i)) by (rewrite <- EP; reflexivity). assert (EY : last_y (hist P (wk i) q) = snd (c i)) by (rewrite <- EP; reflexivity).
    rewrite EX, EY in *. unfold place. rewrite EN. unfold c at 3. rewrite after_S by (fold n; lia). cbv zeta. fold (c i).
    assert (UD : unit_draw (direction_draw P draws (st i) (wk i) q)) by (rewrite ED; apply US).
    rewrite <- (selects_chooses lm P (fst (c i)) (snd (c i)) (ws i)) by (try assumption; rewrite <- surjective_pairing; exact WG). rewrite TI, TJ in *. split.
    - intros H. pose proof (f_equal fst H) as H1. pose proof (f_equal snd H) as H2. cbn [fst snd] in H1, H2. assert (k = nth i ks 0%nat) as <- by (apply default_steps; [exact Hk | exact K9 | lia | lia]). exact SE.
    - intros H. rewrite (selects_fun _ _ _ _ _ _ _ SE H). reflexivity. }
  split.
  - intros H i Hi. apply STEP; [exact Hi | apply H; lia | apply H; lia].
  - intros H. induction i as [|i IH]; intros Hi; [reflexivity|]. apply STEP; [lia | apply IH; lia | apply H; lia].
Qed.
