(** Wet travel and times. *)
From Coq Require Import ZArith Bool String List Lia.
From Verif Require Import Num Py NumFacts Walker ParticleTrack SpecWeights SpecPick SpecWalk SpecHist SpecMotion
  ProofWeights ProofWeightLaws ProofPick ProofStep ProofStepper ProofRun ProofRunTo ProofHist.
Import ListNotations.
Open Scope Z_scope.

Section S.
Context {T : Type} {N : Num T} {NL : NumLaws T} {GV : T -> Prop}.

Lemma off_cover di dj : -1 <= di <= 1 -> -1 <= dj <= 1 -> exists k, (k < 9)%nat /\ row_off k = di /\ col_off k = dj.
Proof.
  intros Hi Hj.
  assert (C : (di = -1 \/ di = 0 \/ di = 1) /\ (dj = -1 \/ dj = 0 \/ dj = 1)) by lia.
  destruct C as ([->|[->| ->]] & [->|[->| ->]]);
  [exists 0%nat | exists 1%nat | exists 2%nat | exists 3%nat | exists 4%nat | exists 5%nat | exists 6%nat | exists 7%nat | exists 8%nat];
  (split; [lia | split; reflexivity]).
Qed.

(** C16 *)
Lemma wet_step lm (P : pobj T) x y t x' y' t' : field_ok lm P -> depth_clean P -> nisnan (o_dry P) = false -> d8_steps P ->
  (forall u, GV u -> clear_draw lm P u) -> safe_pos P x y ->
  documented_step GV lm P x y t x' y' t' -> wet_arrival lm P x y x' y'.
Proof.
  intros FO DC DN D8 CD SP DS. assert (FO' := FO). destruct FO' as (Hw & G & Hp & R & TB & _).
  destruct (documented_inside _ _ _ _ _ _ _ _ R TB SP DS) as (I & _).
  destruct DS as (k & u & w & Hk & K4 & Uu & Uw & NE & N0 & (v & SE) & EX & EY & ND & ET & Gu & Gw).
  destruct (D8 k Hk) as (EJ & EI). rewrite EJ in EX. rewrite EI in EY.
  assert (PW : nltb n0 (nth k (weights_of lm P x y) n0) = true).
  { pose proof (CD u Gu x y I) as C. unfold pick_vector in C.
    assert (NN : no_negative (weights_of lm P x y)) by (intros m; apply weights_never_negative; try assumption; unfold inside, in_grid in *; lia).
    destruct (o_steep P).
    - destruct (steep_pick_max _ _ _ _ NN Uu SE C) as (_ & _ & Q & _). exact Q.
    - destruct (random_pick_positive _ _ _ _ NN Uu SE C) as (_ & Q). exact Q. }
  assert (NZ : neqb (nth k (weights_of lm P x y) n0) n0 = false).
  { destruct (neqb _ _) eqn:E in |- *; [|reflexivity]. apply eq_le, le_not_lt in E. congruence. }
  destruct (nonzero_weight_target lm P x y k Hw G Hp DC DN I Hk NZ) as [(A & B)|(A & B)].
  - left. unfold nb in *. rewrite <- EX, <- EY in *. split; assumption.
  - right. split; [exact A|]. intros i j Hi Hj. destruct (off_cover (i - x) (j - y)) as (m & Hm & Em1 & Em2); [lia | lia |].
    specialize (B m Hm). unfold nb in B. rewrite Em1, Em2 in B.
    replace (x + (i - x)) with i in B by lia. replace (y + (j - y)) with j in B by lia. rewrite <- EX, <- EY in B. exact B.
Qed.

Lemma wet_history lm (P : pobj T) r i : field_ok lm P -> depth_clean P -> nisnan (o_dry P) = false -> d8_steps P ->
  (forall u, GV u -> clear_draw lm P u) -> history_ok GV lm P r -> (S i < length (r_x r))%nat ->
  wet_arrival lm P (xat r i) (yat r i) (xat r (S i)) (yat r (S i)).
Proof.
  intros FO DC DN D8 CD H Hi. destruct (history_positions lm P r FO H i ltac:(lia)) as (SP & _).
  destruct H as (_ & _ & D & _). eapply wet_step; try eassumption. apply D, Hi.
Qed.

(** C17 *)
Lemma travel_nn lm (P : pobj T) k x y x' y' w : times_defined lm P -> (k < 9)%nat -> in_grid P x y -> in_grid P x' y' -> unit_draw w ->
  nn (travel_time lm P k x y x' y' w).
Proof.
  intros (D & V & D0 & D2 & C) Hk G1 G2 (U0 & U1). unfold travel_time. destruct (D k Hk) as (DN & DF).
  assert (PJ : nn (projected lm P k x y) /\ nisfin (projected lm P k x y) = true).
  { unfold projected. cbv zeta. set (a := m_cos lm _). set (d := nmul (nth k (o_dist P) n0) (o_dx P)) in *.
    assert (A : nn (if nltb n0 a then a else n0) /\ nleb (if nltb n0 a then a else n0) n1 = true /\ nisfin (if nltb n0 a then a else n0) = true).
    { destruct (nltb n0 a) eqn:E.
      - assert (L1 : nleb a n1 = true) by (apply not_lt_le; [apply n1_notnan | eapply lt_nan_r, E | apply C]).
        split; [apply lt_le, E|]. split; [exact L1|]. exact (fin_between n0 a n1 n0_fin n1_fin (lt_le _ _ E) L1).
      - split; [apply nn_n0|]. split; [apply n0_le_n1 | apply n0_fin]. }
    destruct A as (A0 & A1 & AF). split; [apply mul_nn; assumption|].
    apply (fin_between n0 _ d n0_fin DF); [apply mul_nn; assumption | apply mul_le_r; assumption]. }
  destruct PJ as (PN & PF). destruct half_ok as (H0 & H1 & HF).
  assert (HP : nn (nmul nhalf (projected lm P k x y)) /\ nisfin (nmul nhalf (projected lm P k x y)) = true).
  { assert (Q : nn (nmul nhalf (projected lm P k x y))) by (apply mul_nn; assumption). split; [exact Q|].
    apply (fin_between n0 _ _ n0_fin PF Q). apply mul_le_l; assumption. }
  destruct HP as (HN & HFi). destruct (inv_sum_ok _ _ (V x y G1) (V x' y' G2)) as (IN & IF).
  assert (M : nn (nmul (nmul nhalf (projected lm P k x y)) (nadd (ndiv n1 (cell (o_vel P) x y)) (ndiv n1 (cell (o_vel P) x' y'))))) by (apply mul_nn; assumption).
  unfold diffusion. destruct (nltb n0 (o_diff P)) eqn:E.
  - destruct (diff_pos w (o_diff P) U0 U1 D0 D2) as (Q1 & Q2). apply mul_nn_pos; assumption.
  - destruct nodiff_pos as (Q1 & Q2). apply mul_nn_pos; assumption.
Qed.
Lemma time_step lm (P : pobj T) x y t x' y' t' lo : field_ok lm P -> times_defined lm P -> safe_pos P x y ->
  nisfin lo = true -> nleb lo t = true -> documented_step GV lm P x y t x' y' t' -> nleb t t' = true.
Proof.
  intros FO TD SP LF LT DS. assert (FO' := FO). destruct FO' as (_ & _ & _ & R & TB & _).
  destruct (documented_inside _ _ _ _ _ _ _ _ R TB SP DS) as (I & I' & _).
  destruct DS as (k & u & w & Hk & K4 & Uu & Uw & NE & N0 & SE & EX & EY & ND & ET & Gu & Gw). rewrite ET.
  eapply add_ge; [exact LF | exact LT|]. apply travel_nn; try assumption; unfold inside, in_grid in *; lia.
Qed.
Lemma time_history lm (P : pobj T) r : field_ok lm P -> times_defined lm P -> history_ok GV lm P r -> nisfin (tat r 0) = true ->
  forall i j, (i <= j)%nat -> (j < length (r_x r))%nat -> nleb (tat r i) (tat r j) = true.
Proof.
  intros FO TD H F.
  assert (LO : forall i, (i < length (r_x r))%nat -> nleb (tat r 0) (tat r i) = true /\ ((S i < length (r_x r))%nat -> nleb (tat r i) (tat r (S i)) = true)).
  { assert (ST : forall i, (S i < length (r_x r))%nat -> nleb (tat r 0) (tat r i) = true -> nleb (tat r i) (tat r (S i)) = true).
    { intros i Hi L. destruct (history_positions lm P r FO H i ltac:(lia)) as (SP & _). destruct H as (_ & _ & D & _).
      exact (time_step lm P _ _ _ _ _ _ _ FO TD SP F L (D i Hi)). }
    induction i as [|i IH]; intros Hi.
    - assert (Q : nleb (tat r 0) (tat r 0) = true) by (apply leb_refl, fin_notnan, F). split; [exact Q|]. intros Hs. apply ST; assumption.
    - destruct (IH ltac:(lia)) as (A & B). assert (Q : nleb (tat r 0) (tat r (S i)) = true) by (eapply leb_trans; [exact A | apply B; lia]).
      split; [exact Q|]. intros Hs. apply ST; assumption. }
  intros i j L. induction L as [|j L IH]; intros Hj.
  - destruct (LO i Hj) as (A & _). apply leb_refl. eapply leb_nan_r, A.
  - eapply leb_trans; [apply IH; lia | apply LO; lia].
Qed.
End S.
