(** Lemmas for C116: the exponent theta (exact arithmetic). *)
From Coq Require Import ZArith Bool String List QArith Qcanon Lia Lqa.
From Verif Require Import Num NumFacts NumMore XQ XQLaws XQFacts Py Walker ParticleTrack SpecWeights SpecInit SpecPick SpecShift SpecPath SpecTheta
  ProofWeights ProofWeightLaws ProofWeightExt ProofInit ProofPickExact ProofShift ProofFast.
Import ListNotations.
Open Scope Z_scope.

(** ** Two weight functions that differ by positive factors *)
Lemma this_mul x y : (this (x * y)%Qc == this x * this y)%Q.
Proof. apply Qred_correct. Qed.
Lemma this_add x y : (this (x + y)%Qc == this x + this y)%Q.
Proof. apply Qred_correct. Qed.
Lemma notpos_zero (x : xq) : nltb x n0 = false -> nltb n0 x = false -> nanz x = XFin 0%Qc.
Proof.
  intros A B. destruct x as [|[|]|q]; try discriminate; [exact n0_xq|]. rewrite n0_xq in *. apply xq_ltb_f in A, B. cbn [nanz nisnan XQnum xisnan]. unfold nanz. cbn. f_equal. apply Qcle_antisym; assumption.
Qed.
Lemma dead_iff (f : nat -> xq) : (forall k, nltb (f k) n0 = false) -> (nleb (total9 f) n0 = true <-> forall k, (k < 9)%nat -> nltb n0 (f k) = false).
Proof.
  intros NN. split.
  - intros D k Hk. destruct (nltb n0 (f k)) eqn:E; [|reflexivity]. pose proof (some_positive_total f k NN Hk E) as X. apply lt_not_le in X. congruence.
  - intros A. assert (E : total9 f = XFin 0%Qc).
    { unfold total9, nansum9. cbn [seq map]. rewrite !(fun k H => notpos_zero (f k) (NN k) (A k H)) by lia. rewrite !xq_add. f_equal. }
    rewrite E, n0_xq. apply xq_leb. apply Qcle_refl.
Qed.
Lemma nanz_times a (m : xq) w : (0 < a)%Qc -> nltb (times_k a m) n0 = false -> nanz (times_k a m) = XFin w -> exists r, (0 <= r)%Qc /\ w = (r * a)%Qc /\ forall b, (0 < b)%Qc -> nanz (times_k b m) = XFin (r * b)%Qc.
Proof.
  intros A NN E. destruct m as [|s|q].
  - exists 0%Qc. split; [apply Qcle_refl|]. change (nanz (times_k a XNaN)) with (n0 : xq) in E. rewrite n0_xq in E. injection E as <-. split; [ring|]. intros b _. change (nanz (times_k b XNaN)) with (n0 : xq). rewrite n0_xq. f_equal. ring.
  - rewrite (f_inf a A) in E. destruct s; discriminate.
  - exists q. rewrite ProofShift.f_fin in *. unfold nanz in E. cbn [nisnan XQnum xisnan] in E. injection E as <-. rewrite n0_xq in NN. apply xq_ltb_f in NN. unfold Qclt, Qcle in *. rewrite this_mul in NN. change (this 0%Qc) with 0%Q in *.
    split; [|split; [reflexivity | intros; reflexivity]]. destruct (Qlt_le_dec (this q) 0) as [C|C]; [exfalso; nra | exact C].
Qed.

(** ** The weights of a cell for two values of theta *)
Section Two.
Variables (lm : Libm xq) (P Q : pobj xq) (i j : Z).
Hypothesis SAME : o_depth Q = o_depth P /\ o_stage Q = o_stage P /\ o_qx Q = o_qx P /\ o_qy Q = o_qy P /\ o_ct Q = o_ct P /\ o_dry Q = o_dry P /\ o_gamma Q = o_gamma P /\
  o_dist Q = o_dist P /\ o_ivec Q = o_ivec P /\ o_jvec Q = o_jvec P.
Hypothesis LAW : larger_exponent lm (o_theta P) (o_theta Q).
Hypothesis DRY : nleb n0 (o_dry P) = true.
Hypothesis FIN : forall k, (k < 9)%nat -> nisfin (nb i j (o_depth P) k) = true.
Hypothesis NNP : forall k, nltb (base_weight lm P i j k) n0 = false.
Hypothesis NNQ : forall k, nltb (base_weight lm Q i j k) n0 = false.
Definition mixed (k : nat) : xq := nadd (nmul (o_gamma P) (SpecWeights.share (slope P i j) k)) (nmul (nsub n1 (o_gamma P)) (SpecWeights.share (inertia P i j) k)).
Lemma blocked_same k : nb_blocked Q i j k = nb_blocked P i j k.
Proof. destruct SAME as (A & _ & _ & _ & B & C & _). unfold nb_blocked. rewrite A, B, C. reflexivity. Qed.
Lemma base_p k : base_weight lm P i j k = if nb_blocked P i j k then n0 else nmul (m_pow lm (nb i j (o_depth P) k) (o_theta P)) (mixed k).
Proof. reflexivity. Qed.
Lemma base_q k : base_weight lm Q i j k = if nb_blocked P i j k then n0 else nmul (m_pow lm (nb i j (o_depth P) k) (o_theta Q)) (mixed k).
Proof.
  unfold base_weight. rewrite blocked_same. destruct (nb_blocked P i j k) eqn:B; [reflexivity|]. unfold mixed.
  assert (ES : slope Q i j = slope P i j).
  { unfold slope, nb_blocked. destruct SAME as (A & B1 & C & D & E & F & G & H & I & J). rewrite A, B1, E, F, H. reflexivity. }
  assert (EI : inertia Q i j = inertia P i j).
  { unfold inertia, nb_blocked. destruct SAME as (A & B1 & C & D & E & F & G & H & I & J). rewrite A, C, D, E, F, H, I, J. reflexivity. }
  rewrite ES, EI. destruct SAME as (A & B1 & C & D & E & F & G & H & I & J). rewrite A, G. reflexivity.
Qed.
Lemma mul_times a (m : xq) : nmul (XFin a) m = times_k a m.
Proof.
  unfold times_k. destruct m as [|s|q]; [reflexivity | | rewrite !xq_mul; f_equal; ring]. cbn [nmul XQnum xmul]. rewrite orb_comm, xorb_comm. reflexivity.
Qed.
Lemma open_pos k : (k < 9)%nat -> nb_blocked P i j k = false -> exists d, nb i j (o_depth P) k = XFin d /\ (0 < d)%Qc.
Proof.
  intros Hk B. destruct (xfin_ex _ (FIN k Hk)) as (d & E). exists d. split; [exact E|]. unfold nb_blocked in B. apply orb_false_iff in B as (B & _). rewrite E in B.
  rewrite n0_xq in DRY. destruct (o_dry P) as [|[|]|q]; try discriminate. apply xq_leb in DRY. apply xq_leb_f in B. unfold Qclt, Qcle in *. lra.
Qed.
(** in terms of factors *)
Lemma factors k : (k < 9)%nat -> exists a b m, (0 < a)%Qc /\ (0 < b)%Qc /\ base_weight lm P i j k = times_k a m /\ base_weight lm Q i j k = times_k b m /\
  (nb_blocked P i j k = true /\ m = n0 \/ nb_blocked P i j k = false /\ exists d, (0 < d)%Qc /\ nb i j (o_depth P) k = XFin d /\ m_pow lm (XFin d) (o_theta P) = XFin a /\ m_pow lm (XFin d) (o_theta Q) = XFin b).
Proof.
  intros Hk. rewrite base_p, base_q. destruct (nb_blocked P i j k) eqn:B.
  - exists 1%Qc, 1%Qc, n0. split; [reflexivity|]. split; [reflexivity|]. rewrite (f_n0 1%Qc). auto.
  - destruct (open_pos k Hk B) as (d & E & D). rewrite E. destruct (LAW d d D (Qcle_refl d)) as (d1 & d2 & e1 & e2 & A1 & A2 & _ & _ & (P1 & P2 & _) & _).
    exists d1, d2, (mixed k). rewrite A1, A2, !mul_times. split; [exact P1|]. split; [exact P2|]. split; [reflexivity|]. split; [reflexivity|]. right. split; [reflexivity|]. exists d. auto.
Qed.
Lemma positive_same k : (k < 9)%nat -> nltb n0 (base_weight lm Q i j k) = nltb n0 (base_weight lm P i j k).
Proof. intros Hk. destruct (factors k Hk) as (a & b & m & A & B & E1 & E2 & _). rewrite E1, E2, (f_lt0 a A), (f_lt0 b B). reflexivity. Qed.
Lemma dead_same : nleb (total9 (base_weight lm Q i j)) n0 = nleb (total9 (base_weight lm P i j)) n0.
Proof.
  apply eq_iff_eq_true. rewrite (dead_iff _ NNP), (dead_iff _ NNQ). split; intros H k Hk; specialize (H k Hk); rewrite (positive_same k Hk) in *; exact H.
Qed.
Lemma deepest_same : deepest Q i j = deepest P i j.
Proof. unfold deepest. destruct SAME as (A & _). rewrite A. reflexivity. Qed.
Lemma depth_same : o_depth Q = o_depth P.
Proof. apply SAME. Qed.

Section Odds.
Variables (wp wq : nat -> Qc).
Hypothesis WP : forall k, (k < 9)%nat -> nanz (spec_weight lm P i j k) = XFin (wp k).
Hypothesis WQ : forall k, (k < 9)%nat -> nanz (spec_weight lm Q i j k) = XFin (wq k).
Lemma dead_equal : nleb (total9 (base_weight lm P i j)) n0 = true -> forall k, (k < 9)%nat -> wq k = wp k.
Proof.
  intros D k Hk. pose proof (WP k Hk) as E1. pose proof (WQ k Hk) as E2. unfold spec_weight in E1, E2. rewrite dead_same, deepest_same, depth_same, D in E2. rewrite D in E1. cbn [andb] in *.
  destruct (neqb _ _); [rewrite E1 in E2; injection E2 as ->; reflexivity|].
  pose proof (proj1 (dead_iff _ NNP) D k Hk) as Z1. pose proof Z1 as Z2. rewrite <- (positive_same k Hk) in Z2.
  rewrite (notpos_zero _ (NNP k) Z1) in E1. rewrite (notpos_zero _ (NNQ k) Z2) in E2. injection E1 as <-. injection E2 as <-. reflexivity.
Qed.
Lemma live_factors : nleb (total9 (base_weight lm P i j)) n0 = false -> forall k, (k < 9)%nat -> exists a b r, (0 < a)%Qc /\ (0 < b)%Qc /\ (0 <= r)%Qc /\ wp k = (r * a)%Qc /\ wq k = (r * b)%Qc /\
  (r = 0%Qc \/ nb_blocked P i j k = false /\ exists d, (0 < d)%Qc /\ nb i j (o_depth P) k = XFin d /\ m_pow lm (XFin d) (o_theta P) = XFin a /\ m_pow lm (XFin d) (o_theta Q) = XFin b).
Proof.
  intros D k Hk. pose proof (WP k Hk) as E1. pose proof (WQ k Hk) as E2. unfold spec_weight in E1, E2. rewrite dead_same in E2. rewrite D in *. cbn [andb] in *.
  pose proof (NNP k) as N. destruct (factors k Hk) as (a & b & m & A & B & F1 & F2 & C). rewrite F1 in *. rewrite F2 in *.
  destruct (nanz_times a m (wp k) A N E1) as (r & R & W1 & RB). rewrite (RB b B) in E2. injection E2 as W2. exists a, b, r. split; [exact A|]. split; [exact B|]. split; [exact R|]. split; [exact W1|]. split; [symmetry; exact W2|].
  destruct C as [(C & ->)|C]; [left | right; exact C]. rewrite (f_n0 a) in E1. unfold nanz in E1. change (nisnan (n0 : xq)) with false in E1. rewrite n0_xq in E1. injection E1 as E1. rewrite W1 in E1. symmetry in E1. apply Qcmult_integral in E1 as [E1|E1]; [exact E1|]. exfalso. exact (qc_pos_nz a A E1).
Qed.
(** the odds of a deeper cell over a shallower one do not fall *)
Lemma odds k m : (k < 9)%nat -> (m < 9)%nat ->
  (nb_blocked P i j k = false -> nb_blocked P i j m = false -> nleb (nb i j (o_depth P) m) (nb i j (o_depth P) k) = true) -> (wp k * wq m <= wq k * wp m)%Qc.
Proof.
  intros Hk Hm LE. destruct (nleb (total9 (base_weight lm P i j)) n0) eqn:D.
  - rewrite !(dead_equal D) by assumption. rewrite Qcmult_comm. apply Qcle_refl || (replace (wp m * wp k)%Qc with (wp k * wp m)%Qc by ring; apply Qcle_refl).
  - destruct (live_factors D k Hk) as (a & b & r & A & B & R & W1 & W2 & C). destruct (live_factors D m Hm) as (a' & b' & r' & A' & B' & R' & W1' & W2' & C'). rewrite W1, W2, W1', W2'.
    destruct C as [->|(BK & e & E0 & E & PE1 & PE2)]; [unfold Qcle; rewrite !this_mul; change (this 0%Qc) with 0%Q; lra|].
    destruct C' as [->|(BM & d & D0 & E' & PD1 & PD2)]; [unfold Qcle; rewrite !this_mul; change (this 0%Qc) with 0%Q; lra|].
    specialize (LE BK BM). rewrite E, E' in LE. apply xq_leb in LE. destruct (LAW d e D0 LE) as (d1 & d2 & e1 & e2 & X1 & X2 & X3 & X4 & _ & X).
    rewrite PD1 in X1. rewrite PD2 in X2. rewrite PE1 in X3. rewrite PE2 in X4. injection X1 as <-. injection X2 as <-. injection X3 as <-. injection X4 as <-.
    replace (r * a * (r' * b'))%Qc with (a * b' * (r * r'))%Qc by ring. replace (r * b * (r' * a'))%Qc with (b * a' * (r * r'))%Qc by ring. apply Qcmult_le_compat_r; [exact X|].
    unfold Qcle in *. rewrite this_mul. change (this 0%Qc) with 0%Q in *. nra.
Qed.
End Odds.
End Two.

(** ** The constructor *)
Lemma init_with_theta lm (p : params xq) t1 t2 P Q a b : init lm (with_theta t1 p) = Ok (P, a) -> init lm (with_theta t2 p) = Ok (Q, b) ->
  (o_depth Q = o_depth P /\ o_stage Q = o_stage P /\ o_qx Q = o_qx P /\ o_qy Q = o_qy P /\ o_ct Q = o_ct P /\ o_dry Q = o_dry P /\ o_gamma Q = o_gamma P /\
   o_dist Q = o_dist P /\ o_ivec Q = o_ivec P /\ o_jvec Q = o_jvec P) /\ o_theta P = t1 /\ o_theta Q = t2 /\ o_dry P = dflt (p_dry p) ntenth.
Proof.
  intros HP HQ. destruct (init_ok _ _ _ _ HP) as (dx & depth & pd & stage & ps & f & DX & D & S1 & F & _ & E). destruct (init_ok _ _ _ _ HQ) as (dx' & depth' & pd' & stage' & ps' & f' & DX' & D' & S1' & F' & _ & E').
  change (init_depth (with_theta t2 p)) with (init_depth (with_theta t1 p)) in D'. rewrite D in D'. injection D' as <- <-.
  change (init_stage (with_theta t2 p) depth pd) with (init_stage (with_theta t1 p) depth pd) in S1'. rewrite S1 in S1'. injection S1' as <- <-.
  change (init_flow (with_theta t2 p) depth) with (init_flow (with_theta t1 p) depth) in F'. rewrite F in F'. injection F' as <-.
  cbn [with_theta p_theta p_gamma p_dry p_ct p_dist p_ivec p_jvec dflt] in E, E'. decompose [and] E. decompose [and] E'. repeat match goal with |- _ /\ _ => split end; congruence.
Qed.

(** ** Shares *)
Lemma sum_le (u v : list Qc) c d : length u = length v -> (forall m, (m < length u)%nat -> (c * nth m u 0 <= d * nth m v 0)%Qc) -> (c * Qcsum u <= d * Qcsum v)%Qc.
Proof.
  revert v. induction u as [|x u IH]; intros [|y v] L H; try discriminate.
  - cbn. replace (c * 0)%Qc with (d * 0)%Qc by ring. apply Qcle_refl.
  - cbn [Qcsum fold_right] in *. fold (Qcsum u) (Qcsum v). replace (c * (x + Qcsum u))%Qc with (c * x + c * Qcsum u)%Qc by ring. replace (d * (y + Qcsum v))%Qc with (d * y + d * Qcsum v)%Qc by ring. apply Qcplus_le_compat.
    + apply (H 0%nat). cbn. lia.
    + apply IH; [now injection L|]. intros m Hm. apply (H (S m)). cbn. lia.
Qed.
Lemma share_le a b s t : (0 < s)%Qc -> (0 < t)%Qc -> (a * t <= b * s)%Qc -> (a / s <= b / t)%Qc.
Proof.
  intros A B H. pose proof (qc_pos_nz s A) as NS. pose proof (qc_pos_nz t B) as NT.
  replace (a / s)%Qc with (a * t * / (s * t))%Qc by (field; split; assumption). replace (b / t)%Qc with (b * s * / (s * t))%Qc by (field; split; assumption).
  apply Qcmult_le_compat_r; [exact H|]. assert (ST : (0 < s * t)%Qc) by (unfold Qclt in *; rewrite this_mul; change (this 0%Qc) with 0%Q in *; nra).
  pose proof (Qcmult_inv_r (s * t) (qc_pos_nz _ ST)) as I. destruct (Qclt_le_dec (/ (s * t)) 0) as [C|C]; [exfalso | exact C].
  apply (f_equal this) in I. assert (J : (this (s * t * / (s * t))%Qc == 1)%Q) by (rewrite I; reflexivity). rewrite this_mul in J. unfold Qclt in *. change (this 0%Qc) with 0%Q in *. nra.
Qed.
Lemma weighs_nth lm (P : pobj xq) i j w k : wf_obj P -> inside P i j -> weighs lm P (i, j) w -> (k < 9)%nat -> length w = 9%nat /\ nanz (spec_weight lm P i j k) = XFin (nth k w 0%Qc).
Proof.
  intros WF I (E & _ & _) Hk. cbn [fst snd] in E. rewrite (weight_refines lm P i j WF I) in E.
  assert (L : length w = 9%nat) by (apply (f_equal (@length xq)) in E; rewrite !map_length, seq_length in E; symmetry; exact E). split; [exact L|].
  apply (f_equal (fun l => nth k l (XFin 0%Qc))) in E. rewrite (map_nth XFin w 0%Qc k) in E. rewrite <- E. rewrite map_map. symmetry. rewrite (nth_indep _ _ (nanz (spec_weight lm P i j 0))) by (rewrite map_length, seq_length; exact Hk).
  rewrite (map_nth (fun x => nanz (spec_weight lm P i j x)) (seq 0 9) 0%nat k). rewrite seq_nth by exact Hk. reflexivity.
Qed.
