(** Lemmas for C97: the same flow at another speed (exact arithmetic). *)
From Coq Require Import ZArith Bool String List Lia QArith Qcanon Lqa.
From Verif Require Import Num NumFacts NumMore XQ XQLaws XQFacts Py Walker ParticleTrack SpecWeights SpecPick SpecWalk SpecHist SpecInit SpecApi SpecDraw SpecShift SpecFast
  ProofStep ProofWeights ProofWeightLaws ProofWeightExt ProofApi ProofInit ProofApi2 ProofShift ProofDrawRun ProofStuck.
Import ListNotations.
Open Scope Z_scope.

Section K.
Variables (k : Qc) (K : (0 < k)%Qc).
Notation f := (times_k k).
Lemma f_n0 : f n0 = n0.
Proof. rewrite n0_xq. unfold times_k. rewrite xq_mul. f_equal. ring. Qed.
Lemma f_isnan x : nisnan (f x) = nisnan x.
Proof. destruct x as [|b|q]; [reflexivity | rewrite (f_inf k K); reflexivity | reflexivity]. Qed.
Lemma f_nanz x : nanz (f x) = f (nanz x).
Proof. unfold nanz. rewrite f_isnan. destruct (nisnan x); [symmetry; apply f_n0 | reflexivity]. Qed.
Lemma f_div_l a b : ndiv (f a) b = f (ndiv a b).
Proof.
  cbn [ndiv XQnum]. destruct a as [|s|a]; [reflexivity| |].
  - rewrite (f_inf k K). destruct b as [|t|b]; cbn [xdiv]; rewrite ?(f_inf k K); reflexivity.
  - destruct b as [|t|b]; [reflexivity | |].
    + rewrite f_fin. cbn [xdiv]. rewrite f_fin. f_equal. change qc0 with 0%Qc. ring.
    + pose proof (f_zero k K (XFin a)) as Z. pose proof (f_neg k K (XFin a)) as S. rewrite f_fin in *. unfold xdiv. rewrite Z, S. destruct (xzero (XFin b)).
      * destruct (xzero (XFin a)); [reflexivity | rewrite (f_inf k K); reflexivity].
      * rewrite f_fin. f_equal. unfold Qcdiv. ring.
Qed.
Lemma k_neq0 : k <> 0%Qc.
Proof. intros ->. apply Qclt_not_eq in K. apply K. reflexivity. Qed.
Lemma f_div_both a b : ndiv (f a) (f b) = ndiv a b.
Proof.
  cbn [ndiv XQnum]. destruct a as [|s|a]; [reflexivity| |]; destruct b as [|t|b]; rewrite ?(f_inf k K); try reflexivity.
  - pose proof (f_neg k K (XFin b)) as S. rewrite f_fin in *. unfold xdiv. rewrite S. reflexivity.
  - pose proof (f_neg k K (XFin a)) as S1. pose proof (f_zero k K (XFin b)) as Z. pose proof (f_zero k K (XFin a)) as Z1.
    rewrite !f_fin in *. unfold xdiv. rewrite Z, S1, Z1. destruct (xzero (XFin b)) eqn:E; [reflexivity|]. f_equal.
    assert (b <> 0%Qc). { intros ->. discriminate E. } field. split; [assumption | apply k_neq0].
Qed.
Lemma f_le0 x : nleb (f x) n0 = nleb x n0.
Proof.
  destruct x as [|[|]|q]; [reflexivity | rewrite (f_inf k K); reflexivity | rewrite (f_inf k K); reflexivity|].
  rewrite f_fin, n0_xq. apply eq_iff_eq_true. rewrite !xq_leb. unfold Qcle, Qclt in *. change (this 0%Qc) with 0%Q in *. rewrite this_mul. split; intros H; [|Lqa.nra].
  destruct (Qlt_le_dec 0 (this q)) as [A|A]; [|exact A]. exfalso. Lqa.nra.
Qed.
Lemma f_lt0 x : nltb n0 (f x) = nltb n0 x.
Proof.
  destruct x as [|[|]|q]; [reflexivity | rewrite (f_inf k K); reflexivity | rewrite (f_inf k K); reflexivity|].
  rewrite f_fin, n0_xq. apply eq_iff_eq_true. rewrite !xq_ltb. unfold Qclt in *. change (this 0%Qc) with 0%Q in *. rewrite this_mul. split; intros H; [|Lqa.nra].
  destruct (Qlt_le_dec 0 (this q)) as [A|A]; [exact A|]. exfalso. Lqa.nra.
Qed.
Lemma f_pospart x : pospart (f x) = f (pospart x).
Proof. unfold pospart. rewrite f_le0. destruct (nleb x n0); [symmetry; apply f_n0 | reflexivity]. Qed.
Lemma f_total g h : (forall m, (m < 9)%nat -> h m = f (g m)) -> total9 h = f (total9 g).
Proof.
  intros H. unfold total9, nansum9. cbn [seq map]. rewrite !H by lia. rewrite !f_nanz, !(f_add k K). reflexivity.
Qed.
Lemma f_share g h m : (forall m, nltb (g m) n0 = false) -> (forall m, (m < 9)%nat -> h m = f (g m)) -> (m < 9)%nat -> share h m = share g m.
Proof.
  intros NN H Hm. unfold share. rewrite (f_total g h H), f_lt0, (H m Hm). destruct (nltb n0 (total9 g)) eqn:E; [apply f_div_both|].
  destruct (nltb n0 (g m)) eqn:P; [rewrite (some_positive_total _ m NN Hm P) in E; discriminate|]. specialize (NN m).
  destruct (g m) as [|[|]|q]; try discriminate; [reflexivity|].
  assert (q = 0%Qc) as ->; [|rewrite <- n0_xq; apply f_n0].
  destruct (Qclt_le_dec 0 q) as [A|A]; [rewrite n0_xq in P; apply xq_ltb in A; congruence|].
  destruct (Qclt_le_dec q 0) as [B|B]; [rewrite n0_xq in NN; apply xq_ltb in B; congruence|]. apply Qcle_antisym; assumption.
Qed.

(** ** The constructor *)
Definition scaled_arr (a b : arr xq) : Prop := nrow b = nrow a /\ ncol b = ncol a /\ forall i j, cell b i j = f (cell a i j).
Lemma scaled_times a : scaled_arr a (times_arr k a).
Proof. repeat split. Qed.
Lemma scaled_nan0 a b : scaled_arr a b -> scaled_arr (nan_to_0 a) (nan_to_0 b).
Proof. intros (A & B & C). split; [exact A|]. split; [exact B|]. intros i j. cbn [nan_to_0 amap cell]. rewrite C. apply f_nanz. Qed.
Lemma scaled_neg a b : scaled_arr a b -> scaled_arr (neg1 a) (neg1 b).
Proof. intros (A & B & C). split; [exact A|]. split; [exact B|]. intros i j. cbn [neg1 amap cell]. rewrite C. apply (f_mul_r k K). Qed.
Lemma scaled_vel a b d : scaled_arr a b -> scaled_arr (vel_of_q a d) (vel_of_q b d).
Proof.
  intros (A & B & C). apply scaled_nan0. split; [exact A|]. split; [exact B|]. intros i j. cbn [amap2 cell]. rewrite C, (f_mul_l k K). apply f_div_l.
Qed.
Lemma scaled_prod a b d : scaled_arr a b -> scaled_arr (amap2 nmul a d) (amap2 nmul b d).
Proof. intros (A & B & C). split; [exact A|]. split; [exact B|]. intros i j. cbn [amap2 cell]. rewrite C. apply (f_mul_l k K). Qed.
Lemma flow_faster p depth a b : init_flow p depth = Ok a -> init_flow (faster k p) depth = Ok b ->
  scaled_arr (f_qx a) (f_qx b) /\ scaled_arr (f_qy a) (f_qy b) /\ scaled_arr (f_u a) (f_u b) /\ scaled_arr (f_v a) (f_v b).
Proof.
  unfold init_flow, is_deltarcm. cbn [faster with_flow p_model p_qx p_qy p_u p_v].
  destruct (match p_model p with Some m => String.eqb m "DeltaRCM" | None => false end); destruct (p_qx p) as [qx|], (p_qy p) as [qy|], (p_u p) as [u|], (p_v p) as [v|];
    cbn [option_map]; intros E1 E2; try discriminate; injection E1 as <-; injection E2 as <-; cbn [f_qx f_qy f_u f_v];
    repeat split; intros; try reflexivity;
    first [ apply scaled_nan0, scaled_times | apply scaled_nan0, scaled_neg, scaled_times | apply scaled_vel, scaled_nan0, scaled_times | apply scaled_vel, scaled_nan0, scaled_neg, scaled_times
          | apply scaled_prod, scaled_nan0, scaled_times | apply scaled_prod, scaled_nan0, scaled_neg, scaled_times ].
Qed.
(** Object Q built from k times the flow of object P. *)
Definition fast_obj (lm : Libm xq) (P Q : pobj xq) : Prop :=
  (o_depth Q = o_depth P /\ o_stage Q = o_stage P /\ o_ct Q = o_ct P /\ o_dist Q = o_dist P /\ o_ivec Q = o_ivec P /\ o_jvec Q = o_jvec P /\ o_iwalk Q = o_iwalk P /\
   o_jwalk Q = o_jwalk P /\ o_angles Q = o_angles P /\ o_dry Q = o_dry P /\ o_theta Q = o_theta P /\ o_gamma Q = o_gamma P /\ o_diff Q = o_diff P /\ o_steep Q = o_steep P /\ o_dx Q = o_dx P) /\
  scaled_arr (o_qx P) (o_qx Q) /\ scaled_arr (o_qy P) (o_qy Q) /\
  forall i j, exists u v, cell (o_u P) i j = floor_comp u /\ cell (o_u Q) i j = floor_comp (f u) /\ cell (o_v P) i j = floor_comp v /\ cell (o_v Q) i j = floor_comp (f v) /\
    cell (o_vel P) i j = floor_vel (m_sqrt lm (nadd (nmul u u) (nmul v v))) /\ cell (o_vel Q) i j = floor_vel (m_sqrt lm (nadd (nmul (f u) (f u)) (nmul (f v) (f v)))) /\
    cell (o_vang P) i j = m_atan2 lm (nmul (nofZ (-1)) (cell (o_u P) i j)) (cell (o_v P) i j) /\ cell (o_vang Q) i j = m_atan2 lm (nmul (nofZ (-1)) (cell (o_u Q) i j)) (cell (o_v Q) i j).
Lemma init_faster lm p P Q p' q' : init lm p = Ok (P, p') -> init lm (faster k p) = Ok (Q, q') -> fast_obj lm P Q.
Proof.
  unfold init. change (p_dx (faster k p)) with (p_dx p). destruct (p_dx p) as [dx|]; [|discriminate].
  change (init_depth (faster k p)) with (init_depth p). intros E1 E2. apply bind_ok in E1 as ((d1 & pd1) & D1 & E1). apply bind_ok in E2 as ((d2 & pd2) & D2 & E2).
  rewrite D1 in D2. injection D2 as <- <-. change (init_stage (faster k p)) with (init_stage p) in E2.
  apply bind_ok in E1 as ((s1 & ps1) & S1 & E1). apply bind_ok in E2 as ((s2 & ps2) & S2 & E2). rewrite S1 in S2. injection S2 as <- <-.
  apply bind_ok in E1 as (f1 & F1 & E1). apply bind_ok in E2 as (f2 & F2 & E2). destruct (flow_faster p d1 f1 f2 F1 F2) as (QX & QY & U & V).
  cbv zeta in E1, E2. apply bind_ok in E1 as (? & _ & E1). apply bind_ok in E2 as (? & _ & E2). injection E1 as <- <-. injection E2 as <- <-.
  split; [repeat split|]. split; [exact QX|]. split; [exact QY|]. intros i j. exists (cell (f_u f1) i j), (cell (f_v f1) i j).
  destruct U as (_ & _ & U). destruct V as (_ & _ & V). cbn [o_u o_v o_vel o_vang amap amap2 cell]. rewrite !U, !V. repeat split.
Qed.

(** ** Weights *)
Lemma weights_faster lm P Q i j : wf_obj P -> wf_obj Q -> fast_obj lm P Q -> inside P i j -> weights_of lm Q i j = weights_of lm P i j.
Proof.
  intros WP WQ ((D & S & C & DI & IV & JV & _ & _ & _ & DR & TH & GA & _) & (_ & _ & QX) & (_ & _ & QY) & _) IN.
  rewrite !weight_refines by (try assumption; unfold inside in *; rewrite ?D; exact IN).
  assert (BL : forall m, nb_blocked Q i j m = nb_blocked P i j m) by (intros m; unfold nb_blocked; rewrite D, C, DR; reflexivity).
  assert (SL : forall m, slope Q i j m = slope P i j m) by (intros m; unfold slope; rewrite BL, S, DI; reflexivity).
  assert (IN' : forall m, inertia Q i j m = f (inertia P i j m)).
  { intros m. unfold inertia. rewrite BL, QX, QY, IV, JV, DI. destruct (nb_blocked P i j m); [symmetry; apply f_n0|].
    rewrite !(f_mul_l k K), (f_add k K), f_div_l. apply f_pospart. }
  assert (EB : forall m, (m < 9)%nat -> base_weight lm Q i j m = base_weight lm P i j m).
  { intros m Hm. unfold base_weight. rewrite BL, D, TH, GA, (share_ext (slope Q i j) (slope P i j) m) by (auto).
    rewrite (f_share (inertia P i j) (inertia Q i j) m (inertia_notneg P i j)) by (intros; try apply IN'; assumption). reflexivity. }
  apply map_ext9. intros m Hm. unfold spec_weight. rewrite (total9_ext _ _ EB), (EB m Hm). unfold deepest. rewrite D. reflexivity.
Qed.

(** ** Speed, direction and travel time *)
Lemma floor_comp_above u : nltb neps8 (nabs (floor_comp u)) = true -> floor_comp u = u.
Proof. unfold floor_comp. destruct (nltb (nabs u) neps8) eqn:E; [|reflexivity]. intros H. exfalso. revert H. vm_compute. discriminate. Qed.
Lemma floor_vel_above u : nltb neps8 (floor_vel u) = true -> floor_vel u = u.
Proof. unfold floor_vel. destruct (nltb u neps8) eqn:E; [|reflexivity]. intros H. exfalso. revert H. vm_compute. discriminate. Qed.
Lemma speed_faster lm P Q x y : homogeneous lm k -> fast_obj lm P Q -> above_floor P x y -> above_floor Q x y ->
  cell (o_vel Q) x y = f (cell (o_vel P) x y) /\ cell (o_vang Q) x y = cell (o_vang P) x y.
Proof.
  intros (HS & HA) (_ & _ & _ & C) (A1 & A2 & A3) (B1 & B2 & B3). destruct (C x y) as (u & v & U1 & U2 & V1 & V2 & W1 & W2 & G1 & G2).
  rewrite U1 in A1. rewrite V1 in A2. rewrite W1 in A3. rewrite U2 in B1. rewrite V2 in B2. rewrite W2 in B3.
  rewrite G1, G2, U1, U2, V1, V2, W1, W2. rewrite (floor_comp_above u A1), (floor_comp_above v A2), (floor_comp_above (f u) B1), (floor_comp_above (f v) B2), (floor_vel_above _ A3), (floor_vel_above _ B3).
  split; [|rewrite (f_mul_r k K); apply HA]. rewrite !(f_mul_l k K), !(f_mul_r k K), !(f_add k K). apply HS.
Qed.
Lemma inv_k : (0 < / k)%Qc.
Proof.
  destruct (Qclt_le_dec 0 (/ k)) as [A|A]; [exact A|]. exfalso. assert (E : (k * / k = 1)%Qc) by (apply Qcmult_inv_r, k_neq0).
  assert (H : (this k * this (/ k)%Qc == 1)%Q) by (rewrite <- this_mul, E; reflexivity). unfold Qclt, Qcle in *. change (this 0%Qc) with 0%Q in *. Lqa.nra.
Qed.
Notation g := (times_k (/ k)).
Lemma inverse_speed v : nltb neps8 v = true -> ndiv n1 (f v) = g (ndiv n1 v).
Proof.
  intros H. assert (P : nltb n0 v = true) by (apply (le_lt_trans n0 neps8 v); [vm_compute; reflexivity | exact H]).
  destruct v as [|[|]|q]; try discriminate; [rewrite (f_inf k K)|].
  - rewrite n1_xq. cbn [ndiv XQnum xdiv]. rewrite f_fin. f_equal. change qc0 with 0%Qc. ring.
  - rewrite f_fin, n1_xq. rewrite n0_xq in P. apply xq_ltb in P. assert (q <> 0%Qc) by (intros ->; apply Qclt_not_eq in P; apply P; reflexivity).
    assert ((q * k)%Qc <> 0%Qc) by (intros C; apply Qcmult_integral in C as [C|C]; [contradiction | exact (k_neq0 C)]).
    rewrite !xq_div by assumption. rewrite f_fin. f_equal. field. split; [assumption | split; [assumption | apply k_neq0]] || (split; [apply k_neq0 | assumption]).
Qed.
Lemma time_faster lm P Q m x y x' y' w : homogeneous lm k -> fast_obj lm P Q -> above_floor P x y -> above_floor Q x y -> above_floor P x' y' -> above_floor Q x' y' ->
  travel_time lm Q m x y x' y' w = g (travel_time lm P m x y x' y' w).
Proof.
  intros HO FO A B A' B'. destruct (speed_faster lm P Q x y HO FO A B) as (V & AN). destruct (speed_faster lm P Q x' y' HO FO A' B') as (V' & _).
  destruct FO as ((_ & _ & _ & DI & _ & _ & _ & _ & AG & _ & _ & _ & DF & _ & DX) & _). destruct A as (_ & _ & A). destruct A' as (_ & _ & A').
  unfold travel_time, projected, diffusion. rewrite V, V', AN, DI, AG, DF, DX, (inverse_speed _ A), (inverse_speed _ A').
  rewrite (f_add (/ k) inv_k), (f_mul_r (/ k) inv_k), (f_mul_l (/ k) inv_k). reflexivity.
Qed.
End K.
