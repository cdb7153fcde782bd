(** Lemmas for C118: with gamma = 1 particles move down the water surface (binary64). *)
From Coq Require Import ZArith Bool String List Lia Reals Lra.
From Flocq Require Import Core IEEE754.BinarySingleNaN.
From Verif Require Import Num F64 F64Laws NumFacts NumMore Py Walker ParticleTrack SpecWeights SpecPick SpecWalk SpecHist SpecInit SpecMotion SpecApi SpecDown
  ProofWeights ProofWeightLaws ProofWeightExt ProofPick ProofStep ProofRun ProofHist ProofMotion ProofApi ProofInit ProofApi2 P_Mono.
Import ListNotations.
Open Scope Z_scope.

Lemma f_mul0 (x : f64) : nltb n0 (nmul x n0) = false.
Proof.
  unfold n0. cbn [nltb nmul nofZ F64num]. destruct (fv x) as [|s|x Fx]; [reflexivity | destruct s; reflexivity |].
  assert (E : Bleb (fmul x (fofZ 0)) (fofZ 0) = true). { eapply V_leb_l; [apply fmul_V; [exact Fx | reflexivity] | reflexivity|]. simpl. lra. }
  exact (le_not_lt (T := f64) _ _ E).
Qed.
Lemma f_sub_pos (a b : f64) : not_inf a -> not_inf b -> nltb n0 (nsub a b) = true -> nltb b a = true.
Proof.
  intros FA FB H. destruct FA as [FA|FA]; [|destruct a; try discriminate]. destruct FB as [FB|FB]; [|destruct b; try discriminate; destruct a; discriminate]. destruct (nltb b a) eqn:E; [reflexivity|]. exfalso. assert (L : nleb a b = true) by (apply not_lt_le; [apply fin_notnan, FB | apply fin_notnan, FA | exact E]).
  assert (Z : Bleb (fsub a b) (fofZ 0) = true). { eapply V_leb_l; [apply fsub_V; [exact FA | exact FB] | reflexivity|]. apply (leb_R a b FA FB) in L; simpl; lra. }
  pose proof (le_not_lt (T := f64) (nsub a b) n0 Z) as Z2. congruence.
Qed.
Lemma f_div_pos (x d : f64) : nltb n0 d = true -> nisfin d = true -> nltb n0 (ndiv x d) = true -> nltb n0 x = true.
Proof.
  intros D FD H. destruct (nltb n0 x) eqn:E; [reflexivity|]. exfalso. unfold n0 in *. cbn [nltb nleb ndiv nofZ F64num] in *. destruct (fv x) as [|s|x Fx].
  - discriminate.
  - destruct s; [|discriminate]. destruct (fv d) as [|t|d Fd]; [discriminate | discriminate |]. destruct d as [t| | |t m e He]; try discriminate; destruct t; discriminate.
  - assert (L : nleb x n0 = true) by (apply not_lt_le; [apply n0_notnan | apply fin_notnan, Fx | exact E]).
    assert (PD : (0 < B2R d)%R). { pose proof (lt_not_le (T := f64) _ _ D) as Q. destruct (Rlt_le_dec 0 (B2R d)) as [R|R]; [exact R|]. exfalso. assert (Bleb d (fofZ 0) = true) by (apply (leb_0r d FD); exact R). cbn [nleb F64num] in Q. congruence. }
    assert (Z : Bleb (fdiv x d) (fofZ 0) = true). { eapply V_leb_l; [apply fdiv_V; [exact Fx | exact FD | lra] | reflexivity|]. apply (leb_0r x Fx) in L. simpl. unfold Rdiv. pose proof (Rinv_0_lt_compat _ PD). nra. }
    pose proof (le_not_lt (T := f64) (fdiv x d) (fofZ 0) Z) as Z2. cbn [nltb F64num] in Z2. congruence.
Qed.

(** A weight above 0 leads to a lower water level, if gamma = 1. *)
Lemma downhill_weight lm (P : pobj f64) i j k : o_gamma P = n1 -> inside P i j -> (k < 9)%nat -> finite_levels P -> nltb n0 (nth k (o_dist P) n0) = true -> nisfin (nth k (o_dist P) n0) = true ->
  nltb n0 (base_weight lm P i j k) = true -> nltb (nb i j (o_stage P) k) (cell (o_stage P) i j) = true.
Proof.
  intros G I Hk (FL & FF) D FD H. destruct (FF i j I) as (FS & FT & FI). unfold base_weight in H. destruct (nb_blocked P i j k) eqn:B; [rewrite (le_not_lt n0 n0) in H by (apply leb_refl, n0_notnan); discriminate|].
  rewrite G, sub_1_1, (share_mul0 _ k FI Hk) in H by (intros m Hm; apply inertia_cases, FI, Hm).
  destruct (FS k Hk) as [FK|FK].
  2: { exfalso. unfold share in H. destruct (slope P i j k) as [| | |] eqn:ES; try discriminate. destruct (nltb n0 (total9 (slope P i j))).
    - change (ndiv (BinarySingleNaN.B754_nan : f64) (total9 (slope P i j))) with (BinarySingleNaN.B754_nan : f64) in H. destruct (m_pow _ _ _) as [| | |]; discriminate.
    - destruct (m_pow _ _ _) as [| | |]; discriminate. }
  destruct (slope_cases P i j k FK) as [Z|Z].
  - exfalso. assert (ES : share (slope P i j) k = n0).
    { unfold share. rewrite Z. destruct (nltb n0 (total9 (slope P i j))) eqn:E; [apply div_0; [exact E | exact FT] | reflexivity]. }
    rewrite ES in H. replace (nadd (nmul n1 n0) n0 : f64) with (n0 : f64) in H by (vm_compute; reflexivity). rewrite f_mul0 in H. discriminate.
  - unfold slope in Z. rewrite B in Z. unfold pospart in Z. destruct (nleb _ n0) eqn:E in Z; [rewrite (le_not_lt n0 n0) in Z by (apply leb_refl, n0_notnan); discriminate|].
    apply f_div_pos in Z; [|exact D | exact FD]. apply f_sub_pos in Z; [exact Z | | apply FL].
    + apply FL. unfold inside, in_grid in *. lia.
    + apply nb_in_grid, I.
Qed.
(** The weight of the direction of a documented step is positive. *)
Lemma step_weight (G : f64 -> Prop) lm (P : pobj f64) x y t x' y' t' : field_ok lm P -> d8_steps P -> (forall u, G u -> clear_draw lm P u) -> safe_pos P x y -> documented_step G lm P x y t x' y' t' ->
  inside P x y /\ exists k, (k < 9)%nat /\ x' = x + row_off k /\ y' = y + col_off k /\ nltb n0 (nth k (weights_of lm P x y) n0) = true.
Proof.
  intros FO D8 CD SP DS. assert (FO' := FO). destruct FO' as (Hw & GA & Hp & R & TB & _).
  destruct (documented_inside _ _ _ _ _ _ _ _ R TB SP DS) as (I & _). split; [exact I|].
  destruct DS as (k & u & w & Hk & K4 & Uu & Uw & NE & N0 & (v & SE) & EX & EY & ND & ET & Gu & Gw). exists k.
  destruct (D8 k Hk) as (EJ & EI). rewrite EJ in EX. rewrite EI in EY. split; [exact Hk|]. split; [exact EX|]. split; [exact EY|].
  pose proof (CD u Gu x y I) as C. unfold pick_vector in C.
  assert (NN : no_negative (weights_of lm P x y)) by (intros m; apply weights_never_negative; try assumption; unfold inside, in_grid in *; lia).
  destruct (o_steep P).
  - destruct (steep_pick_max _ _ _ _ NN Uu SE C) as (_ & _ & Q & _). exact Q.
  - destruct (random_pick_positive _ _ _ _ NN Uu SE C) as (_ & Q). exact Q.
Qed.
(** For any gamma, a weight above 0 leads to a lower water level or along the flow. *)
Lemma f_zero (y : f64) : neqb y n0 = true -> exists s, y = BinarySingleNaN.B754_zero s.
Proof. intros H. destruct y as [s|[|]| |[|] m e He]; try discriminate. exists s. reflexivity. Qed.
Lemma f_mulz (x y : f64) : neqb y n0 = true -> nltb n0 (nmul x y) = false.
Proof. intros H. apply f_zero in H as (s & ->). destruct x as [t|t| |t m e He]; try reflexivity; destruct s, t; reflexivity. Qed.
Lemma f_mulz_fin (x y : f64) : nisfin x = true -> neqb y n0 = true -> neqb (nmul x y) n0 = true.
Proof. intros F H. apply f_zero in H as (s & ->). destruct x as [t|t| |t m e He]; try discriminate; destruct s, t; reflexivity. Qed.
Lemma zero_share (f : nat -> f64) k : f k = n0 -> nisfin (total9 f) = true -> share f k = n0.
Proof. intros Z FT. unfold share. rewrite Z. destruct (nltb n0 (total9 f)) eqn:E; [apply div_0; [exact E | exact FT] | reflexivity]. Qed.
Lemma weight_reason lm (P : pobj f64) i j k : gamma_ok P -> inside P i j -> (k < 9)%nat -> finite_levels P -> nltb n0 (nth k (o_dist P) n0) = true -> nisfin (nth k (o_dist P) n0) = true ->
  nltb n0 (base_weight lm P i j k) = true ->
  nltb (nb i j (o_stage P) k) (cell (o_stage P) i j) = true \/
  nltb n0 (nadd (nmul (cell (o_qx P) i j) (nth k (o_jvec P) n0)) (nmul (cell (o_qy P) i j) (nth k (o_ivec P) n0))) = true.
Proof.
  intros (G0 & G1) I Hk (FL & FF) D FD H. destruct (FF i j I) as (FS & FT & FI). unfold base_weight in H. destruct (nb_blocked P i j k) eqn:B; [rewrite (le_not_lt n0 n0) in H by (apply leb_refl, n0_notnan); discriminate|].
  assert (GF : nisfin (o_gamma P) = true) by (exact (fin_between n0 _ n1 n0_fin n1_fin G0 G1)).
  assert (GF2 : nisfin (nsub n1 (o_gamma P)) = true).
  { exact (proj2 (proj2 (f_sub1_le _ G0 G1))). }
  destruct (FS k Hk) as [FK|FK].
  2: { exfalso. unfold share in H at 1. destruct (slope P i j k) as [| | |] eqn:ES; try discriminate. assert (X : forall z : f64, nmul (o_gamma P) (ndiv (BinarySingleNaN.B754_nan : f64) z) = BinarySingleNaN.B754_nan /\ nmul (o_gamma P) (BinarySingleNaN.B754_nan : f64) = BinarySingleNaN.B754_nan) by (intros z; destruct (o_gamma P); split; reflexivity).
    destruct (nltb n0 (total9 (slope P i j))); rewrite ?(proj1 (X _)), ?(proj2 (X n0)) in H; destruct (m_pow _ _ _) as [| | |]; discriminate. }
  destruct (slope_cases P i j k FK) as [Z|Z].
  - right. destruct (inertia_cases P i j k (proj1 FI k Hk)) as [Y|Y].
    + exfalso. rewrite (zero_share _ _ Z FT), (zero_share _ _ Y (proj2 FI)), f_mulz in H; [discriminate|]. apply add_zz; (apply f_mulz_fin; [assumption | reflexivity]).
    + unfold inertia in Y. rewrite B in Y. unfold pospart in Y. destruct (nleb _ n0) eqn:E in Y; [rewrite (le_not_lt n0 n0) in Y by (apply leb_refl, n0_notnan); discriminate|]. apply f_div_pos in Y; assumption.
  - left. unfold slope in Z. rewrite B in Z. unfold pospart in Z. destruct (nleb _ n0) eqn:E in Z; [rewrite (le_not_lt n0 n0) in Z by (apply leb_refl, n0_notnan); discriminate|].
    apply f_div_pos in Z; [|exact D | exact FD]. apply f_sub_pos in Z; [exact Z | | apply FL].
    + apply FL. unfold inside, in_grid in *. lia.
    + apply nb_in_grid, I.
Qed.
Lemma not_dead lm (P : pobj f64) i j k : gamma_ok P -> pow_ok lm P -> wf_obj P -> inside P i j -> (k < 9)%nat -> nltb n0 (nth k (weights_of lm P i j) n0) = true -> dead_end lm P i j \/ nltb n0 (base_weight lm P i j k) = true.
Proof.
  intros G Hp Hw I Hk PW. destruct (nleb (total9 (base_weight lm P i j)) n0) eqn:T0.
  - left. intros m Hm. destruct (nltb n0 (base_weight lm P i j m)) eqn:E; [|reflexivity].
    assert (X : nltb n0 (total9 (base_weight lm P i j)) = true).
    { eapply lt_le_trans; [exact E|]. rewrite <- (nanz_id (base_weight lm P i j m)) by (eapply lt_nan_r; exact E). apply nansum9_ge; [reflexivity| |].
      - apply Forall_forall. intros x Hx. apply in_map_iff in Hx as (z & <- & _). apply base_notneg; assumption.
      - apply in_map_iff. exists m. split; [reflexivity | apply in_seq; lia]. }
    apply lt_not_le in X. congruence.
  - right. rewrite weight_nth in PW by assumption. unfold spec_weight in PW. rewrite T0 in PW. exact PW.
Qed.
Lemma dist_pos lm L W (p : params f64) P p' k : standard lm L W p -> init lm p = Ok (P, p') -> (k < 9)%nat -> nltb n0 (nth k (o_dist P) n0) = true /\ nisfin (nth k (o_dist P) n0) = true.
Proof.
  intros (_ & _ & _ & (DD & _) & _ & _ & _ & SQ & _) EI Hk. destruct (init_ok _ _ _ _ EI) as (dx & depth & pd & stage & ps & f & _ & _ & _ & _ & _ & E). assert (ED : o_dist P = dflt (p_dist p) (default_dist lm)) by (decompose [and] E; assumption). rewrite DD in ED. cbn [dflt] in ED. rewrite ED.
  destruct SQ as (S1 & SF & _). assert (A : nltb n0 (m_sqrt lm (nofZ 2)) = true) by (apply (lt_le_trans n0 n1); [unfold n0, n1; apply ofZ_lt; lia | exact S1]).
  unfold default_dist. do 9 (destruct k as [|k]; [first [split; [exact A | exact SF] | split; [apply (ofZ_lt 0 1); lia | apply n1_fin]]|]). lia.
Qed.
