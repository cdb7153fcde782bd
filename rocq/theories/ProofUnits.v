(** Lemmas for C111: another unit for vertical distances. *)
From Coq Require Import ZArith Bool String List Lia QArith Qcanon Lqa.
From Verif Require Import Num NumFacts NumMore XQ XQLaws XQFacts Py Walker ParticleTrack SpecWeights SpecPick SpecWalk SpecHist SpecInit SpecApi SpecDraw SpecLocal SpecSim SpecShift SpecFast SpecUnits
  ProofStep ProofWeights ProofWeightLaws ProofWeightExt ProofApi ProofInit ProofApi2 ProofSim ProofShift ProofDrawRun ProofStuck ProofFast ProofLocal.
Import ListNotations.
Open Scope Z_scope.

(** ** Picking from weights multiplied by a positive number *)
Section Pick.
Variables (k : Qc) (K : (0 < k)%Qc).
Notation f := (times_k k).
Lemma f_ltb x y : nltb (f x) (f y) = nltb x y.
Proof.
  destruct x as [|[|]|a], y as [|[|]|b]; rewrite ?(f_inf k K); try reflexivity. rewrite !f_fin. apply eq_iff_eq_true. rewrite !xq_ltb. unfold Qclt in *. change (this 0%Qc) with 0%Q in *. rewrite !this_mul.
  split; intros H; [|Lqa.nra]. destruct (Qlt_le_dec (this a) (this b)) as [A|A]; [exact A|]. exfalso. Lqa.nra.
Qed.
Lemma f_leb x y : nleb (f x) (f y) = nleb x y.
Proof.
  destruct x as [|[|]|a], y as [|[|]|b]; rewrite ?(f_inf k K); try reflexivity. rewrite !f_fin. apply eq_iff_eq_true. rewrite !xq_leb. unfold Qclt, Qcle in *. change (this 0%Qc) with 0%Q in *. rewrite !this_mul.
  split; intros H; [|Lqa.nra]. destruct (Qlt_le_dec (this b) (this a)) as [A|A]; [|exact A]. exfalso. Lqa.nra.
Qed.
Lemma f_eqb x y : neqb (f x) (f y) = neqb x y.
Proof.
  rewrite !eqb_def, !f_leb. reflexivity.
Qed.
Lemma f_isfin x : nisfin (f x) = nisfin x.
Proof. destruct x as [|b|q]; [reflexivity | rewrite (f_inf k K); reflexivity | reflexivity]. Qed.
Lemma f_opp a : xopp (f a) = f (xopp a).
Proof. destruct a as [|s|a]; rewrite ?(f_inf k K); [reflexivity | cbn [xopp]; rewrite (f_inf k K); reflexivity|]. cbn [xopp]. rewrite !f_fin. cbn [xopp]. apply f_equal. ring. Qed.
Lemma f_sub a b : nsub (f a) (f b) = f (nsub a b).
Proof. change (nadd (f a) (xopp (f b)) = f (nadd a (xopp b))). rewrite f_opp. apply (f_add k K). Qed.
Lemma f_max2 a b : np_max2 (f a) (f b) = f (np_max2 a b).
Proof. unfold np_max2. rewrite !(f_isnan k K), f_ltb. destruct (nisnan a); [reflexivity|]. destruct (nisnan b); [reflexivity|]. destruct (nltb a b); reflexivity. Qed.
Lemma f_max l : np_max (map f l) = f (np_max l).
Proof.
  destruct l as [|a l]; [reflexivity|]. cbn [map np_max]. revert a. induction l as [|b l IH]; intros a; [reflexivity|]. cbn [map fold_left]. rewrite f_max2. apply IH.
Qed.
Lemma f_filter l : filter (fun x => negb (nisnan x)) (map f l) = map f (filter (fun x => negb (nisnan x)) l).
Proof. induction l as [|a l IH]; [reflexivity|]. cbn [map filter]. rewrite (f_isnan k K), IH. destruct (negb (nisnan a)); reflexivity. Qed.
Lemma f_nanmax l : np_nanmax (map f l) = f (np_nanmax l).
Proof. unfold np_nanmax. rewrite f_filter. apply f_max. Qed.
Lemma f_cumsum l : cumsum (map f l) = map f (cumsum l).
Proof.
  assert (F : forall m a, cumsum_from (f a) (map f m) = map f (cumsum_from a m)).
  { induction m as [|b m IH]; intros a; [reflexivity|]. cbn [map cumsum_from]. cbv zeta. rewrite (f_add k K), IH. reflexivity. }
  destruct l as [|a l]; [reflexivity|]. cbn [map cumsum]. rewrite F. reflexivity.
Qed.
Lemma f_bsearch fuel l x : forall lo hi, bsearch fuel (map f l) (f x) lo hi = bsearch fuel l x lo hi.
Proof.
  induction fuel as [|n IH]; intros lo hi; [reflexivity|]. cbn [bsearch]. cbv zeta. change (nnan : xq) with (f (nnan : xq)) at 1. rewrite map_nth. unfold np_lt. rewrite f_ltb, !(f_isnan k K), !IH. reflexivity.
Qed.
Lemma f_search l x : searchsorted (map f l) (f x) = searchsorted l x.
Proof. unfold searchsorted. rewrite map_length. apply f_bsearch. Qed.
Lemma f_last l : py_last (map f l) = match py_last l with Ok a => Ok (f a) | Err e => Err e end.
Proof. pose proof (match_py_nth f l (-1)) as H. unfold py_last in *. destruct (py_nth l (-1)), (py_nth (map f l) (-1)); cbn [match_res] in H; try contradiction; congruence. Qed.
Definition like (a b : list xq) : Prop := b = map f a.
Lemma pick_scaled pr u : match_res (fun x y => fst y = fst x /\ like (snd x) (snd y)) 
  (let cutoffs := cumsum pr in bind (py_last cutoffs) (fun top => bind (np_uniform0 top u) (fun x => Ok (searchsorted cutoffs x, pr))))
  (let cutoffs := cumsum (map f pr) in bind (py_last cutoffs) (fun top => bind (np_uniform0 top u) (fun x => Ok (searchsorted cutoffs x, map f pr)))).
Proof.
  cbv zeta. rewrite f_cumsum, f_last. destruct (py_last (cumsum pr)) as [top|e]; [|reflexivity]. cbn [bind]. unfold np_uniform0. cbv zeta.
  assert (E : nsub (f top) n0 = f (nsub top n0)) by (rewrite <- (f_n0 k) at 1; apply f_sub). rewrite E, f_isfin. destruct (nisfin (nsub top n0)); [|reflexivity]. cbn [bind match_res fst snd].
  split; [|reflexivity]. rewrite (f_mul_l k K). rewrite <- (f_n0 k) at 1. rewrite (f_add k K). apply f_search.
Qed.
Lemma random_scaled a b u : like a b -> match_res (fun x y => fst y = fst x /\ like (snd x) (snd y)) (random_pick a u) (random_pick b u).
Proof. intros ->. unfold random_pick. cbv zeta. replace (map nanz (map f a)) with (map f (map nanz a)) by (rewrite !map_map; apply map_ext; intros x; symmetry; apply (f_nanz k K)). apply pick_scaled. Qed.
Lemma upd_scaled n : forall l, upd_nth n (n0 : xq) (map f l) = map f (upd_nth n n0 l).
Proof. intros l. rewrite <- (f_n0 k) at 1. revert l. induction n as [|n IH]; intros [|a l]; try reflexivity. cbn [map upd_nth]. rewrite IH. reflexivity. Qed.
Lemma steep_scaled a b u : like a b -> match_res (fun x y => fst y = fst x /\ like (snd x) (snd y)) (steep_descent a u) (steep_descent b u).
Proof.
  intros ->. unfold steep_descent. cbv zeta. replace (steep_prune (map f a)) with (map f (steep_prune a)); [apply pick_scaled|].
  unfold steep_prune. cbv zeta. rewrite f_nanmax, upd_scaled, !map_map. apply map_ext. intros x. rewrite f_ltb. destruct (nltb x (np_nanmax a)); [|symmetry; apply (f_nanz k K)].
  rewrite <- (f_nanz k K), (f_n0 k). reflexivity.
Qed.
End Pick.

(** ** Weights *)
Definition units_obj (k : Qc) (P Q : pobj xq) : Prop :=
  (scaled_arr k (o_depth P) (o_depth Q) /\ scaled_arr k (o_stage P) (o_stage Q) /\ scaled_arr k (o_qx P) (o_qx Q) /\ scaled_arr k (o_qy P) (o_qy Q) /\ arr_agree all (o_ct P) (o_ct Q)) /\
  o_dry Q = times_k k (o_dry P) /\ o_roi Q = o_roi P /\
  o_dx Q = o_dx P /\ o_theta Q = o_theta P /\ o_gamma Q = o_gamma P /\ o_diff Q = o_diff P /\ o_steep Q = o_steep P /\ o_vars Q = o_vars P /\
  o_dist Q = o_dist P /\ o_ivec Q = o_ivec P /\ o_jvec Q = o_jvec P /\ o_iwalk Q = o_iwalk P /\ o_jwalk Q = o_jwalk P /\ o_angles Q = o_angles P.
Lemma idle (c : Qc) x : (0 < c)%Qc -> nltb x n0 = false -> nltb n0 x = false -> times_k c x = x.
Proof.
  intros C A B. destruct x as [|[|]|q]; try discriminate; [reflexivity|]. assert (q = 0%Qc) as ->; [|rewrite <- n0_xq; apply f_n0].
  destruct (Qclt_le_dec 0 q) as [X|X]; [rewrite n0_xq in B; apply xq_ltb in X; congruence|].
  destruct (Qclt_le_dec q 0) as [Y|Y]; [rewrite n0_xq in A; apply xq_ltb in Y; congruence|]. apply Qcle_antisym; assumption.
Qed.
Definition alike (a b : list xq) : Prop := exists c, (0 < c)%Qc /\ b = map (times_k c) a.
Lemma one_pos : (0 < 1)%Qc. Proof. reflexivity. Qed.
Lemma times_1 x : times_k 1%Qc x = x.
Proof. destruct x as [|b|q]; [reflexivity | apply (f_inf _ one_pos)|]. rewrite f_fin. f_equal. ring. Qed.
Lemma alike_pick (steep : bool) a b u : alike a b -> match_res (fun x y => fst y = fst x /\ alike (snd x) (snd y)) ((if steep then steep_descent else random_pick) a u) ((if steep then steep_descent else random_pick) b u).
Proof.
  intros (c & C & E). eapply match_impl; [|destruct steep; [apply (steep_scaled c C) | apply (random_scaled c C)]; exact E].
  intros (x & p) (y & q) (A & B). split; [exact A|]. exists c. split; [exact C | exact B].
Qed.
Lemma units_weights k c lm P Q i j : (0 < k)%Qc -> (0 < c)%Qc -> wf_obj P -> wf_obj Q -> gamma_ok P -> pow_ok lm P -> units_obj k P Q ->
  (forall d, m_pow lm (times_k k d) (o_theta P) = times_k c (m_pow lm d (o_theta P))) -> inside P i j -> alike (weights_of lm P i j) (weights_of lm Q i j).
Proof.
  intros K C WP WQ GO PO (((D1 & D2 & D) & (_ & _ & S) & (_ & _ & QX) & (_ & _ & QY) & (_ & _ & CT)) & DR & _ & _ & TH & GA & _ & _ & _ & DI & IV & JV & _) PW IN.
  unfold alike. rewrite !weight_refines by (try assumption; unfold inside in *; rewrite ?D1, ?D2; exact IN).
  assert (BL : forall m, nb_blocked Q i j m = nb_blocked P i j m).
  { intros m. unfold nb_blocked, nb. rewrite D, DR, (f_leb k K). rewrite <- (CT _ _ I). reflexivity. }
  assert (SL : forall m, slope Q i j m = times_k k (slope P i j m)).
  { intros m. unfold slope, nb. rewrite BL, !S, DI. destruct (nb_blocked P i j m); [symmetry; apply f_n0|]. rewrite (f_sub k K), (f_div_l k K). apply (f_pospart k K). }
  assert (IN' : forall m, inertia Q i j m = times_k k (inertia P i j m)).
  { intros m. unfold inertia. rewrite BL, QX, QY, IV, JV, DI. destruct (nb_blocked P i j m); [symmetry; apply f_n0|].
    rewrite !(f_mul_l k K), (f_add k K), (f_div_l k K). apply (f_pospart k K). }
  assert (EB : forall m, (m < 9)%nat -> base_weight lm Q i j m = times_k c (base_weight lm P i j m)).
  { intros m Hm. unfold base_weight, nb. rewrite BL, D, TH, GA, PW. destruct (nb_blocked P i j m); [symmetry; apply f_n0|].
    rewrite (f_share k K (slope P i j) (slope Q i j) m (slope_notneg P i j)) by (intros; try apply SL; assumption).
    rewrite (f_share k K (inertia P i j) (inertia Q i j) m (inertia_notneg P i j)) by (intros; try apply IN'; assumption). apply (f_mul_l c C). }
  assert (NN : forall m, nltb (base_weight lm P i j m) n0 = false) by (intros m; apply base_notneg; assumption).
  assert (TT : nleb (total9 (base_weight lm Q i j)) n0 = nleb (total9 (base_weight lm P i j)) n0) by (rewrite (f_total c C _ _ EB); apply (f_le0 c C)).
  assert (DP : forall m, neqb (nb i j (o_depth Q) m) (deepest Q i j) = neqb (nb i j (o_depth P) m) (deepest P i j)).
  { intros m. unfold deepest. replace (map (nb i j (o_depth Q)) (seq 0 9)) with (map (times_k k) (map (nb i j (o_depth P)) (seq 0 9))) by (rewrite map_map; apply map_ext; intros a; symmetry; apply D).
    rewrite (f_max k K). unfold nb at 1. rewrite D. apply (f_eqb k K). }
  destruct (nleb (total9 (base_weight lm P i j)) n0) eqn:TL.
  - exists 1%Qc. split; [exact one_pos|]. rewrite map_map. apply map_ext9. intros m Hm. rewrite times_1. unfold spec_weight. rewrite TT, TL, DP, (EB m Hm). cbn [andb].
    destruct (neqb _ _); [reflexivity|]. apply (idle c _ C (NN m)). destruct (nltb n0 (base_weight lm P i j m)) eqn:PM; [|reflexivity].
    pose proof (some_positive_total _ m NN Hm PM) as X. apply lt_not_le in X. congruence.
  - exists c. split; [exact C|]. rewrite map_map. apply map_ext9. intros m Hm. unfold spec_weight. rewrite TT, TL, (EB m Hm). reflexivity.
Qed.

(** ** The constructor *)
Section Init.
Variables (k : Qc) (K : (0 < k)%Qc).
Notation f := (times_k k).
Notation sc := (scaled_arr k).
Definition sc_opt (a b : option (arr xq)) : Prop := match a, b with Some x, Some y => sc x y | None, None => True | _, _ => False end.
Lemma units_depth p : match_res (fun a b => sc (fst a) (fst b) /\ sc_opt (snd a) (snd b)) (init_depth p) (init_depth (with_units k p)).
Proof.
  unfold init_depth. cbn [with_units p_depth p_stage p_topo]. destruct (p_depth p) as [d|]; cbn [option_map].
  - cbn [match_res fst snd sc_opt]. split; apply (scaled_nan0 k K), scaled_times.
  - destruct (p_stage p) as [s|]; [|reflexivity]. destruct (p_topo p) as [t|]; [|reflexivity]. cbn [option_map match_res fst snd sc_opt]. split; [|exact I].
    apply (scaled_nan0 k K). split; [reflexivity|]. split; [reflexivity|]. intros i j. cbn [amap amap2 cell times_arr]. rewrite (f_sub k K). rewrite <- (f_n0 k) at 1. rewrite (f_ltb k K).
    destruct (nltb _ n0); [symmetry; apply f_n0 | reflexivity].
Qed.
Lemma units_stage p d1 d2 q1 q2 : sc d1 d2 -> sc_opt q1 q2 -> match_res (fun a b => sc (fst a) (fst b)) (init_stage p d1 q1) (init_stage (with_units k p) d2 q2).
Proof.
  intros (D1 & D2 & D) SQ. assert (Z : forall i j, neqb (cell d2 i j) n0 = neqb (cell d1 i j) n0) by (intros i j; rewrite D; rewrite <- (f_n0 k) at 1; apply (f_eqb k K)).
  unfold init_stage. cbn [with_units p_stage p_topo]. destruct (p_stage p) as [s|]; cbn [option_map].
  - cbn [match_res fst]. split; [exact D1|]. split; [exact D2|]. intros i j. cbn [dry_to_nan amap2 cell times_arr amap]. rewrite Z. destruct (neqb _ n0); reflexivity.
  - destruct (p_topo p) as [t|]; cbn [option_map]; [|reflexivity]. destruct q1 as [q1|], q2 as [q2|]; cbn [sc_opt] in SQ; try contradiction; [|reflexivity].
    destruct SQ as (Q1 & Q2 & Q). cbn [match_res fst]. split; [exact D1|]. split; [exact D2|]. intros i j. cbn [dry_to_nan amap2 cell times_arr amap]. rewrite Z, Q, (f_add k K). destruct (neqb _ n0); reflexivity.
Qed.
Lemma units_prod a d e : sc d e -> sc (amap2 nmul a d) (amap2 nmul a e).
Proof. intros (A & B & C). split; [reflexivity|]. split; [reflexivity|]. intros i j. cbn [amap2 cell]. rewrite C. apply (f_mul_r k K). Qed.
Definition by_speed (p : params xq) : Prop := p_qx p = None \/ p_qy p = None.
Lemma units_flow p d1 d2 : sc d1 d2 ->
  match_res (fun a b => sc (f_qx a) (f_qx b) /\ sc (f_qy a) (f_qy b) /\ (by_speed p -> f_u b = f_u a /\ f_v b = f_v a)) (init_flow p d1) (init_flow (with_units k p) d2).
Proof.
  intros D. unfold init_flow, by_speed. change (is_deltarcm (with_units k p)) with (is_deltarcm p). cbn [with_units p_qx p_qy p_u p_v].
  destruct (is_deltarcm p), (p_qx p) as [qx|], (p_qy p) as [qy|]; cbn [option_map];
    try (cbn [match_res f_qx f_qy f_u f_v]; (split; [|split; [|intros [H|H]; discriminate]]); apply (scaled_nan0 k K); first [apply scaled_times | apply (scaled_neg k K), scaled_times]);
    (destruct (p_u p) as [u|]; [|reflexivity]; destruct (p_v p) as [v|]; [|reflexivity]; cbn [match_res f_qx f_qy f_u f_v]; split; [apply units_prod, D|]; split; [apply units_prod, D|]; intros _; split; reflexivity).
Qed.
Lemma units_ct d1 d2 dry : sc d1 d2 -> arr_agree all (default_ct d1 dry) (default_ct d2 (f dry)).
Proof.
  intros (A1 & A2 & A3). unfold default_ct, np_pad1, np_inner. cbn [nrow ncol cell amap]. rewrite A1, A2. split; [reflexivity|]. split; [reflexivity|].
  intros i j H. cbn [cell]. rewrite A3, (f_ltb k K). reflexivity.
Qed.
Lemma units_init lm p : match_res (fun a b => units_obj k (fst a) (fst b) /\
    (by_speed p -> o_u (fst b) = o_u (fst a) /\ o_v (fst b) = o_v (fst a) /\ o_vel (fst b) = o_vel (fst a) /\ o_vang (fst b) = o_vang (fst a))) (init lm p) (init lm (with_units k p)).
Proof.
  unfold init. change (p_dx (with_units k p)) with (p_dx p). destruct (p_dx p) as [dx|]; [|reflexivity].
  eapply match_bind; [apply units_depth|]. intros (d1 & q1) (d2 & q2) (AD & AQ). cbn [fst snd] in AD, AQ.
  eapply match_bind; [apply (units_stage p d1 d2 q1 q2 AD AQ)|]. intros (s1 & ps1) (s2 & ps2) AS. cbn [fst] in AS.
  eapply match_bind; [apply (units_flow p d1 d2 AD)|]. intros f1 f2 (FX & FY & FU). cbv zeta. change (p_roi (with_units k p)) with (p_roi p).
  rewrite (proj1 AD), (proj1 (proj2 AD)). apply match_eq_bind. intros _. cbn [match_res fst].
  unfold units_obj. cbn [o_dx o_depth o_stage o_qx o_qy o_u o_v o_vel o_vang o_ct o_theta o_gamma o_diff o_dry o_steep o_dist o_ivec o_jvec o_iwalk o_jwalk o_angles o_roi o_vars].
  split; [|intros BS; destruct (FU BS) as (-> & ->); repeat split].
  split; [|repeat (split; [reflexivity|]); reflexivity].
  split; [exact AD|]. split; [exact AS|]. split; [exact FX|]. split; [exact FY|].
  change (p_ct (with_units k p)) with (p_ct p). cbn [with_units p_dry dflt]. destruct (p_ct p); cbn [dflt]; [apply arr_refl | apply units_ct, AD].
Qed.
End Init.
