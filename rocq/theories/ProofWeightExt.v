(** Extreme parameter values and exact-arithmetic facts of the weights (C05, C06). *)
From Coq Require Import ZArith Bool List Lia QArith Qcanon Lqa.
From Verif Require Import Num Py NumFacts Walker SpecWeights ProofWeights ProofWeightLaws XQ XQLaws XQFacts.
Import ListNotations.
Open Scope Z_scope.

Section W.
Context {T : Type} {N : Num T} {NL : NumLaws T}.

Lemma map_ext9 {A} (f g : nat -> A) : (forall k, (k < 9)%nat -> f k = g k) -> map f (seq 0 9) = map g (seq 0 9).
Proof. intros H. apply map_ext_in. intros k Hk. apply in_seq in Hk. apply H. lia. Qed.
Lemma total9_ext (f g : nat -> T) : (forall k, (k < 9)%nat -> f k = g k) -> total9 f = total9 g.
Proof. intros H. unfold total9. rewrite (map_ext9 f g H). reflexivity. Qed.
Lemma share_ext (f g : nat -> T) k : (forall k, (k < 9)%nat -> f k = g k) -> (k < 9)%nat -> share f k = share g k.
Proof. intros H Hk. unfold share. rewrite (total9_ext f g H), (H k Hk). reflexivity. Qed.

Lemma pospart_cases (x : T) : nisfin (pospart x) = true -> pospart x = n0 \/ nltb n0 (pospart x) = true.
Proof.
  unfold pospart. destruct (nleb x n0) eqn:E; [auto|]. intros F. right.
  apply not_le_lt; [apply fin_notnan, F | apply n0_notnan | exact E].
Qed.
Lemma share_mul0 (f : nat -> T) k : finite9 f -> (k < 9)%nat ->
  (forall k, (k < 9)%nat -> f k = n0 \/ nltb n0 (f k) = true) ->
  nmul n0 (share f k) = n0.
Proof.
  intros (F1 & F2) Hk H. unfold share. destruct (nltb n0 (total9 f)) eqn:E.
  - destruct (H k Hk) as [Z|Z].
    + rewrite Z, div_0 by assumption. apply mul_0_0.
    + assert (L : nleb (f k) (total9 f) = true).
      { rewrite <- (nanz_id (f k)) by (apply fin_notnan, F1, Hk). apply nansum9_ge; [reflexivity| |].
        - apply Forall_forall. intros x Hx. apply in_map_iff in Hx as (m & <- & Hm). apply in_seq in Hm.
          destruct (H m ltac:(lia)) as [->|Q]; [apply notneg_n0 | apply nn_notneg, lt_le, Q].
        - apply in_map_iff. exists k. split; [reflexivity | apply in_seq; lia]. }
      destruct (div_share (f k) (total9 f) Z L F2) as (A & [B|B]).
      * rewrite B. apply mul_0_0.
      * apply mul_0_pos; [exact B|]. eapply fin_between; [apply n0_fin | apply n1_fin | apply lt_le, B | exact A].
  - destruct (H k Hk) as [Z|Z]; [rewrite Z; apply mul_0_0|]. apply mul_0_pos; [exact Z | apply F1, Hk].
Qed.
Lemma inertia_cases (P : pobj T) i j k : nisfin (inertia P i j k) = true ->
  inertia P i j k = n0 \/ nltb n0 (inertia P i j k) = true.
Proof. unfold inertia. destruct nb_blocked; [auto | apply pospart_cases]. Qed.
Lemma slope_cases (P : pobj T) i j k : nisfin (slope P i j k) = true ->
  slope P i j k = n0 \/ nltb n0 (slope P i j k) = true.
Proof. unfold slope. destruct nb_blocked; [auto | apply pospart_cases]. Qed.

(** gamma = 1 *)
Lemma gamma1_no_discharge lm (P : pobj T) qx qy i j : wf_obj P ->
  same_shape qx (o_depth P) -> same_shape qy (o_depth P) ->
  o_gamma P = n1 -> inside P i j ->
  finite9 (inertia P i j) -> finite9 (inertia (set_q P qx qy) i j) ->
  weights_of lm (set_q P qx qy) i j = weights_of lm P i j.
Proof.
  intros Hw SX SY G Hi F1 F2.
  assert (Hw' : wf_obj (set_q P qx qy)) by (unfold wf_obj, same_shape in *; cbn; tauto).
  rewrite !weight_refines by assumption. 
  assert (EB : forall k, (k < 9)%nat -> base_weight lm (set_q P qx qy) i j k = base_weight lm P i j k).
  { intros k Hk. unfold base_weight. change (nb_blocked (set_q P qx qy) i j k) with (nb_blocked P i j k).
    destruct (nb_blocked P i j k); [reflexivity|]. cbn [o_depth o_theta o_gamma set_q]. f_equal.
    rewrite G, sub_1_1. rewrite !share_mul0; try assumption;
      try (intros m Hm; apply inertia_cases; first [apply F1 | apply F2]; exact Hm). reflexivity. }
  apply map_ext9. intros k Hk. unfold spec_weight. rewrite (total9_ext _ _ EB), (EB k Hk). reflexivity.
Qed.

(** gamma = 0 *)
Lemma gamma0_no_stage lm (P : pobj T) stage i j : wf_obj P ->
  same_shape stage (o_depth P) -> o_gamma P = n0 -> inside P i j ->
  finite9 (slope P i j) -> finite9 (slope (set_stage P stage) i j) ->
  weights_of lm (set_stage P stage) i j = weights_of lm P i j.
Proof.
  intros Hw SX G Hi F1 F2.
  assert (Hw' : wf_obj (set_stage P stage)) by (unfold wf_obj, same_shape in *; cbn; tauto).
  rewrite !weight_refines by assumption.
  assert (EB : forall k, (k < 9)%nat -> base_weight lm (set_stage P stage) i j k = base_weight lm P i j k).
  { intros k Hk. unfold base_weight. change (nb_blocked (set_stage P stage) i j k) with (nb_blocked P i j k).
    destruct (nb_blocked P i j k); [reflexivity|]. cbn [o_depth o_theta o_gamma set_stage]. f_equal.
    rewrite G. rewrite !share_mul0; try assumption;
      try (intros m Hm; apply slope_cases; first [apply F1 | apply F2]; exact Hm). reflexivity. }
  apply map_ext9. intros k Hk. unfold spec_weight. rewrite (total9_ext _ _ EB), (EB k Hk). reflexivity.
Qed.

(** theta = 0 *)
Lemma theta0_depth_only_wet lm (P : pobj T) depth i j : wf_obj P ->
  same_shape depth (o_depth P) -> o_theta P = n0 -> (forall d, m_pow lm d n0 = n1) -> inside P i j ->
  (forall k, (k < 9)%nat -> nleb (nb i j depth k) (o_dry P) = nleb (nb i j (o_depth P) k) (o_dry P)) ->
  (forall k, (k < 9)%nat -> neqb (nb i j depth k) (deepest (set_depth P depth) i j) =
                           neqb (nb i j (o_depth P) k) (deepest P i j)) ->
  weights_of lm (set_depth P depth) i j = weights_of lm P i j.
Proof.
  intros Hw (S1 & S2) G Pw Hi Wet Dp.
  assert (Hw' : wf_obj (set_depth P depth)).
  { unfold wf_obj in *. cbn in *. rewrite S1, S2. exact Hw. }
  assert (Hi' : inside (set_depth P depth) i j).
  { unfold inside in *. cbn in *. rewrite S1, S2. exact Hi. }
  rewrite !weight_refines by assumption.
  assert (BL : forall k, (k < 9)%nat -> nb_blocked (set_depth P depth) i j k = nb_blocked P i j k).
  { intros k Hk. unfold nb_blocked. cbn. rewrite (Wet k Hk). reflexivity. }
  assert (SL : forall k, (k < 9)%nat -> slope (set_depth P depth) i j k = slope P i j k).
  { intros k Hk. unfold slope. rewrite (BL k Hk). reflexivity. }
  assert (IN : forall k, (k < 9)%nat -> inertia (set_depth P depth) i j k = inertia P i j k).
  { intros k Hk. unfold inertia. rewrite (BL k Hk). reflexivity. }
  assert (EB : forall k, (k < 9)%nat -> base_weight lm (set_depth P depth) i j k = base_weight lm P i j k).
  { intros k Hk. unfold base_weight. rewrite (BL k Hk). destruct (nb_blocked P i j k); [reflexivity|].
    cbn [o_depth o_theta o_gamma set_depth]. rewrite G, !Pw.
    rewrite (share_ext _ _ k SL Hk), (share_ext _ _ k IN Hk). reflexivity. }
  apply map_ext9. intros k Hk. unfold spec_weight. rewrite (total9_ext _ _ EB), (EB k Hk).
  cbn [o_depth set_depth]. rewrite (Dp k Hk). reflexivity.
Qed.
End W.

(** Exact arithmetic *)
Lemma finite_fun (f : nat -> xq) : (forall k, (k < 9)%nat -> nisfin (f k) = true) ->
  exists g, forall k, (k < 9)%nat -> f k = XFin (g k).
Proof.
  intros H. exists (fun k => match f k with XFin q => q | _ => 0%Qc end).
  intros k Hk. specialize (H k Hk). destruct (f k); simpl in H; try discriminate. reflexivity.
Qed.
Lemma total9_xq (f : nat -> xq) g : (forall k, (k < 9)%nat -> f k = XFin (g k)) ->
  total9 f = XFin (g 0%nat + g 1%nat + (g 2%nat + g 3%nat) + (g 4%nat + g 5%nat + (g 6%nat + g 7%nat)) + g 8%nat)%Qc.
Proof. intros H. rewrite (total9_ext f (fun k => XFin (g k)) H). apply nansum9_fin. Qed.
Lemma shares_sum_one (f : nat -> xq) : (forall k, (k < 9)%nat -> nisfin (f k) = true) ->
  nltb n0 (total9 f) = true -> total9 (share f) = n1.
Proof.
  intros F P. destruct (finite_fun f F) as (g & G). pose proof (total9_xq f g G) as ET.
  set (s := (g 0%nat + g 1%nat + (g 2%nat + g 3%nat) + (g 4%nat + g 5%nat + (g 6%nat + g 7%nat)) + g 8%nat)%Qc) in *.
  assert (SP : (0 < s)%Qc) by (rewrite ET, n0_xq in P; apply xq_ltb, P).
  pose proof (qc_pos_nz s SP) as SN.
  rewrite (total9_xq (share f) (fun k => (g k / s)%Qc)).
  - rewrite n1_xq. f_equal.
    transitivity ((g 0%nat + g 1%nat + (g 2%nat + g 3%nat) + (g 4%nat + g 5%nat + (g 6%nat + g 7%nat)) + g 8%nat) / s)%Qc.
    + field. exact SN.
    + fold s. field. exact SN.
  - intros k Hk. unfold share. rewrite P, (G k Hk), ET. apply xq_div, SN.
Qed.
Lemma some_positive_total (f : nat -> xq) k : (forall k, nltb (f k) n0 = false) -> (k < 9)%nat ->
  nltb n0 (f k) = true -> nltb n0 (total9 f) = true.
Proof.
  intros H Hk P. eapply lt_le_trans; [exact P|].
  rewrite <- (nanz_id (f k)) by (eapply lt_nan_r; exact P). apply nansum9_ge; [reflexivity| |].
  - apply Forall_forall. intros x Hx. apply in_map_iff in Hx as (m & <- & Hm). apply H.
  - apply in_map_iff. exists k. split; [reflexivity | apply in_seq; lia].
Qed.

Lemma pospart_xq a : pospart (XFin a) = XFin (if Qcleb a 0%Qc then 0%Qc else a).
Proof. unfold pospart. rewrite n0_xq. cbn. destruct (Qcleb a 0%Qc); reflexivity. Qed.

(** positive common factor *)
Lemma share_scale (f g : nat -> xq) c k : (0 < c)%Qc ->
  (forall k, (k < 9)%nat -> nisfin (f k) = true) ->
  (forall k, (k < 9)%nat -> g k = nmul (XFin c) (f k)) -> (k < 9)%nat ->
  (nltb n0 (total9 f) = false -> forall k, (k < 9)%nat -> f k = n0) ->
  share g k = share f k.
Proof.
  intros C F H Hk Z. destruct (finite_fun f F) as (a & A). pose proof (total9_xq f a A) as ET.
  set (s := (a 0%nat + a 1%nat + (a 2%nat + a 3%nat) + (a 4%nat + a 5%nat + (a 6%nat + a 7%nat)) + a 8%nat)%Qc) in *.
  assert (EG : total9 g = XFin (c * s)%Qc).
  { rewrite (total9_xq g (fun k => (c * a k)%Qc)).
    - f_equal. unfold s. ring.
    - intros m Hm. rewrite (H m Hm), (A m Hm). reflexivity. }
  unfold share. rewrite EG, ET, n0_xq.
  destruct (nltb (XFin 0%Qc) (XFin s)) eqn:E.
  - apply xq_ltb in E.
    assert (E2 : (0 < c * s)%Qc).
    { unfold Qclt in *. rewrite this_mul. change (this 0%Qc) with 0%Q in *. apply Qmult_lt_0_compat; assumption. }
    rewrite (proj2 (xq_ltb 0%Qc (c * s)%Qc) E2). rewrite (H k Hk), (A k Hk), xq_mul.
    rewrite !xq_div by (apply qc_pos_nz; assumption). f_equal. field. split; apply qc_pos_nz; assumption.
  - assert (Z' := Z). rewrite ET, n0_xq, E in Z'. specialize (Z' eq_refl).
    assert (S0 : s = 0%Qc).
    { assert (forall k, (k < 9)%nat -> a k = 0%Qc).
      { intros m Hm. specialize (Z' m Hm). rewrite (A m Hm) in Z'. congruence. }
      unfold s. rewrite !H0 by lia. reflexivity. }
    rewrite S0. replace (c * 0)%Qc with 0%Qc by ring.
    replace (nltb (XFin 0%Qc) (XFin 0%Qc)) with false by (symmetry; apply xq_ltb_f; unfold Qcle; lra).
    rewrite (H k Hk), (Z' k Hk). rewrite xq_mul. f_equal. ring.
Qed.

Lemma discharge_scale_exact lm (P : pobj xq) (c : Qc) i j : wf_obj P -> inside P i j -> (0 < c)%Qc ->
  nisfin (cell (o_qx P) i j) = true -> nisfin (cell (o_qy P) i j) = true ->
  (forall k, (k < 9)%nat -> nisfin (nth k (o_ivec P) n0) = true /\ nisfin (nth k (o_jvec P) n0) = true /\
                            nisfin (nth k (o_dist P) n0) = true /\ neqb (nth k (o_dist P) n0) n0 = false) ->
  weights_of lm (set_q P (scale (XFin c) (o_qx P)) (scale (XFin c) (o_qy P))) i j = weights_of lm P i j.
Proof.
  intros Hw Hi C FX FY TB.
  set (P' := set_q P _ _).
  assert (Hw' : wf_obj P') by (unfold wf_obj in *; cbn; tauto).
  rewrite !weight_refines by assumption.
  apply xfin_ex in FX as (x & FX). apply xfin_ex in FY as (y & FY).
  (* raw projections *)
  assert (RAW : forall k, (k < 9)%nat -> exists r,
     ndiv (nadd (nmul (cell (o_qx P) i j) (nth k (o_jvec P) n0)) (nmul (cell (o_qy P) i j) (nth k (o_ivec P) n0))) (nth k (o_dist P) n0) = XFin r /\
     ndiv (nadd (nmul (cell (o_qx P') i j) (nth k (o_jvec P) n0)) (nmul (cell (o_qy P') i j) (nth k (o_ivec P) n0))) (nth k (o_dist P) n0) = XFin (c * r)%Qc).
  { intros k Hk. destruct (TB k Hk) as (A & B & D & DZ).
    apply xfin_ex in A as (iv & A). apply xfin_ex in B as (jv & B). apply xfin_ex in D as (d & D).
    assert (DN : d <> 0%Qc).
    { intros ->. rewrite D, n0_xq in DZ. rewrite (proj2 (xq_eqb 0%Qc 0%Qc) eq_refl) in DZ. discriminate. }
    exists ((x * jv + y * iv) / d)%Qc. rewrite A, B, D, FX, FY. split.
    - rewrite !xq_mul, xq_add. apply xq_div, DN.
    - cbn [P' o_qx o_qy set_q scale cell]. rewrite FX, FY, !xq_mul, xq_add, xq_div by exact DN. f_equal. field. exact DN. }
  assert (FI : forall k, (k < 9)%nat -> nisfin (inertia P i j k) = true).
  { intros k Hk. destruct (RAW k Hk) as (r & E1 & _). unfold inertia. destruct nb_blocked; [reflexivity|].
    rewrite E1, pospart_xq. reflexivity. }
  assert (SC : forall k, (k < 9)%nat -> inertia P' i j k = nmul (XFin c) (inertia P i j k)).
  { intros k Hk. destruct (RAW k Hk) as (r & E1 & E2). unfold inertia.
    change (nb_blocked P' i j k) with (nb_blocked P i j k).
    destruct (nb_blocked P i j k).
    - rewrite n0_xq, xq_mul. f_equal. ring.
    - change (o_jvec P') with (o_jvec P). change (o_ivec P') with (o_ivec P). change (o_dist P') with (o_dist P).
      rewrite E1, E2, !pospart_xq, xq_mul. f_equal.
      destruct (Qcleb r 0) eqn:R.
      + replace (Qcleb (c * r) 0) with true; [ring|]. symmetry. apply Qcleb_true. apply Qcleb_true in R.
        rewrite this_mul. change (this 0%Qc) with 0%Q in *. unfold Qclt in C. change (this 0%Qc) with 0%Q in C. nra.
      + replace (Qcleb (c * r) 0) with false; [ring|]. symmetry. apply Qcleb_false. apply Qcleb_false in R.
        rewrite this_mul. change (this 0%Qc) with 0%Q in *. unfold Qclt in C. change (this 0%Qc) with 0%Q in C. nra. }
  assert (SH : forall k, (k < 9)%nat -> share (inertia P' i j) k = share (inertia P i j) k).
  { intros k Hk. apply (share_scale _ _ c); try assumption.
    intros Z m Hm. destruct (inertia_cases P i j m (FI m Hm)) as [Q|Q]; [exact Q|].
    rewrite (some_positive_total _ m (inertia_notneg P i j) Hm Q) in Z. discriminate. }
  assert (EB : forall k, (k < 9)%nat -> base_weight lm P' i j k = base_weight lm P i j k).
  { intros k Hk. unfold base_weight. change (nb_blocked P' i j k) with (nb_blocked P i j k).
    destruct (nb_blocked P i j k); [reflexivity|]. rewrite (SH k Hk). reflexivity. }
  apply map_ext9. intros k Hk. unfold spec_weight. rewrite (total9_ext _ _ EB), (EB k Hk). reflexivity.
Qed.
(** C06, for the two components of the weights *)
Lemma component_shares (P : pobj xq) i j :
  ((forall k, (k < 9)%nat -> nisfin (slope P i j k) = true) -> (exists k, (k < 9)%nat /\ nltb n0 (slope P i j k) = true) ->
   total9 (share (slope P i j)) = n1) /\
  ((forall k, (k < 9)%nat -> nisfin (inertia P i j k) = true) -> (exists k, (k < 9)%nat /\ nltb n0 (inertia P i j k) = true) ->
   total9 (share (inertia P i j)) = n1).
Proof.
  split; intros F (k & Hk & Pk); (apply shares_sum_one; [exact F|]).
  - apply (some_positive_total _ k); [intros m; apply slope_notneg | exact Hk | exact Pk].
  - apply (some_positive_total _ k); [intros m; apply inertia_notneg | exact Hk | exact Pk].
Qed.
