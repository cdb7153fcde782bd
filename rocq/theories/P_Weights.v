(** Properties C01 - C06: routing weights. *)
From Coq Require Import ZArith Bool String List Lia QArith Qcanon.
From Verif Require Import Num XQ XQLaws F64 F64Laws Py NumMore Walker ParticleTrack SpecWeights SpecInit
  ProofWeightLaws ProofWeightExt ProofApi ProofInit Examples ExamplesExact ExamplesReach.
Import ListNotations.
Open Scope Z_scope.

(** C01 Routing weights are never negative (IEEE doubles; all arrays, including NaN, infinities, negative depths). *)
Theorem C01_weights_never_negative :
  forall (lm : Libm f64) L W (p : params f64) P p' i j k,
    weight_params lm L W p -> init lm p = Ok (P, p') -> 0 <= i < L -> 0 <= j < W ->
    nltb (nth k (weights_of lm P i j) n0) n0 = false.
Proof. exact api_weights_not_negative. Qed.
Print Assumptions C01_weights_never_negative.

Example ex_weight_params : weight_params ex_lm 10 9 ex_params.
Proof. destruct ex_standard as (A & _ & _ & _ & _ & B & C & _). exact (conj A (conj B C)). Qed.
Example C01_example : exists p', init ex_lm ex_params = Ok (ex_P, p') /\ nltb n0 (nth 7 (weights_of ex_lm ex_P 3 3) n0) = true.
Proof. destruct ex_init as (p' & E). exists p'. split; [exact E | vm_compute; reflexivity]. Qed.

(** C02 Every interior cell has a positive weight; on the outer ring all weights are zero. *)
Theorem C02_interior_has_a_move :
  forall (lm : Libm f64) L W (p : params f64) P p' i j,
    weight_params lm L W p -> init lm p = Ok (P, p') -> 1 <= i < L - 1 -> 1 <= j < W - 1 ->
    exists k, (k < 9)%nat /\ nltb n0 (nth k (weights_of lm P i j) n0) = true.
Proof. exact api_interior_positive. Qed.
Print Assumptions C02_interior_has_a_move.
Theorem C02_ring_has_none :
  forall (lm : Libm f64) L W (p : params f64) P p' i j,
    weight_params lm L W p -> init lm p = Ok (P, p') -> 0 <= i < L -> 0 <= j < W ->
    (i = 0 \/ j = 0 \/ i = L - 1 \/ j = W - 1) -> weights_of lm P i j = repeat n0 9.
Proof. exact api_ring_zero. Qed.
Print Assumptions C02_ring_has_none.

(** C03 A weight that is not zero (in particular NaN) leads to a wet cell that is not land, or the cell is a dead end and
    the neighbour is a deepest cell. *)
Theorem C03_weight_leads_to_wet_cell :
  forall (lm : Libm f64) L W (p : params f64) P p' i j k,
    weight_params lm L W p -> init lm p = Ok (P, p') -> nisnan (o_dry P) = false ->
    1 <= i < L - 1 -> 1 <= j < W - 1 -> (k < 9)%nat ->
    neqb (nth k (weights_of lm P i j) n0) n0 = false ->
    (nltb (o_dry P) (cell (o_depth P) (i + row_off k) (j + col_off k)) = true /\
     cell (o_ct P) (i + row_off k) (j + col_off k) <> 2) \/
    (dead_end lm P i j /\ forall m, (m < 9)%nat ->
       nleb (cell (o_depth P) (i + row_off m) (j + col_off m)) (cell (o_depth P) (i + row_off k) (j + col_off k)) = true).
Proof. exact api_weight_target. Qed.
Print Assumptions C03_weight_leads_to_wet_cell.
Example C03_example : nisnan (o_dry ex_P) = false /\ neqb (nth 7 (weights_of ex_lm ex_P 2 3) n0) n0 = false /\
  (* the dry bar at (4,4) is south-east of (3,3) and gets no weight *)
  nth 8 (weights_of ex_lm ex_P 3 3) n1 = n0.
Proof. split; [|split]; vm_compute; reflexivity. Qed.

(** C04 The vectorised code computes the documented formula for every cell and direction. *)
Theorem C04_documented_formula :
  forall (lm : Libm f64) L W (p : params f64) P p' i j k,
    weight_params lm L W p -> default_tables p -> init lm p = Ok (P, p') ->
    1 <= i < L - 1 -> 1 <= j < W - 1 -> (k < 9)%nat ->
    nth k (weights_of lm P i j) n0 = spec_weight lm P i j k /\
    row_off k = nth k (o_jwalk P) 0 /\ col_off k = nth k (o_iwalk P) 0.
Proof. exact api_weight_formula. Qed.
Print Assumptions C04_documented_formula.
Example C04_example : default_tables ex_params.
Proof. repeat split. Qed.

(** C05 The extreme values of gamma and theta. *)
Theorem C05_gamma_one_ignores_discharge :
  forall (lm : Libm f64) (P : pobj f64) qx qy i j,
    wf_obj P -> same_shape qx (o_depth P) -> same_shape qy (o_depth P) -> o_gamma P = n1 -> inside P i j ->
    finite9 (inertia P i j) -> finite9 (inertia (set_q P qx qy) i j) ->
    weights_of lm (set_q P qx qy) i j = weights_of lm P i j.
Proof. exact gamma1_no_discharge. Qed.
Print Assumptions C05_gamma_one_ignores_discharge.
Theorem C05_gamma_zero_ignores_stage :
  forall (lm : Libm f64) (P : pobj f64) stage i j,
    wf_obj P -> same_shape stage (o_depth P) -> o_gamma P = n0 -> inside P i j ->
    finite9 (slope P i j) -> finite9 (slope (set_stage P stage) i j) ->
    weights_of lm (set_stage P stage) i j = weights_of lm P i j.
Proof. exact gamma0_no_stage. Qed.
Print Assumptions C05_gamma_zero_ignores_stage.
Theorem C05_theta_zero_only_wetness :
  forall (lm : Libm f64) (P : pobj f64) depth i j,
    wf_obj P -> same_shape depth (o_depth P) -> o_theta P = n0 -> (forall d, m_pow lm d n0 = n1) -> inside P i j ->
    (forall k, (k < 9)%nat -> nleb (nb i j depth k) (o_dry P) = nleb (nb i j (o_depth P) k) (o_dry P)) ->
    (forall k, (k < 9)%nat -> neqb (nb i j depth k) (deepest (set_depth P depth) i j) = neqb (nb i j (o_depth P) k) (deepest P i j)) ->
    weights_of lm (set_depth P depth) i j = weights_of lm P i j.
Proof. exact theta0_depth_only_wet. Qed.
Print Assumptions C05_theta_zero_only_wetness.
(** The same for two calls of the constructor that differ only in the discharge or velocity arrays and the model name, or only in stage. *)
Definition with_stage (p : params f64) (stage : option (arr f64)) : params f64 :=
  {| p_dx := p_dx p; p_depth := p_depth p; p_stage := stage; p_topo := p_topo p; p_model := p_model p; p_qx := p_qx p; p_qy := p_qy p; p_u := p_u p; p_v := p_v p;
     p_theta := p_theta p; p_gamma := p_gamma p; p_diff := p_diff p; p_dry := p_dry p; p_ct := p_ct p; p_steep := p_steep p; p_dist := p_dist p;
     p_ivec := p_ivec p; p_jvec := p_jvec p; p_iwalk := p_iwalk p; p_jwalk := p_jwalk p; p_angles := p_angles p; p_roi := p_roi p; p_vars := p_vars p |}.
Lemma weights_only (lm : Libm f64) (P P' : pobj f64) i j : o_depth P = o_depth P' -> o_stage P = o_stage P' -> o_qx P = o_qx P' -> o_qy P = o_qy P' -> o_theta P = o_theta P' ->
  o_gamma P = o_gamma P' -> o_dry P = o_dry P' -> o_ct P = o_ct P' -> o_dist P = o_dist P' -> o_ivec P = o_ivec P' -> o_jvec P = o_jvec P' -> weights_of lm P i j = weights_of lm P' i j.
Proof. destruct P, P'. cbn. intros. subst. reflexivity. Qed.
Theorem C05_constructor_gamma_one :
  forall (lm : Libm f64) L W (p : params f64) model qx qy u v P P' p1 p2 i j,
    shaped_params L W p -> shaped_params L W (with_flow p model qx qy u v) -> p_gamma p = Some n1 ->
    init lm p = Ok (P, p1) -> init lm (with_flow p model qx qy u v) = Ok (P', p2) -> 1 <= i < L - 1 -> 1 <= j < W - 1 ->
    finite9 (inertia P i j) -> finite9 (inertia P' i j) -> weights_of lm P' i j = weights_of lm P i j.
Proof.
  intros lm L W p model qx qy u v P P' p1 p2 i j SP SP' G E E' Hi Hj F F'.
  destruct (init_wf lm L W p P p1 SP E) as (WF & EL & EW). destruct (init_wf lm L W _ P' p2 SP' E') as (WF' & EL' & EW').
  destruct (init_ok lm _ P p1 E) as (dx & depth & pd & stage & ps & f & H). destruct (init_ok lm _ P' p2 E') as (dx' & depth' & pd' & stage' & ps' & f' & H').
  change (init_depth (with_flow p model qx qy u v)) with (init_depth p) in H'. change (init_stage (with_flow p model qx qy u v)) with (init_stage p) in H'.
  cbn [with_flow p_dx p_roi p_theta p_gamma p_dry p_ct p_dist p_ivec p_jvec] in H'. decompose [and] H. decompose [and] H'. clear H H'.
  assert (ED : depth' = depth) by congruence. assert (EPD : pd' = pd) by congruence. subst depth' pd'. assert (ES : stage' = stage) by congruence. subst stage'.
  assert (EQ : weights_of lm P' i j = weights_of lm (set_q P (o_qx P') (o_qy P')) i j) by (apply weights_only; cbn [set_q o_depth o_stage o_qx o_qy o_theta o_gamma o_dry o_ct o_dist o_ivec o_jvec]; congruence).
  rewrite EQ. apply C05_gamma_one_ignores_discharge; [exact WF | | | | split; lia | exact F |].
  - split; rewrite ?EL, ?EW; rewrite <- ?EL', <- ?EW'; apply WF'.
  - split; rewrite ?EL, ?EW; rewrite <- ?EL', <- ?EW'; apply WF'.
  - replace (o_gamma P) with (dflt (p_gamma p) (ndec 5 2)) by congruence. rewrite G. reflexivity.
  - destruct F' as (A & B). assert (EI : forall k, inertia (set_q P (o_qx P') (o_qy P')) i j k = inertia P' i j k).
    { intros k. unfold inertia, nb_blocked. cbn [set_q o_depth o_qx o_qy o_dry o_ct o_dist o_ivec o_jvec].
      replace (o_depth P) with (o_depth P') by congruence. replace (o_dry P) with (o_dry P') by congruence. replace (o_ct P) with (o_ct P') by congruence.
      replace (o_dist P) with (o_dist P') by congruence. replace (o_ivec P) with (o_ivec P') by congruence. replace (o_jvec P) with (o_jvec P') by congruence. reflexivity. }
    split; [intros k Hk; rewrite EI; exact (A k Hk)|]. unfold total9 in *. rewrite (map_ext _ _ EI). exact B.
Qed.
Print Assumptions C05_constructor_gamma_one.
Theorem C05_constructor_gamma_zero :
  forall (lm : Libm f64) L W (p : params f64) stage1 P P' p1 p2 i j,
    shaped_params L W p -> shaped_params L W (with_stage p (Some stage1)) -> p_gamma p = Some n0 -> (exists d, p_depth p = Some d) ->
    init lm p = Ok (P, p1) -> init lm (with_stage p (Some stage1)) = Ok (P', p2) -> 1 <= i < L - 1 -> 1 <= j < W - 1 ->
    finite9 (slope P i j) -> finite9 (slope P' i j) -> weights_of lm P' i j = weights_of lm P i j.
Proof.
  intros lm L W p stage1 P P' p1 p2 i j SP SP' G (d & PD) E E' Hi Hj F F'.
  destruct (init_wf lm L W p P p1 SP E) as (WF & EL & EW). destruct (init_wf lm L W _ P' p2 SP' E') as (WF' & EL' & EW').
  destruct (init_ok lm _ P p1 E) as (dx & depth & pd & stage & ps & f & H). destruct (init_ok lm _ P' p2 E') as (dx' & depth' & pd' & stage' & ps' & f' & H').
  assert (DD : init_depth (with_stage p (Some stage1)) = init_depth p) by (unfold init_depth; cbn [with_stage p_depth p_stage p_topo]; rewrite PD; reflexivity).
  rewrite DD in H'. change (init_flow (with_stage p (Some stage1))) with (init_flow p) in H'.
  cbn [with_stage p_dx p_roi p_theta p_gamma p_dry p_ct p_dist p_ivec p_jvec] in H'. decompose [and] H. decompose [and] H'. clear H H'.
  assert (ED : depth' = depth) by congruence. assert (EPD : pd' = pd) by congruence. subst depth' pd'. assert (EFL : f' = f) by congruence. subst f'.
  assert (EQ : weights_of lm P' i j = weights_of lm (set_stage P (o_stage P')) i j) by (apply weights_only; cbn [set_stage o_depth o_stage o_qx o_qy o_theta o_gamma o_dry o_ct o_dist o_ivec o_jvec]; congruence).
  rewrite EQ. apply C05_gamma_zero_ignores_stage; [exact WF | | | split; lia | exact F |].
  - split; rewrite ?EL, ?EW; rewrite <- ?EL', <- ?EW'; apply WF'.
  - replace (o_gamma P) with (dflt (p_gamma p) (ndec 5 2)) by congruence. rewrite G. reflexivity.
  - destruct F' as (A & B). assert (EI : forall k, slope (set_stage P (o_stage P')) i j k = slope P' i j k).
    { intros k. unfold slope, nb_blocked. cbn [set_stage o_depth o_stage o_dry o_ct o_dist].
      replace (o_depth P) with (o_depth P') by congruence. replace (o_dry P) with (o_dry P') by congruence. replace (o_ct P) with (o_ct P') by congruence.
      replace (o_dist P) with (o_dist P') by congruence. reflexivity. }
    split; [intros k Hk; rewrite EI; exact (A k Hk)|]. unfold total9 in *. rewrite (map_ext _ _ EI). exact B.
Qed.
Print Assumptions C05_constructor_gamma_zero.

Definition ex_P_gamma (g : f64) : pobj f64 := unerr gx_none (match init ex_lm (gx_params_gamma g) with Ok (P, _) => Ok P | Err e => Err e end).
Definition finite9b (f : nat -> f64) : bool := forallb (fun k => nisfin (f k)) (seq 0 9) && nisfin (total9 f).
Lemma finite9b_ok f : finite9b f = true -> finite9 f.
Proof.
  unfold finite9b. intros H. apply andb_true_iff in H. destruct H as (A & B). split; [|exact B]. intros k Hk.
  rewrite forallb_forall in A. apply A, in_seq. lia.
Qed.
Example C05_example_gamma1 : let P := ex_P_gamma n1 in let q := scale (nofZ 3) ex_depth' in
  o_gamma P = n1 /\ same_shape q (o_depth P) /\ finite9 (inertia P 3 3) /\ finite9 (inertia (set_q P q q) 3 3) /\
  neqb (inertia P 3 3 7) (inertia (set_q P q q) 3 3 7) = false.
Proof.
  cbv zeta. split; [reflexivity|]. split; [split; reflexivity|].
  split; [apply finite9b_ok; vm_compute; reflexivity|]. split; [apply finite9b_ok; vm_compute; reflexivity | vm_compute; reflexivity].
Qed.
Example C05_example_gamma0 : let P := ex_P_gamma n0 in let s := scale (nofZ 3) ex_depth' in
  o_gamma P = n0 /\ same_shape s (o_depth P) /\ finite9 (slope P 3 3) /\ finite9 (slope (set_stage P s) 3 3) /\
  neqb (slope P 3 3 7) (slope (set_stage P s) 3 3 7) = false.
Proof.
  cbv zeta. split; [reflexivity|]. split; [split; reflexivity|].
  split; [apply finite9b_ok; vm_compute; reflexivity|]. split; [apply finite9b_ok; vm_compute; reflexivity | vm_compute; reflexivity].
Qed.
Definition c05_q : arr f64 := scale (nofZ 3) ex_depth'.
Lemma c05_shaped g qx qy : (forall a, qx = Some a \/ qy = Some a -> nrow a = 10 /\ ncol a = 9) ->
  shaped_params 10 9 (with_flow (gx_params_gamma g) (Some "DeltaRCM"%string) qx qy None None).
Proof.
  intros H. repeat split; try lia; try (intros; discriminate); cbn [gx_params_gamma with_flow p_depth p_stage p_topo p_qx p_qy p_u p_v p_ct] in *;
    try (match goal with E : Some _ = Some ?a |- _ => injection E as <-; reflexivity end); eapply H; first [left; eassumption | right; eassumption].
Qed.
Example C05_constructor_example : let p := with_flow (gx_params_gamma n1) (Some "DeltaRCM"%string) (Some gx_qx) (Some gx_qy) None None in
  let p' := with_flow p (Some "DeltaRCM"%string) (Some c05_q) (Some c05_q) None None in
  shaped_params 10 9 p /\ shaped_params 10 9 p' /\ p_gamma p = Some n1 /\
  match init ex_lm p, init ex_lm p' with
  | Ok (P, _), Ok (P', _) => finite9b (inertia P 3 3) && finite9b (inertia P' 3 3) && negb (neqb (inertia P 3 3 7) (inertia P' 3 3 7)) = true
  | _, _ => False end.
Proof.
  cbv zeta. split; [apply c05_shaped; intros a [E|E]; injection E as <-; split; reflexivity|].
  split; [apply c05_shaped; intros a [E|E]; injection E as <-; split; reflexivity|]. split; [reflexivity|]. vm_compute. reflexivity.
Qed.
Example C05_constructor_example_stage : let p := gx_params_gamma n0 in let p' := with_stage p (Some c05_q) in
  shaped_params 10 9 p /\ shaped_params 10 9 p' /\ p_gamma p = Some n0 /\ (exists d, p_depth p = Some d) /\
  match init ex_lm p, init ex_lm p' with
  | Ok (P, _), Ok (P', _) => finite9b (slope P 3 3) && finite9b (slope P' 3 3) && negb (neqb (slope P 3 3 7) (slope P' 3 3 7)) = true
  | _, _ => False end.
Proof.
  cbv zeta.
  assert (S : forall st, (st = gx_stage \/ st = c05_q) -> shaped_params 10 9 (with_stage (gx_params_gamma n0) (Some st))).
  { intros st H. repeat split; try lia; try (intros; discriminate); cbn [gx_params_gamma with_stage p_depth p_stage p_topo p_qx p_qy p_u p_v p_ct] in *;
      try (match goal with E : Some _ = Some ?a |- _ => injection E as <- end); first [reflexivity | destruct H as [-> | ->]; reflexivity]. }
  split; [exact (S gx_stage (or_introl eq_refl))|]. split; [exact (S c05_q (or_intror eq_refl))|]. split; [reflexivity|]. split; [eexists; reflexivity|]. vm_compute. reflexivity.
Qed.

(** theta = 0 and twice the depth: the hypotheses hold at (3,3), next to the dry bar, although the depths differ. *)
Definition ex_lm_pow : Libm f64 :=
  {| m_sqrt := m_sqrt ex_lm; m_cos := m_cos ex_lm; m_atan2 := m_atan2 ex_lm;
     m_pow := fun d t => if neqb t n0 then n1 else d |}.
Definition ex_P_theta0 : pobj f64 :=
  let P := ex_P_gamma n1 in
  {| o_dx := o_dx P; o_depth := o_depth P; o_stage := o_stage P; o_qx := o_qx P; o_qy := o_qy P; o_u := o_u P; o_v := o_v P;
     o_vel := o_vel P; o_vang := o_vang P; o_theta := n0; o_gamma := o_gamma P; o_diff := o_diff P;
     o_dry := o_dry P; o_ct := o_ct P; o_steep := o_steep P; o_dist := o_dist P; o_ivec := o_ivec P; o_jvec := o_jvec P;
     o_iwalk := o_iwalk P; o_jwalk := o_jwalk P; o_angles := o_angles P; o_roi := o_roi P; o_vars := o_vars P |}.
Example C05_example_theta0 : let P := ex_P_theta0 in let d := scale (nofZ 2) (o_depth P) in
  wf_obj P /\ o_theta P = n0 /\ same_shape d (o_depth P) /\ inside P 3 3 /\ (forall x, m_pow ex_lm_pow x n0 = n1) /\
  (forall k, (k < 9)%nat -> nleb (nb 3 3 d k) (o_dry P) = nleb (nb 3 3 (o_depth P) k) (o_dry P)) /\
  (forall k, (k < 9)%nat -> neqb (nb 3 3 d k) (deepest (set_depth P d) 3 3) = neqb (nb 3 3 (o_depth P) k) (deepest P 3 3)) /\
  neqb (nb 3 3 d 0) (nb 3 3 (o_depth P) 0) = false /\ nleb (nb 3 3 (o_depth P) 8) (o_dry P) = true.
Proof.
  cbv zeta. split; [repeat split; first [vm_compute; reflexivity | intros; exfalso; match goal with H : o_roi _ = Some _ |- _ => vm_compute in H; discriminate H end]|].
  split; [reflexivity|]. split; [split; reflexivity|].
  split; [repeat split; vm_compute; first [reflexivity | intros E; discriminate E]|]. split; [reflexivity|].
  assert (Hs : forall f g : nat -> bool, forallb (fun k => eqb (f k) (g k)) (seq 0 9) = true -> forall k, (k < 9)%nat -> f k = g k).
  { intros f g H k Hk. rewrite forallb_forall in H. apply eqb_prop, H, in_seq. lia. }
  split; [refine (Hs _ _ _); vm_compute; reflexivity|]. split; [refine (Hs _ _ _); vm_compute; reflexivity|].
  split; vm_compute; reflexivity.
Qed.

(** C06 Exact arithmetic: the components are shares of one, and the weights do not change if the discharge is rescaled. *)
Theorem C06_shares_sum_to_one :
  forall (P : pobj xq) i j,
    ((forall k, (k < 9)%nat -> nisfin (slope P i j k) = true) -> (exists k, (k < 9)%nat /\ nltb n0 (slope P i j k) = true) ->
     total9 (share (slope P i j)) = n1) /\
    ((forall k, (k < 9)%nat -> nisfin (inertia P i j k) = true) -> (exists k, (k < 9)%nat /\ nltb n0 (inertia P i j k) = true) ->
     total9 (share (inertia P i j)) = n1).
Proof. exact component_shares. Qed.
Print Assumptions C06_shares_sum_to_one.
Theorem C06_discharge_scale :
  forall (lm : Libm xq) (P : pobj xq) (c : Qc) i j,
    wf_obj P -> inside P i j -> (0 < c)%Qc ->
    nisfin (cell (o_qx P) i j) = true -> nisfin (cell (o_qy P) i j) = true ->
    (forall k, (k < 9)%nat -> nisfin (nth k (o_ivec P) n0) = true /\ nisfin (nth k (o_jvec P) n0) = true /\
                              nisfin (nth k (o_dist P) n0) = true /\ neqb (nth k (o_dist P) n0) n0 = false) ->
    weights_of lm (set_q P (scale (XFin c) (o_qx P)) (scale (XFin c) (o_qy P))) i j = weights_of lm P i j.
Proof. exact discharge_scale_exact. Qed.
Print Assumptions C06_discharge_scale.
Example C06_example_shares :
  (forall k, (k < 9)%nat -> nisfin (slope eq_P 3 3 k) = true) /\ nltb n0 (slope eq_P 3 3 7) = true /\
  (forall k, (k < 9)%nat -> nisfin (inertia eq_P 3 3 k) = true) /\ nltb n0 (inertia eq_P 3 3 7) = true.
Proof.
  split; [apply (forall9 (fun k => nisfin (slope eq_P 3 3 k))); vm_compute; reflexivity|].
  split; [vm_compute; reflexivity|].
  split; [apply (forall9 (fun k => nisfin (inertia eq_P 3 3 k))); vm_compute; reflexivity | vm_compute; reflexivity].
Qed.
Example C06_example_scale : wf_obj eq_P /\ inside eq_P 3 3 /\
  (forall k, (k < 9)%nat -> nisfin (nth k (o_ivec eq_P) n0) = true /\ nisfin (nth k (o_jvec eq_P) n0) = true /\
                            nisfin (nth k (o_dist eq_P) n0) = true /\ neqb (nth k (o_dist eq_P) n0) n0 = false).
Proof.
  split. { repeat split; intros; discriminate. }
  split. { repeat split; lia. }
  intros k Hk.
  assert (B : forallb (fun k => nisfin (nth k (o_ivec eq_P) n0) && (nisfin (nth k (o_jvec eq_P) n0) &&
     (nisfin (nth k (o_dist eq_P) n0) && negb (neqb (nth k (o_dist eq_P) n0) n0)))) (seq 0 9) = true) by (vm_compute; reflexivity).
  pose proof (forall9 _ B k Hk) as C. cbv beta in C. rewrite !andb_true_iff, negb_true_iff in C. exact C.
Qed.
