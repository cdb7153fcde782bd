(** Properties C34 - C40: construction of a Particles object. *)
From Coq Require Import ZArith Bool String List Lia QArith Qcanon Reals Lra.
From Verif Require Import Num XQ XQLaws F64 F64Laws Py NumFacts NumMore Walker ParticleTrack SpecWeights SpecPick SpecWalk SpecHist SpecInit
  SpecMotion SpecApi ProofInit ProofInit2 ProofGeometry Examples.
Import ListNotations.
Open Scope Z_scope.

(** C34 Exactly the acceptable parameter sets are accepted; all others raise ValueError. *)
Theorem C34_accepted_parameters :
  forall lm L W (p : params f64), shaped_params L W p ->
    ((exists P p', init lm p = Ok (P, p')) <-> acceptable L W p) /\ (forall e, init lm p = Err e -> e = ValueError).
Proof. exact init_accepts. Qed.
Print Assumptions C34_accepted_parameters.
Example C34_example : shaped_params 10 9 ex_params /\ acceptable 10 9 ex_params.
Proof.
  split; [apply ex_standard|]. split; [eexists; reflexivity|]. split; [left; split; eexists; reflexivity|].
  split; [left; split; eexists; reflexivity|]. intros a H. discriminate.
Qed.
(** The same set without discharge is shaped as well, and not acceptable. *)
Definition c34_bad : params f64 := with_flow ex_params None None (Some gx_qy) None (Some gx_qy).
Example C34_example_rejected : shaped_params 10 9 c34_bad /\ ~ acceptable 10 9 c34_bad.
Proof.
  split.
  - repeat split; try lia; try (intros; discriminate);
    match goal with |- nrow ?a = _ => idtac | |- ncol ?a = _ => idtac end;
    match goal with H : _ = Some ?a |- _ => injection H as <-; reflexivity end.
  - intros (_ & _ & [((a & A) & _)|((a & A) & _)] & _); discriminate.
Qed.

(** C35 Velocity magnitude and components are at least 1e-8 in magnitude, whatever the input arrays hold; sums of two inverse
    velocities are finite numbers >= 0. *)
Theorem C35_velocity_floor :
  forall lm (p : params f64) P p' i j, sqrt_ok lm -> init lm p = Ok (P, p') ->
    nleb neps8 (cell (o_vel P) i j) = true /\
    nleb neps8 (nabs (cell (o_u P) i j)) = true /\ nleb neps8 (nabs (cell (o_v P) i j)) = true.
Proof. exact init_velocity. Qed.
Print Assumptions C35_velocity_floor.
Theorem C35_inverse_velocity :
  forall lm (p : params f64) P p' i j i' j', sqrt_ok lm -> init lm p = Ok (P, p') ->
    let s := nadd (ndiv n1 (cell (o_vel P) i j)) (ndiv n1 (cell (o_vel P) i' j')) in nleb n0 s = true /\ nisfin s = true.
Proof.
  intros lm p P p' i j i' j' SQ H. apply inv_sum_ok; [apply (init_velocity lm p P p' i j SQ H) | apply (init_velocity lm p P p' i' j' SQ H)].
Qed.
Print Assumptions C35_inverse_velocity.
Example C35_example : sqrt_ok ex_lm /\ exists p', init ex_lm ex_params = Ok (ex_P, p').
Proof. split; [exact ex_sqrt_ok | exact ex_init]. Qed.

(** C36 Cleaning of depth and stage. *)
Theorem C36_depth_clean :
  forall lm (p : params f64) P p' i j, init lm p = Ok (P, p') ->
    nisnan (cell (o_depth P) i j) = false /\
    (p_depth p = None -> nleb n0 (cell (o_depth P) i j) = true) /\
    (forall d, p_depth p = Some d -> cell (o_depth P) i j = if nisnan (cell d i j) then n0 else cell d i j) /\
    (forall s t, p_depth p = None -> p_stage p = Some s -> p_topo p = Some t ->
       cell (o_depth P) i j = let x := nsub (cell s i j) (cell t i j) in
                              if nisnan x then n0 else if nltb x n0 then n0 else x).
Proof. exact init_depth_clean. Qed.
Print Assumptions C36_depth_clean.
Theorem C36_stage_clean :
  forall lm (p : params f64) P p' i j, init lm p = Ok (P, p') ->
    (neqb (cell (o_depth P) i j) n0 = true -> cell (o_stage P) i j = nnan) /\
    (neqb (cell (o_depth P) i j) n0 = false -> forall s, p_stage p = Some s -> cell (o_stage P) i j = cell s i j) /\
    (neqb (cell (o_depth P) i j) n0 = false -> p_stage p = None -> forall t d, p_topo p = Some t -> p_depth p = Some d ->
       cell (o_stage P) i j = nadd (cell t i j) (cell (o_depth P) i j)).
Proof. exact init_stage_clean. Qed.
Print Assumptions C36_stage_clean.
(** The example grid has a dry cell and a wet one. *)
Example C36_example : neqb (cell (o_depth ex_P) 4 4) n0 = true /\ neqb (cell (o_depth ex_P) 5 5) n0 = false.
Proof. split; vm_compute; reflexivity. Qed.

(** C37 Default cell types. *)
Theorem C37_default_cell_types :
  forall lm L W (p : params f64) P p' i j, shaped_params L W p -> p_ct p = None -> init lm p = Ok (P, p') ->
    0 <= i < L -> 0 <= j < W ->
    cell (o_ct P) i j = if (i =? 0) || (j =? 0) || (i =? L - 1) || (j =? W - 1) then -1
                        else if nltb (cell (o_depth P) i j) (o_dry P) then 2 else 0.
Proof. exact init_cell_types. Qed.
Print Assumptions C37_default_cell_types.
Example C37_example : shaped_params 10 9 ex_params /\ p_ct ex_params = None /\ cell (o_ct ex_P) 4 4 = 2 /\ cell (o_ct ex_P) 0 4 = -1 /\ cell (o_ct ex_P) 5 5 = 0.
Proof. split; [apply ex_standard|]. split; [reflexivity|]. split; [|split]; vm_compute; reflexivity. Qed.

(** C38 General coordinates = DeltaRCM coordinates with rotated input, bit for bit; same for velocities. *)
Theorem C38_rotated_discharge :
  forall lm (p : params f64) (m : option string) qx qy u v, m <> Some "DeltaRCM"%string ->
    match init lm (with_flow p m (Some qx) (Some qy) u v),
          init lm (with_flow p (Some "DeltaRCM"%string) (Some (amap (nmul (nofZ (-1))) qy)) (Some qx) u v) with
    | Ok (P, _), Ok (P', _) => P = P'
    | Err e, Err e' => e = e'
    | _, _ => False
    end.
Proof. exact rotation. Qed.
Print Assumptions C38_rotated_discharge.
Theorem C38_rotated_velocity :
  forall lm (p : params f64) (m : option string) u v, m <> Some "DeltaRCM"%string ->
    match init lm (with_flow p m None None (Some u) (Some v)),
          init lm (with_flow p (Some "DeltaRCM"%string) None None (Some (amap (nmul (nofZ (-1))) v)) (Some u)) with
    | Ok (P, _), Ok (P', _) => P = P'
    | Err e, Err e' => e = e'
    | _, _ => False
    end.
Proof. exact rotation_uv. Qed.
Print Assumptions C38_rotated_velocity.
Example C38_example : is_ok (init ex_lm (with_flow ex_params (Some "anuga"%string) (Some gx_qx) (Some gx_qy) None None)) = true /\
  is_ok (init ex_lm (with_flow ex_params None None None (Some gx_qx) (Some gx_qy))) = true.
Proof. split; vm_compute; reflexivity. Qed.

(** C39 With discharge input, a second construction from the same (partly overwritten) parameter object gives the same object. *)
Theorem C39_construct_twice_partial :
  forall lm (p : params f64) P p' qx qy, p_qx p = Some qx -> p_qy p = Some qy -> no_negative_zero p ->
    init lm p = Ok (P, p') -> exists P2 p2, init lm p' = Ok (P2, p2) /\ same_obj P P2.
Proof. exact construct_twice. Qed.
Print Assumptions C39_construct_twice_partial.
Example C39_example : p_qx ex_params = Some gx_qx /\ p_qy ex_params = Some gx_qy /\ no_negative_zero ex_params.
Proof. split; [reflexivity|]. split; [reflexivity|]. intros s t i j H. discriminate. Qed.
(** With velocity input it does not: the floor of 1e-8 is written into the caller's array, and the second object has a discharge
    where the first one has none. *)
Definition c39_u : arr f64 := Arr 10 9 (fun i j => nofZ (j - 3)).
Definition c39_p : params f64 := with_flow ex_params None None None (Some c39_u) (Some c39_u).
Theorem C39_velocity_input_refuted :
  exists lm (p : params f64) P p' P2 p2 i j,
    standard lm 10 9 p /\ init lm p = Ok (P, p') /\ init lm p' = Ok (P2, p2) /\ 0 <= i < 10 /\ 0 <= j < 9 /\
    neqb (cell (o_qy P) i j) n0 = true /\ nltb n0 (cell (o_qy P2) i j) = true.
Proof.
  set (d := (gx_none, c39_p)). set (r := unerr d (init ex_lm c39_p)). set (r2 := unerr d (init ex_lm (snd r))).
  exists ex_lm, c39_p, (fst r), (snd r), (fst r2), (snd r2), 5, 3.
  split.
  { split. { repeat split; try lia; try (intros; discriminate);
      match goal with |- nrow ?a = _ => idtac | |- ncol ?a = _ => idtac end;
      match goal with H : _ = Some ?a |- _ => injection H as <-; reflexivity end. }
    split; [lia|]. split; [lia|]. split; [repeat split|]. split; [intros ct Hc; discriminate|]. split; [intros g Hg; discriminate|].
    split; [exact ex_pow_ok|]. split; [exact ex_sqrt_ok|]. intros dx Hd. injection Hd as <-. vm_compute. reflexivity. }
  split. { rewrite <- surjective_pairing. apply is_ok_unerr. vm_compute. reflexivity. }
  split. { rewrite <- surjective_pairing. apply is_ok_unerr. vm_compute. reflexivity. }
  split; [lia|]. split; [lia|]. split; vm_compute; reflexivity.
Qed.
Print Assumptions C39_velocity_input_refuted.

(** C40 The default tables, over the reals.  row_off and col_off are the offsets of the neighbour in direction k. *)
Theorem C40_tables :
  forall k, (k < 9)%nat -> k <> 4%nat ->
    (nth k default_jwalk 0 = row_off k /\ nth k default_iwalk 0 = col_off k) /\
    (nth k r_dist 0 = sqrt (IZR (row_off k) * IZR (row_off k) + IZR (col_off k) * IZR (col_off k)))%R /\
    (nth k r_ivec 0 = IZR (col_off k) / nth k r_dist 0)%R /\ (nth k r_jvec 0 = IZR (row_off k) / nth k r_dist 0)%R /\
    cos (nth k r_angles 0%R) = nth k r_ivec 0%R /\ (sin (nth k r_angles 0) = - nth k r_jvec 0)%R.
Proof.
  intros k H K. split; [apply walk_dirs, H|]. destruct (dist_dirs k H K) as (A & B & C). destruct (angle_dirs k H K) as (D & E).
  repeat (split; [assumption|]). assumption.
Qed.
Print Assumptions C40_tables.
Theorem C40_inertia_iff_projected :
  forall (P : pobj R) i j k r,
    o_dist P = r_dist -> o_ivec P = r_ivec -> o_jvec P = r_jvec -> o_angles P = r_angles -> (0 < o_dx P)%R ->
    (k < 9)%nat -> k <> 4%nat -> (0 < r)%R ->
    (cell (o_qy P) i j = r * cos (cell (o_vang P) i j))%R -> (- cell (o_qx P) i j = r * sin (cell (o_vang P) i j))%R ->
    @nb_blocked R RNum P i j k = false ->
    ((0 < @inertia R RNum P i j k)%R <-> (0 < @projected R RNum Rlibm P k i j)%R).
Proof. exact inertia_iff_projected. Qed.
Print Assumptions C40_inertia_iff_projected.
(** A cell with discharge (qx,qy) = (0,3), that is towards higher columns, has velocity angle 0. *)
Definition c40_P : pobj R :=
  {| o_dx := 5%R; o_depth := Arr 5 5 (fun _ _ => 1%R); o_stage := Arr 5 5 (fun _ _ => 1%R); o_qx := Arr 5 5 (fun _ _ => 0%R);
     o_qy := Arr 5 5 (fun _ _ => 3%R); o_u := Arr 5 5 (fun _ _ => 0%R); o_v := Arr 5 5 (fun _ _ => 3%R); o_vel := Arr 5 5 (fun _ _ => 3%R);
     o_vang := Arr 5 5 (fun _ _ => 0%R); o_theta := 1%R; o_gamma := 0%R; o_diff := 0%R; o_dry := 0%R; o_ct := Arr 5 5 (fun _ _ => 0);
     o_steep := false; o_dist := r_dist; o_ivec := r_ivec; o_jvec := r_jvec; o_iwalk := default_iwalk; o_jwalk := default_jwalk;
     o_angles := r_angles; o_roi := None; o_vars := [] |}.
Example C40_example : (0 < o_dx c40_P)%R /\ (cell (o_qy c40_P) 2 2 = 3 * cos (cell (o_vang c40_P) 2 2))%R /\
  (- cell (o_qx c40_P) 2 2 = 3 * sin (cell (o_vang c40_P) 2 2))%R /\ @nb_blocked R RNum c40_P 2 2 5 = false.
Proof.
  cbn [o_dx o_qy o_qx o_vang c40_P cell]. rewrite cos_0, sin_0. split; [lra|]. split; [lra|]. split; [lra|].
  unfold nb_blocked, c40_P. cbn. unfold Rbool. destruct (Rle_dec 1 0); [lra | reflexivity].
Qed.
