(** Specification vocabulary for the constructor Particles(params). *)
From Coq Require Import ZArith Bool String List.
From Verif Require Import Num Py Walker ParticleTrack SpecWeights.
Import ListNotations.
Open Scope Z_scope.

Section Spec.
Context {T : Type} {N : Num T}.

Definition given {A} (o : option A) : Prop := exists a, o = Some a.
Definition of_shape {A} (L W : Z) (o : option (arr A)) : Prop := forall a, o = Some a -> nrow a = L /\ ncol a = W.

(** All arrays of the parameter object have L rows and W columns (roi_grid is checked by the constructor), and the
    3x3 tables, if given, have nine entries. *)
Definition shaped_params (L W : Z) (p : params T) : Prop :=
  2 <= L /\ 2 <= W /\
  of_shape L W (p_depth p) /\ of_shape L W (p_stage p) /\ of_shape L W (p_topo p) /\
  of_shape L W (p_qx p) /\ of_shape L W (p_qy p) /\ of_shape L W (p_u p) /\ of_shape L W (p_v p) /\
  of_shape L W (p_ct p) /\
  (forall l, p_dist p = Some l -> length l = 9%nat) /\ (forall l, p_ivec p = Some l -> length l = 9%nat) /\
  (forall l, p_jvec p = Some l -> length l = 9%nat) /\ (forall l, p_iwalk p = Some l -> length l = 9%nat) /\
  (forall l, p_jwalk p = Some l -> length l = 9%nat) /\ (forall l, p_angles p = Some l -> length l = 9%nat).

(** The documented requirements on a parameter set. *)
Definition two_of_three (p : params T) : Prop :=
  (given (p_depth p) /\ given (p_stage p)) \/ (given (p_depth p) /\ given (p_topo p)) \/
  (given (p_stage p) /\ given (p_topo p)).
Definition has_flow (p : params T) : Prop :=
  (given (p_qx p) /\ given (p_qy p)) \/ (given (p_u p) /\ given (p_v p)).
Definition acceptable (L W : Z) (p : params T) : Prop :=
  given (p_dx p) /\ two_of_three p /\ has_flow p /\ of_shape L W (p_roi p).

(** The 3x3 tables are left at their defaults. *)
Definition default_tables (p : params T) : Prop :=
  p_dist p = None /\ p_ivec p = None /\ p_jvec p = None /\ p_iwalk p = None /\ p_jwalk p = None /\ p_angles p = None.
(** The cell types are left at their default, or given with an edge cell (-1) everywhere on the outer ring. *)
Definition ring_given (L W : Z) (p : params T) : Prop :=
  forall ct, p_ct p = Some ct -> forall i j, 0 <= i < L -> 0 <= j < W ->
    (i = 0 \/ j = 0 \/ i = L - 1 \/ j = W - 1) -> cell ct i j = -1.

(** What the theorems need to know about the math library. *)
Definition sqrt_ok (lm : Libm T) : Prop :=
  nleb n1 (m_sqrt lm (nofZ 2)) = true /\ nisfin (m_sqrt lm (nofZ 2)) = true /\
  forall x, nn x -> nisnan (m_sqrt lm x) = false.
(** cos never exceeds one (NaN is allowed). *)
Definition cos_ok (lm : Libm T) : Prop := forall x, nltb n1 (m_cos lm x) = false.
(** depth ** theta is not negative where depth is above dry_depth. *)
Definition pow_params_ok (lm : Libm T) (p : params T) : Prop :=
  forall d, nleb d (dflt (p_dry p) ntenth) = false -> nltb (m_pow lm d (dflt (p_theta p) n1)) n0 = false.
Definition gamma_params_ok (p : params T) : Prop :=
  forall g, p_gamma p = Some g -> nleb n0 g = true /\ nleb g n1 = true.

(** The default set-up: default tables, closed ring, at least 3x3 cells, usable dx and gamma. *)
Definition standard (lm : Libm T) (L W : Z) (p : params T) : Prop :=
  shaped_params L W p /\ 3 <= L /\ 3 <= W /\ default_tables p /\ ring_given L W p /\
  gamma_params_ok p /\ pow_params_ok lm p /\ sqrt_ok lm /\
  (forall dx, p_dx p = Some dx -> neqb dx n0 = false).

(** An edited copy of a parameter object. *)
Definition with_flow (p : params T) (model : option string) (qx qy u v : option (arr T)) : params T :=
  {| p_dx := p_dx p; p_depth := p_depth p; p_stage := p_stage p; p_topo := p_topo p; p_model := model;
     p_qx := qx; p_qy := qy; p_u := u; p_v := v; p_theta := p_theta p; p_gamma := p_gamma p; p_diff := p_diff p;
     p_dry := p_dry p; p_ct := p_ct p; p_steep := p_steep p; p_dist := p_dist p; p_ivec := p_ivec p;
     p_jvec := p_jvec p; p_iwalk := p_iwalk p; p_jwalk := p_jwalk p; p_angles := p_angles p; p_roi := p_roi p;
     p_vars := p_vars p |}.
(** Two objects agree in every field (arrays: shape and every cell). *)
Definition same_arr {A} (a b : arr A) : Prop := nrow a = nrow b /\ ncol a = ncol b /\ forall i j, cell a i j = cell b i j.
Definition same_obj (P Q : pobj T) : Prop :=
  o_dx P = o_dx Q /\ same_arr (o_depth P) (o_depth Q) /\ same_arr (o_stage P) (o_stage Q) /\
  same_arr (o_qx P) (o_qx Q) /\ same_arr (o_qy P) (o_qy Q) /\ same_arr (o_u P) (o_u Q) /\ same_arr (o_v P) (o_v Q) /\
  same_arr (o_vel P) (o_vel Q) /\ same_arr (o_vang P) (o_vang Q) /\ same_arr (o_ct P) (o_ct Q) /\
  o_theta P = o_theta Q /\ o_gamma P = o_gamma Q /\ o_diff P = o_diff Q /\ o_dry P = o_dry Q /\ o_steep P = o_steep Q /\
  o_dist P = o_dist Q /\ o_ivec P = o_ivec Q /\ o_jvec P = o_jvec Q /\ o_iwalk P = o_iwalk Q /\ o_jwalk P = o_jwalk Q /\
  o_angles P = o_angles Q /\ o_roi P = o_roi Q /\ o_vars P = o_vars Q.
(** No cell has a stage-topography difference of negative zero (in exact arithmetic this always holds). *)
Definition no_negative_zero (p : params T) : Prop :=
  forall s t i j, p_depth p = None -> p_stage p = Some s -> p_topo p = Some t ->
    neqb (nsub (cell s i j) (cell t i j)) n0 = true -> nsub (cell s i j) (cell t i j) = n0.
End Spec.
