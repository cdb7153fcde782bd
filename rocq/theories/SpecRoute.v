(** What the routes of the particles may depend on. *)
From Coq Require Import ZArith Bool String List.
From Verif Require Import Num Py Walker ParticleTrack SpecWeights SpecWalk SpecHist SpecInit SpecApi.
Import ListNotations.
Open Scope Z_scope.

Section Spec.
Context {T : Type} {N : Num T}.
(** The same shape, and the same values in all cells. *)
Definition same_grid {A} (a b : arr A) : Prop :=
  nrow a = nrow b /\ ncol a = ncol b /\ forall i j, 0 <= i < nrow a -> 0 <= j < ncol a -> cell a i j = cell b i j.
(** Two objects with the same depth, stage, discharge and cell types, the same routing parameters and tables, and diffusion either switched on in both or off in both.
    The cell size, the velocities, the amount of diffusion, the tracked variables and the region of interest may differ. *)
Definition same_routing (P Q : pobj T) : Prop :=
  (same_grid (o_depth P) (o_depth Q) /\ same_grid (o_stage P) (o_stage Q) /\ same_grid (o_qx P) (o_qx Q) /\ same_grid (o_qy P) (o_qy Q) /\ same_grid (o_ct P) (o_ct Q)) /\
  o_dist P = o_dist Q /\ o_ivec P = o_ivec Q /\ o_jvec P = o_jvec Q /\ o_iwalk P = o_iwalk Q /\ o_jwalk P = o_jwalk Q /\
  o_dry P = o_dry Q /\ o_theta P = o_theta Q /\ o_gamma P = o_gamma Q /\ o_steep P = o_steep Q /\
  nltb n0 (o_diff P) = nltb n0 (o_diff Q).
(** The same positions are recorded for the same particles, and the same number of random numbers has been used. *)
Definition same_places (s t : psim T) : Prop :=
  w_pos (s_wst t) = w_pos (s_wst s) /\
  match s_walk s, s_walk t with
  | Some w, Some v => xinds v = xinds w /\ yinds v = yinds w
  | None, None => True
  | _, _ => False
  end.
(** Every call but run_iteration with a target time (which stops by the times). *)
Definition no_target (o : op T) : Prop := match o with OpRunTo _ _ => False | _ => True end.
(** p with other values of what does not enter the routing. *)
Definition retimed (p : params T) (dx : T) (diff : T) (roi : option (arr Z)) (vars : option (list string)) : params T :=
  {| p_dx := Some dx; p_depth := p_depth p; p_stage := p_stage p; p_topo := p_topo p; p_model := p_model p;
     p_qx := p_qx p; p_qy := p_qy p; p_u := p_u p; p_v := p_v p; p_theta := p_theta p; p_gamma := p_gamma p; p_diff := Some diff;
     p_dry := p_dry p; p_ct := p_ct p; p_steep := p_steep p; p_dist := p_dist p; p_ivec := p_ivec p;
     p_jvec := p_jvec p; p_iwalk := p_iwalk p; p_jwalk := p_jwalk p; p_angles := p_angles p; p_roi := roi;
     p_vars := vars |}.
(** p with other arrays for the water. *)
Definition with_water (p : params T) (depth stage topo : option (arr T)) : params T :=
  {| p_dx := p_dx p; p_depth := depth; p_stage := stage; p_topo := topo; p_model := p_model p;
     p_qx := p_qx p; p_qy := p_qy p; p_u := p_u p; p_v := p_v p; p_theta := p_theta p; p_gamma := p_gamma p; p_diff := p_diff p;
     p_dry := p_dry p; p_ct := p_ct p; p_steep := p_steep p; p_dist := p_dist p; p_ivec := p_ivec p;
     p_jvec := p_jvec p; p_iwalk := p_iwalk p; p_jwalk := p_jwalk p; p_angles := p_angles p; p_roi := p_roi p;
     p_vars := p_vars p |}.
End Spec.
