(** Another unit for vertical distances. *)
From Coq Require Import ZArith Bool String List QArith Qcanon.
From Verif Require Import Num Py XQ Walker ParticleTrack SpecWalk SpecSim SpecShift SpecFast.
Import ListNotations.
Open Scope Z_scope.

(** The parameters with all vertical distances multiplied by k: depth, stage, topography, dry_depth (0.1 if not given), and the discharges per unit width (depth times
    velocity). Velocities and the cell size keep their units. *)
Definition with_units (k : Qc) (p : params xq) : params xq :=
  {| p_dx := p_dx p; p_depth := option_map (times_arr k) (p_depth p); p_stage := option_map (times_arr k) (p_stage p); p_topo := option_map (times_arr k) (p_topo p);
     p_model := p_model p; p_qx := option_map (times_arr k) (p_qx p); p_qy := option_map (times_arr k) (p_qy p); p_u := p_u p; p_v := p_v p;
     p_theta := p_theta p; p_gamma := p_gamma p; p_diff := p_diff p; p_dry := Some (times_k k (dflt (p_dry p) ntenth));
     p_ct := p_ct p; p_steep := p_steep p; p_dist := p_dist p; p_ivec := p_ivec p; p_jvec := p_jvec p; p_iwalk := p_iwalk p; p_jwalk := p_jwalk p; p_angles := p_angles p;
     p_roi := p_roi p; p_vars := p_vars p |}.
(** What is needed of the power function: (k d)^theta = c d^theta, where c stands for k^theta. *)
Definition power_law (lm : Libm xq) (p : params xq) (k c : Qc) : Prop :=
  forall d, m_pow lm (times_k k d) (dflt (p_theta p) n1) = times_k c (m_pow lm d (dflt (p_theta p) n1)).
(** Tracked variables that are vertical distances or discharges. *)
Definition vertical (v : string) : bool := String.eqb v "depth" || String.eqb v "stage" || String.eqb v "qx" || String.eqb v "qy".
(** Walk data in which the tracked values of these variables are multiplied by k, and nothing else is changed. *)
Definition units_walk (k : Qc) (w : walk xq) : walk xq :=
  {| xinds := xinds w; yinds := yinds w; times := times w;
     opts := map (fun kv => (fst kv, map (map (option_map (fun a => if vertical (fst kv) then times_k k a else a))) (snd kv))) (opts w) |}.
Definition units_op (k : Qc) (o : op xq) : op xq :=
  match o with OpGen np xl yl t0 m prev => OpGen np xl yl t0 m (option_map (units_walk k) prev) | o => o end.
(** The same particles, positions, times and consumed random numbers. *)
Definition in_units (k : Qc) (s t : psim xq) : Prop :=
  s_np t = s_np s /\ s_walk t = option_map (units_walk k) (s_walk s) /\ w_pos (s_wst t) = w_pos (s_wst s).
