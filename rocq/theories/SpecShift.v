(** Changes of the clock, of the cell size and of the vertical datum. *)
From Coq Require Import ZArith Bool String List QArith Qcanon.
From Verif Require Import Num Py XQ Walker ParticleTrack SpecWalk SpecSim.
Import ListNotations.
Open Scope Z_scope.

(** The same calls with all times transformed by f: the start times, the target times, and the times in walk data handed over. *)
Definition retime_walk (f : xq -> xq) (w : walk xq) : walk xq :=
  {| xinds := xinds w; yinds := yinds w; times := map (map f) (times w); opts := opts w |}.
Definition retime_op (f : xq -> xq) (o : op xq) : op xq :=
  match o with
  | OpGen np xl yl t0 m prev => OpGen np xl yl (f t0) m (option_map (retime_walk f) prev)
  | OpRunTo target mi => OpRunTo (f target) mi
  | OpRun => OpRun
  | OpClear => OpClear
  end.
(** Two states with the same number of particles, the same positions, tracked values and consumed random numbers; all times transformed by f. *)
Definition retimed (f : xq -> xq) (s t : psim xq) : Prop :=
  s_np t = s_np s /\ s_walk t = option_map (retime_walk f) (s_walk s) /\ w_pos (s_wst t) = w_pos (s_wst s).
Definition later (c : Qc) (t : xq) : xq := nadd t (XFin c).
Definition times_k (k : Qc) (t : xq) : xq := nmul t (XFin k).
Definition plain_op (o : op xq) : Prop := match o with OpRunTo _ _ => False | _ => True end.

(** The parameters with another cell size. *)
Definition with_dx (dx : option xq) (p : params xq) : params xq :=
  {| p_dx := dx; p_depth := p_depth p; p_stage := p_stage p; p_topo := p_topo p; p_model := p_model p;
     p_qx := p_qx p; p_qy := p_qy p; p_u := p_u p; p_v := p_v p; p_theta := p_theta p; p_gamma := p_gamma p; p_diff := p_diff p; p_dry := p_dry p;
     p_ct := p_ct p; p_steep := p_steep p; p_dist := p_dist p; p_ivec := p_ivec p; p_jvec := p_jvec p; p_iwalk := p_iwalk p; p_jwalk := p_jwalk p; p_angles := p_angles p;
     p_roi := p_roi p; p_vars := p_vars p |}.
(** The parameters with all elevations (stage and topography) measured from another datum. *)
Definition raise (c : Qc) (a : arr xq) : arr xq := Arr (nrow a) (ncol a) (fun i j => nadd (cell a i j) (XFin c)).
Definition with_datum (c : Qc) (p : params xq) : params xq :=
  {| p_dx := p_dx p; p_depth := p_depth p; p_stage := option_map (raise c) (p_stage p); p_topo := option_map (raise c) (p_topo p); p_model := p_model p;
     p_qx := p_qx p; p_qy := p_qy p; p_u := p_u p; p_v := p_v p; p_theta := p_theta p; p_gamma := p_gamma p; p_diff := p_diff p; p_dry := p_dry p;
     p_ct := p_ct p; p_steep := p_steep p; p_dist := p_dist p; p_ivec := p_ivec p; p_jvec := p_jvec p; p_iwalk := p_iwalk p; p_jwalk := p_jwalk p; p_angles := p_angles p;
     p_roi := p_roi p; p_vars := p_vars p |}.
(** Walk data in which the tracked values of 'stage' are raised by c and nothing else is changed. *)
Definition raise_stage (c : Qc) (w : walk xq) : walk xq :=
  {| xinds := xinds w; yinds := yinds w; times := times w;
     opts := map (fun kv => (fst kv, map (map (option_map (fun a => if String.eqb (fst kv) "stage" then nadd a (XFin c) else a))) (snd kv))) (opts w) |}.
Definition raise_op (c : Qc) (o : op xq) : op xq :=
  match o with OpGen np xl yl t0 m prev => OpGen np xl yl t0 m (option_map (raise_stage c) prev) | o => o end.
Definition raised (c : Qc) (s t : psim xq) : Prop :=
  s_np t = s_np s /\ s_walk t = option_map (raise_stage c) (s_walk s) /\ w_pos (s_wst t) = w_pos (s_wst s).
