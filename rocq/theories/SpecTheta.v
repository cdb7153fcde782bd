(** What the exponent theta of the depth means for the choice of a direction. *)
From Coq Require Import ZArith Bool String List QArith Qcanon.
From Verif Require Import Num XQ Py Walker ParticleTrack SpecWeights.
Import ListNotations.
Open Scope Z_scope.

(** The same parameters with another theta. *)
Definition with_theta {T} (th : T) (p : params T) : params T :=
  {| p_dx := p_dx p; p_depth := p_depth p; p_stage := p_stage p; p_topo := p_topo p; p_model := p_model p;
     p_qx := p_qx p; p_qy := p_qy p; p_u := p_u p; p_v := p_v p; p_theta := Some th; p_gamma := p_gamma p; p_diff := p_diff p;
     p_dry := p_dry p; p_ct := p_ct p; p_steep := p_steep p; p_dist := p_dist p; p_ivec := p_ivec p;
     p_jvec := p_jvec p; p_iwalk := p_iwalk p; p_jwalk := p_jwalk p; p_angles := p_angles p; p_roi := p_roi p;
     p_vars := p_vars p |}.

(** The law of the power function that says that th2 is the larger exponent: for 0 < d <= e the ratio e^th / d^th is not
    smaller for th2 than for th1.  It holds of real powers with th1 <= th2 (equality for th1 = th2). *)
Definition larger_exponent (lm : Libm xq) (th1 th2 : xq) : Prop :=
  forall d e, (0 < d)%Qc -> (d <= e)%Qc -> exists d1 d2 e1 e2,
    m_pow lm (XFin d) th1 = XFin d1 /\ m_pow lm (XFin d) th2 = XFin d2 /\
    m_pow lm (XFin e) th1 = XFin e1 /\ m_pow lm (XFin e) th2 = XFin e2 /\
    (0 < d1 /\ 0 < d2 /\ 0 < e1 /\ 0 < e2)%Qc /\ (e1 * d2 <= e2 * d1)%Qc.

(** Among the cells a particle at (i,j) may move to (those deep enough and not land), k is a deepest or a shallowest one. *)
Definition open_to {T} {N : Num T} (P : pobj T) (i j : Z) (k : nat) : Prop := (k < 9)%nat /\ nb_blocked P i j k = false.
Definition deepest_open {T} {N : Num T} (P : pobj T) (i j : Z) (k : nat) : Prop :=
  forall m, open_to P i j m -> nleb (nb i j (o_depth P) m) (nb i j (o_depth P) k) = true.
Definition shallowest_open {T} {N : Num T} (P : pobj T) (i j : Z) (k : nat) : Prop :=
  forall m, open_to P i j m -> nleb (nb i j (o_depth P) k) (nb i j (o_depth P) m) = true.

(** The same parameters with another gamma. *)
Definition with_gamma {T} (g : T) (p : params T) : params T :=
  {| p_dx := p_dx p; p_depth := p_depth p; p_stage := p_stage p; p_topo := p_topo p; p_model := p_model p;
     p_qx := p_qx p; p_qy := p_qy p; p_u := p_u p; p_v := p_v p; p_theta := p_theta p; p_gamma := Some g; p_diff := p_diff p;
     p_dry := p_dry p; p_ct := p_ct p; p_steep := p_steep p; p_dist := p_dist p; p_ivec := p_ivec p;
     p_jvec := p_jvec p; p_iwalk := p_iwalk p; p_jwalk := p_jwalk p; p_angles := p_angles p; p_roi := p_roi p;
     p_vars := p_vars p |}.
(** At cell (i,j) direction k owes at least as much to the slope of the water surface, against the flow direction, as m does:
    with s the share of the slope and t the share of the flow, s_k : t_k >= s_m : t_m. *)
Definition leans_to_slope (P : pobj xq) (i j : Z) (k m : nat) : Prop :=
  nleb (nmul (share (slope P i j) m) (share (inertia P i j) k)) (nmul (share (slope P i j) k) (share (inertia P i j) m)) = true.
