(** The same flow at another speed. *)
From Coq Require Import ZArith Bool String List QArith Qcanon.
From Verif Require Import Num Py XQ Walker ParticleTrack SpecWeights SpecWalk SpecHist SpecInit SpecApi SpecShift.
Import ListNotations.
Open Scope Z_scope.

(** Parameters whose discharges and velocities are k times those of p. *)
Definition times_arr (k : Qc) (a : arr xq) : arr xq := amap (times_k k) a.
Definition faster (k : Qc) (p : params xq) : params xq :=
  with_flow p (p_model p) (option_map (times_arr k) (p_qx p)) (option_map (times_arr k) (p_qy p)) (option_map (times_arr k) (p_u p)) (option_map (times_arr k) (p_v p)).
(** What is needed of the math library: sqrt (k*k*x) = k * sqrt x, and the direction of a vector does not depend on its length. *)
Definition homogeneous (lm : Libm xq) (k : Qc) : Prop :=
  (forall x, m_sqrt lm (times_k k (times_k k x)) = times_k k (m_sqrt lm x)) /\
  (forall y x, m_atan2 lm (times_k k y) (times_k k x) = m_atan2 lm y x).
(** At cell (x,y) no velocity was raised to the floor of 1e-8: both components and the speed are above it. *)
Definition above_floor (P : pobj xq) (x y : Z) : Prop :=
  nltb neps8 (nabs (cell (o_u P) x y)) = true /\ nltb neps8 (nabs (cell (o_v P) x y)) = true /\ nltb neps8 (cell (o_vel P) x y) = true.
(** Two histories through the same cells, the second one with all times divided by k. *)
Definition same_way (k : Qc) (r r' : prow xq) : Prop :=
  r_x r' = r_x r /\ r_y r' = r_y r /\ r_t r' = map (times_k (/ k)) (r_t r).
(** Two simulations with the same number of particles and the same number of random numbers consumed; all histories as above. *)
Definition same_ways (k : Qc) (P Q : pobj xq) (s t : psim xq) : Prop :=
  w_pos (s_wst t) = w_pos (s_wst s) /\
  match s_walk s, s_walk t with
  | Some w, Some v => count v = count w /\ forall q, (q < count w)%nat -> same_way k (hist P w q) (hist Q v q)
  | _, _ => False
  end.
