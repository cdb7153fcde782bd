(** Locality: which part of the flow field a run depends on. *)
From Coq Require Import ZArith Bool String List.
From Verif Require Import Num Py Walker ParticleTrack SpecWeights SpecPick SpecWalk SpecHist SpecInit SpecApi.
Import ListNotations.
Open Scope Z_scope.

Section Spec.
Context {T : Type} {N : Num T}.

(** Two arrays of one shape with the same values at the cells of a set R. *)
Definition arr_agree {A} (R : Z -> Z -> Prop) (a b : arr A) : Prop :=
  nrow a = nrow b /\ ncol a = ncol b /\ forall i j, R i j -> cell a i j = cell b i j.
Definition opt_agree {A} (R : Z -> Z -> Prop) (a b : option (arr A)) : Prop :=
  match a, b with Some a, Some b => arr_agree R a b | None, None => True | _, _ => False end.
(** Two parameter sets that differ at most in the array values outside R. *)
Definition params_agree (R : Z -> Z -> Prop) (p1 p2 : params T) : Prop :=
  opt_agree R (p_depth p1) (p_depth p2) /\ opt_agree R (p_stage p1) (p_stage p2) /\ opt_agree R (p_topo p1) (p_topo p2) /\
  opt_agree R (p_qx p1) (p_qx p2) /\ opt_agree R (p_qy p1) (p_qy p2) /\ opt_agree R (p_u p1) (p_u p2) /\ opt_agree R (p_v p1) (p_v p2) /\
  opt_agree R (p_ct p1) (p_ct p2) /\ opt_agree R (p_roi p1) (p_roi p2) /\
  p_dx p1 = p_dx p2 /\ p_model p1 = p_model p2 /\ p_theta p1 = p_theta p2 /\ p_gamma p1 = p_gamma p2 /\ p_diff p1 = p_diff p2 /\
  p_dry p1 = p_dry p2 /\ p_steep p1 = p_steep p2 /\ p_vars p1 = p_vars p2 /\
  p_dist p1 = p_dist p2 /\ p_ivec p1 = p_ivec p2 /\ p_jvec p1 = p_jvec p2 /\ p_iwalk p1 = p_iwalk p2 /\ p_jwalk p1 = p_jwalk p2 /\ p_angles p1 = p_angles p2.

(** (x, y) is recorded for some particle. *)
Definition visited (w : walk T) (x y : Z) : Prop :=
  exists q m, (q < count w)%nat /\ (m < length (nth q (xinds w) []))%nat /\ nth m (nth q (xinds w) []) 0 = x /\ nth m (nth q (yinds w) []) 0 = y.
(** (x, y) is recorded at some time during the program os that starts in state s0. *)
Definition recorded (lm : Libm T) (P : pobj T) (draws : nat -> T) (os : list (op T)) (s0 : psim T) (x y : Z) : Prop :=
  exists os1 os2 s w, os = os1 ++ os2 /\ do_ops lm P draws os1 s0 = Ok s /\ s_walk s = Some w /\ visited w x y.
(** (i, j) is one of the cells V or one of their eight neighbours. *)
Definition around (V : Z -> Z -> Prop) (i j : Z) : Prop :=
  exists x y, V x y /\ x - 1 <= i <= x + 1 /\ y - 1 <= j <= y + 1.
End Spec.
