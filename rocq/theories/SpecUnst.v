(** Specification vocabulary for runs through a sequence of flow fields. *)
From Coq Require Import ZArith Bool String List.
From Verif Require Import Num Py Walker ParticleTrack SpecWeights SpecPick SpecWalk SpecHist SpecInit Unsteady.
Import ListNotations.
Open Scope Z_scope.

Section Spec.
Context {T : Type} {N : Num T}.
Variable G : T -> Prop.
(** A history r' that continues r through the flow fields Ps: in each of them the particle makes some documented steps (at most 10000) and stops for
    one of the documented reasons with respect to that field's target time. *)
Inductive continued (lm : Libm T) : list (pobj T) -> list T -> prow T -> prow T -> Prop :=
| cont_end r : continued lm [] [] r r
| cont_field P Ps t ts n r r1 r2 : extends G lm P n r r1 -> Z.of_nat n <= 10000 -> stopped G lm P t 10000 n r1 ->
    continued lm Ps ts r1 r2 -> continued lm (P :: Ps) (t :: ts) r r2.
(** P is the object built from dx and flow field f, everything else left at its default. *)
Definition built (lm : Libm T) (dx : T) (f : field T) (P : pobj T) : Prop := exists p', init lm (set_field f (unsteady_params dx)) = Ok (P, p').
Definition field_shape (L W : Z) (f : field T) : Prop :=
  (nrow (fl_depth f) = L /\ ncol (fl_depth f) = W) /\ (nrow (fl_stage f) = L /\ ncol (fl_stage f) = W) /\
  (nrow (fl_qx f) = L /\ ncol (fl_qx f) = W) /\ (nrow (fl_qy f) = L /\ ncol (fl_qy f) = W).
(** The positions (x, y) that the code handles safely on an L x W grid. *)
Definition safe_seed (L W : Z) (x y : Z) : Prop := (x, y) = (0, 0) \/ (1 <= x < L /\ 1 <= y < W).
(** A freshly seeded particle without tracked variables. *)
Definition fresh (x y : Z) : prow T := {| r_x := [x]; r_y := [y]; r_t := [n0]; r_o := [] |}.
(** The intended target times: one, two, ... timesteps, as np.arange computes them. *)
Definition target_time (ts : T) (i : nat) : T :=
  match i with O => ts | S O => nadd ts ts | _ => nadd ts (nmul (nofZ (Z.of_nat i)) (nsub (nadd ts ts) ts)) end.
(** Documented input of unsteady_plots: flow fields of one shape (at least 3x3), a nonzero cell size, seed locations that the code handles safely, a generator
    that delivers numbers in [0,1), and a mathematical library whose square root and power behave. *)
Definition unsteady_input (lm : Libm T) (dx : T) (L W : Z) (draws : nat -> T) (np : Z) (xl yl : list Z) (fields : list (field T)) : Prop :=
  3 <= L /\ 3 <= W /\ sqrt_ok lm /\ (forall d, nleb d (ntenth : T) = false -> nltb (m_pow lm d n1) n0 = false) /\ neqb dx n0 = false /\
  Forall (field_shape L W) fields /\ 0 <= np /\ (forall x y, In x xl -> In y yl -> safe_seed L W x y) /\ unit_stream G draws.
(** The number of flow fields that are used. *)
Definition used (num_steps : Z) (fields : list (field T)) : nat := Nat.min (Z.to_nat num_steps) (length fields).
End Spec.
