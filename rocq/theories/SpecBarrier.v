(** Levees. *)
From Coq Require Import ZArith.
From Verif Require Import Num Py Walker ParticleTrack SpecWeights SpecPick SpecWalk SpecMotion.
Open Scope Z_scope.

Section Spec.
Context {T : Type} {N : Num T}.
(** No land cell is deeper than dry_depth. *)
Definition dry_land (P : pobj T) : Prop := forall x y, in_grid P x y -> cell (o_ct P) x y = 2 -> nltb (o_dry P) (cell (o_depth P) x y) = false.
(** No wet cell outside the region R touches a wet cell of R, not even with a corner. *)
Definition enclosed (P : pobj T) (R : Z -> Z -> Prop) : Prop :=
  forall x y x' y', R x y -> wet P x y -> in_grid P x' y' -> Z.abs (x' - x) <= 1 -> Z.abs (y' - y) <= 1 -> wet P x' y' -> R x' y'.
(** No wet cell outside the region R has a side in common with a wet cell of R. *)
Definition enclosed_sides (P : pobj T) (R : Z -> Z -> Prop) : Prop :=
  forall x y x' y', R x y -> wet P x y -> in_grid P x' y' -> Z.abs (x' - x) + Z.abs (y' - y) <= 1 -> wet P x' y' -> R x' y'.
End Spec.
