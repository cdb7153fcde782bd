(** Vocabulary for maps made from the records of many particles. *)
From Coq Require Import ZArith Bool String List Permutation.
From Verif Require Import Num Py Walker ParticleTrack SpecWalk SpecPost.
Import ListNotations.
Open Scope Z_scope.

Section Spec.
Context {T : Type} {N : Num T}.
(** The paths of all particles, in order. *)
Definition paths (w : walk T) : list (prow T) := map (path w) (seq 0 (count w)).
(** The same particles, possibly in another order. *)
Definition reordered (w w' : walk T) : Prop := Permutation (paths w) (paths w').
(** Two rasters of the same size with the same values. *)
Definition same_raster (a b : arr T) : Prop :=
  nrow a = nrow b /\ ncol a = ncol b /\ forall x y, 0 <= x < nrow a -> 0 <= y < ncol a -> cell a x y = cell b x y.
(** Two calls that return the same raster or fail with the same exception. *)
Definition same_outcome (a b : res (arr T)) : Prop :=
  match a, b with Ok x, Ok y => same_raster x y | Err e, Err f => e = f | _, _ => False end.
(** A smoothing filter looks at nothing but the values of its raster. *)
Definition looks_at_values (gaussian : T -> arr T -> arr T) : Prop :=
  forall sigma a b, same_raster a b -> same_raster (gaussian sigma a) (gaussian sigma b).
End Spec.
