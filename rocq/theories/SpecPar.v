(** Vocabulary for statements about random streams and parallel runs. *)
From Coq Require Import List.
From Verif Require Import Parallel.
Import ListNotations.

(** The workers that take a task, in the order of the execution. *)
Fixpoint takers (es : list event) : list nat := match es with [] => [] | Take w :: r => w :: takers r | Done _ :: r => takers r end.
(** d' agrees with d from position lo up to, not including, position hi. *)
Definition agree {T} (d d' : nat -> T) (lo hi : nat) : Prop := forall n, (lo <= n < hi)%nat -> d' n = d n.
