(** Vocabulary for repeated target-time runs. *)
From Coq Require Import ZArith Bool String List.
From Verif Require Import Num Py Walker ParticleTrack SpecWeights SpecPick SpecWalk SpecHist.
Import ListNotations.
Open Scope Z_scope.

Section Spec.
Context {T : Type} {N : Num T}.
(** No number of the generator makes a particle at (x, y) pick its own cell. *)
Definition always_moves_on (G : T -> Prop) (lm : Libm T) (P : pobj T) (x y : Z) : Prop :=
  forall k u, (k < 9)%nat -> unit_draw u -> G u -> selects lm P x y u k -> k <> 4%nat /\ (nth k (o_jwalk P) 0, nth k (o_iwalk P) 0) <> (0, 0).
(** A particle at (x, y) either never moves again (it is at (0,0) or next to an edge) or moves whenever it is asked to. *)
Definition rests_or_moves (G : T -> Prop) (lm : Libm T) (P : pobj T) (x y : Z) : Prop :=
  (x, y) = (0, 0) \/ edge_nearby P x y \/ always_moves_on G lm P x y.
(** The last step of a history (if there is one) took more than 0.1 seconds. *)
Definition last_step_long (r : prow T) : Prop :=
  (1 < length (r_x r))%nat -> nltb ntenth (nsub (tat r (last_ix r)) (tat r (last_ix r - 1))) = true.
(** The recorded times are finite and never decrease. *)
Definition times_in_order (r : prow T) : Prop :=
  (forall i, (i < length (r_x r))%nat -> nisfin (tat r i) = true) /\
  forall i, (S i < length (r_x r))%nat -> nleb (tat r i) (tat r (S i)) = true.
(** Number of records that r' has more than r. *)
Definition new_records (r r' : prow T) : nat := (length (r_x r') - length (r_x r))%nat.
End Spec.
