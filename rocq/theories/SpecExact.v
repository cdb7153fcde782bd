(** Vocabulary for claims in exact rational arithmetic. *)
From Coq Require Import ZArith Bool String List QArith Qcanon.
From Verif Require Import Num XQ Py Walker ParticleTrack SpecWeights SpecPick SpecWalk.
Open Scope Z_scope.

Definition qhalf : Qc := (1 / (1 + 1))%Qc.
(** max(0, c) *)
Definition qpos (c : Qc) : Qc := if Qclt_le_dec 0 c then c else 0%Qc.
Definition qabs (c : Qc) : Qc := if Qclt_le_dec c 0 then (- c)%Qc else c.

(** All the numbers a step time is computed from are finite, velocities are positive. *)
Definition finite_field (lm : Libm xq) (P : pobj xq) : Prop :=
  nisfin (o_dx P) = true /\ nisfin (o_diff P) = true /\ nn (o_diff P) /\
  (forall k, (k < 9)%nat -> nisfin (nth k (o_dist P) n0) = true) /\
  (forall i j, in_grid P i j -> nisfin (cell (o_vel P) i j) = true /\ nltb n0 (cell (o_vel P) i j) = true) /\
  (forall k i j, (k < 9)%nat -> in_grid P i j -> nisfin (m_cos lm (nsub (nth k (o_angles P) n0) (cell (o_vang P) i j))) = true).

