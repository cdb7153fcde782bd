(** Moving down the water surface. *)
From Coq Require Import ZArith Bool String List.
From Verif Require Import Num Py Walker ParticleTrack SpecWeights SpecPick SpecWalk SpecHist SpecApi.
Import ListNotations.
Open Scope Z_scope.

Section Spec.
Context {T : Type} {N : Num T}.
(** The water level at record i of a history. *)
Definition level (P : pobj T) (r : prow T) (i : nat) : T := cell (o_stage P) (xat r i) (yat r i).
(** Water levels, slopes and projected discharges do not overflow (dry cells have no water level: NaN). *)
Definition not_inf (x : T) : Prop := nisfin x = true \/ nisnan x = true.
Definition finite_levels (P : pobj T) : Prop :=
  (forall i j, in_grid P i j -> not_inf (cell (o_stage P) i j)) /\
  forall i j, inside P i j -> (forall k, (k < 9)%nat -> not_inf (slope P i j k)) /\ nisfin (total9 (slope P i j)) = true /\ finite9 (inertia P i j).
(** The particle has not left a dead end. *)
Definition no_dead_end (lm : Libm T) (P : pobj T) (r : prow T) : Prop :=
  forall i, (S i < length (r_x r))%nat -> ~ dead_end lm P (xat r i) (yat r i).
End Spec.
(** The step from (x,y) to (x',y') goes in a direction in which the discharge at (x,y) has a positive component. *)
Definition along_flow {T} {N : Num T} (P : pobj T) (x y x' y' : Z) : Prop :=
  exists k, (k < 9)%nat /\ x' = x + row_off k /\ y' = y + col_off k /\
    nltb n0 (nadd (nmul (cell (o_qx P) x y) (nth k (o_jvec P) n0)) (nmul (cell (o_qy P) x y) (nth k (o_ivec P) n0))) = true.
