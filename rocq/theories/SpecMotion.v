(** Vocabulary for the travel theorems (wet cells, times). *)
From Coq Require Import ZArith Bool String List.
From Verif Require Import Num Py Walker ParticleTrack SpecWeights SpecPick SpecWalk.
Import ListNotations.
Open Scope Z_scope.

Section Spec.
Context {T : Type} {N : Num T}.

(** The step tables are the documented ones: entry k leads to neighbour k. *)
Definition d8_steps (P : pobj T) : Prop :=
  forall k, (k < 9)%nat -> nth k (o_jwalk P) 0 = row_off k /\ nth k (o_iwalk P) 0 = col_off k.

(** A draw that does not map to exactly zero in any interior cell.  (The draw 0 always maps to zero; no other draw does,
    as long as total weight times draw does not underflow and, with steepest descent, the cell is not a pit.) *)
Definition clear_draw (lm : Libm T) (P : pobj T) (u : T) : Prop :=
  forall i j, inside P i j -> nltb n0 (mapped_draw (pick_vector P (weights_of lm P i j)) u) = true.

(** The cell (x', y') is wet and not land; or (x, y) is a dead end and (x', y') is a deepest cell of its 3x3 block. *)
Definition wet (P : pobj T) (x y : Z) : Prop := nltb (o_dry P) (cell (o_depth P) x y) = true /\ cell (o_ct P) x y <> 2.
Definition wet_arrival (lm : Libm T) (P : pobj T) (x y x' y' : Z) : Prop :=
  wet P x' y' \/
  (dead_end lm P x y /\
   forall i j, x - 1 <= i <= x + 1 -> y - 1 <= j <= y + 1 -> nleb (cell (o_depth P) i j) (cell (o_depth P) x' y') = true).

(** Conditions for times to be numbers that never decrease. *)
Definition times_defined (lm : Libm T) (P : pobj T) : Prop :=
  (* step lengths are finite and not negative *)
  (forall k, (k < 9)%nat -> nn (nmul (nth k (o_dist P) n0) (o_dx P)) /\ nisfin (nmul (nth k (o_dist P) n0) (o_dx P)) = true) /\
  (* velocities are at least 1e-8 *)
  (forall i j, in_grid P i j -> nleb neps8 (cell (o_vel P) i j) = true) /\
  (* the diffusion coefficient lies in [0,2] *)
  nn (o_diff P) /\ nleb (o_diff P) (nofZ 2) = true /\
  (* the cosine never exceeds one *)
  (forall a, nltb n1 (m_cos lm a) = false).
End Spec.
