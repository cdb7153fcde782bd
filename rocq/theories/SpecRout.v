(** Specification vocabulary for the routines, independent of their model. *)
From Coq Require Import ZArith Bool String List.
From Verif Require Import Num Py Walker ParticleTrack SpecWalk.
Import ListNotations.
Open Scope Z_scope.

Section Spec.
Context {T : Type} {N : Num T}.

(** All fields of a walk-data dictionary, for one particle. *)
Definition fields (w : walk T) : list string := map fst (opts w).
Definition record_of (w : walk T) (q : nat) : prow T := row (fields w) w q.
(** Walk data with distinct field names in which every particle has at least one record and its lists are equally long. *)
Definition rect_walk (w : walk T) : Prop :=
  NoDup (fields w) /\ shaped (fields w) w /\ forall q, (q < count w)%nat -> row_rect (record_of w q).

(** Python's index n into a list of length len (counting from the end if negative), or the last index if there is no such element. *)
Definition has_record (n : Z) (len : nat) : bool := (- Z.of_nat len <=? n) && (n <? Z.of_nat len).
Definition record_ix (n : Z) (len : nat) : nat :=
  if has_record n len then Z.to_nat (if n <? 0 then n + Z.of_nat len else n) else (len - 1)%nat.

(** Entry number i of the list l is a smallest one, and the first such. *)
Definition first_min (l : list T) (i : nat) : Prop :=
  (i < length l)%nat /\ (forall j, (j < length l)%nat -> nleb (nth i l n0) (nth j l n0) = true) /\ forall j, (j < i)%nat -> nltb (nth i l n0) (nth j l n0) = true.

(** The lists xs, ys, ts (and the dictionary o, if the walk data has further fields) have one entry per particle; for particle q it is the value in record ix q. *)
Definition slice_at (w : walk T) (ix : nat -> nat) (xs ys : list Z) (ts : list T) (o : option (list (string * list (option T)))) : Prop :=
  length xs = count w /\ length ys = count w /\ length ts = count w /\
  (forall q, (q < count w)%nat -> (ix q < length (r_x (record_of w q)))%nat /\
     nth q xs 0 = xat (record_of w q) (ix q) /\ nth q ys 0 = yat (record_of w q) (ix q) /\ nth q ts n0 = tat (record_of w q) (ix q)) /\
  (o = None <-> fields w = []) /\
  forall d, o = Some d -> map fst d = fields w /\ forall v col, dget v (opts w) = Some col -> exists c, dget v d = Some c /\ length c = count w /\
     forall q, (q < count w)%nat -> nth q c None = nth (ix q) (nth q col []) None.

(** Snake plots.  The (column, row) positions of a particle, in order. *)
Definition track (w : walk T) (q : nat) : list (Z * Z) := combine (nth q (yinds w) []) (nth q (xinds w) []).
(** Segment m (0 = newest) of the tail of a particle at step ii with spacing k: the line between records ii-1-(m+1)k and ii-1-mk; if the history does
    not reach that far back, the previous segment again, and if there is none, the first two records. *)
Fixpoint snake_segment (l : list (Z * Z)) (ii k : Z) (m : nat) : list (Z * Z) :=
  let e := ii - Z.of_nat m * k - 1 in
  if 0 <=? e - k then [nth (Z.to_nat (e - k)) l (0, 0); nth (Z.to_nat e) l (0, 0)]
  else match m with O => firstn 2 l | S m' => snake_segment l ii k m' end.
(** The drawing of step ii: tail_length segments for each particle with at least ii records. *)
Definition snake_frame (w : walk T) (k tail_length ii : Z) : list (list (Z * Z)) :=
  flat_map (fun q => if ii <=? Z.of_nat (length (track w q)) then map (snake_segment (track w q) ii k) (seq 0 (Z.to_nat tail_length)) else []) (seq 0 (count w)).
End Spec.
