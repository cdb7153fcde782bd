(** Specification of recorded histories and of seeding requests. *)
From Coq Require Import ZArith Bool String List.
From Verif Require Import Num Py Walker ParticleTrack Gen SpecWeights SpecPick SpecWalk.
Import ListNotations.
Open Scope Z_scope.

Section Spec.
Context {T : Type} {N : Num T}.
Variable G : T -> Prop.     (* the values that the generator may deliver, see SpecWalk *)

(** A history that the model may have produced: it starts at a safe position, every record follows from the one
    before it by a documented random-walk step, all lists are equally long, and every tracked value is the grid
    value at the position recorded at the same index. *)
Definition history_ok (lm : Libm T) (P : pobj T) (r : prow T) : Prop :=
  row_rect r /\
  safe_pos P (xat r 0) (yat r 0) /\
  (forall i, (S i < length (r_x r))%nat ->
     documented_step G lm P (xat r i) (yat r i) (tat r i) (xat r (S i)) (yat r (S i)) (tat r (S i))) /\
  (forall v l, In (v, l) (r_o r) -> forall i, (i < length (r_x r))%nat ->
     nth i l None = field_value P v (xat r i) (yat r i)).

(** Walk data in which every particle has such a history. *)
Definition walk_hist_ok (lm : Libm T) (P : pobj T) (w : walk T) : Prop :=
  shaped (tvars P) w /\ forall p, (p < count w)%nat -> history_ok lm P (row (tvars P) w p).

(** Every call of a program is admissible: seeds at safe positions, and data handed in as previous_walk_data
    is itself such a history. *)
Definition op_ok (lm : Libm T) (P : pobj T) (o : op T) : Prop :=
  seeds_ok P o /\ match prev_of o with Some w => walk_hist_ok lm P w | None => True end.

(** A state that a program can reach from a freshly constructed object. *)
Definition reached (lm : Libm T) (P : pobj T) (draws : nat -> T) (s : psim T) : Prop :=
  exists pos os, Forall (op_ok lm P) os /\ do_ops lm P draws os (init_sim lm P pos) = Ok s.

(** Same, but all particles are seeded strictly inside the outer ring. *)
Definition seeds_inside (P : pobj T) (o : op T) : Prop :=
  match o with
  | OpGen np xl yl _ Random prev => (forall x y, In x xl -> In y yl -> inside P x y) /\ prev = None
  | OpGen np xl yl _ Exact prev => (forall x y, In (x, y) (combine xl yl) -> inside P x y) /\ prev = None
  | _ => True
  end.

(** Start positions of np new particles: 'random' takes a listed row and a listed column for each; 'exact' walks
    through the listed pairs round and round. *)
Definition seeded (m : method) (np : Z) (xl yl : list Z) (xs ys : list Z) : Prop :=
  length xs = Z.to_nat np /\ length ys = Z.to_nat np /\
  match m with
  | Random => Forall (fun x => In x xl) xs /\ Forall (fun y => In y yl) ys
  | Exact => forall i, (i < Z.to_nat np)%nat -> nth i xs 0 = nth (i mod length xl) xl 0 /\ nth i ys 0 = nth (i mod length xl) yl 0
  end.

(** The walk data currently stored ([None] counts as no particles). *)
Definition stored_count (s : psim T) : nat := match s_walk s with Some w => count w | None => 0%nat end.
Definition opt_count (w : option (walk T)) : nat := match w with Some w => count w | None => 0%nat end.
Definition opt_row (vars : list string) (w : option (walk T)) (p : nat) : prow T :=
  match w with Some w => row vars w p | None => {| r_x := []; r_y := []; r_t := []; r_o := [] |} end.
End Spec.
