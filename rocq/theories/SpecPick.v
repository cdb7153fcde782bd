(** Vocabulary for the direction pick. *)
From Coq Require Import ZArith Bool List QArith Qcanon.
From Verif Require Import Num Py.
Open Scope Z_scope.

(** a draw of the generator: 0 <= u < 1 *)
Definition unit_draw {T} {N : Num T} (u : T) : Prop := nleb n0 u = true /\ nltb u n1 = true.
(** no entry of a weight vector is negative (NaN is allowed) *)
Definition no_negative {T} {N : Num T} (p : list T) : Prop := forall k, nltb (nth k p n0) n0 = false.
(** the number 0 + (total - 0) * u that the pick compares with the running sums of the weights *)
Definition mapped_draw {T} {N : Num T} (l : list T) (u : T) : T :=
  nadd n0 (nmul (nsub (nth (length l - 1) (cumsum l) nnan) n0) u).

(** exact sums *)
Definition Qcsum (l : list Qc) : Qc := fold_right Qcplus 0%Qc l.
(** sum of the first k weights *)
Definition prefix_sum (w : list Qc) (k : nat) : Qc := Qcsum (firstn k w).

