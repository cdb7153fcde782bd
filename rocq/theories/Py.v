(** Python/NumPy substrate: exceptions as values, list indexing, slices, 2-D arrays.

    These definitions fix the meaning of language and library features; the modelled functions of /repo that
    use them carry the line references. *)
From Coq Require Import ZArith Bool String List Lia.
From Verif Require Import Num.
Import ListNotations.
Open Scope Z_scope.

(** The exceptions the modelled code can raise.  [FuelError] is not a Python exception: it marks an
    exhausted recursion bound of the model and is proved unreachable. *)
Inductive exn :=
| ValueError | TypeError | IndexError | KeyError | ZeroDivisionError | OverflowError
| UnboundLocalError | AssertionError | AttributeError | FuelError.

Inductive res (A : Type) := Ok (a : A) | Err (e : exn).
Arguments Ok {A} _.
Arguments Err {A} _.

Definition bind {A B} (x : res A) (f : A -> res B) : res B :=
  match x with Ok a => f a | Err e => Err e end.
Declare Scope res_scope.
Delimit Scope res_scope with res.
Notation "x <- e ;; k" := (bind e (fun x => k)) (at level 61, e at next level, right associativity) : res_scope.
Notation "' p <- e ;; k" := (bind e (fun p => k)) (at level 61, p pattern, e at next level, right associativity) : res_scope.
Notation "e ;;; k" := (bind e (fun _ => k)) (at level 61, right associativity) : res_scope.
Open Scope res_scope.

Fixpoint mapM {A B} (f : A -> res B) (l : list A) : res (list B) :=
  match l with
  | [] => Ok []
  | a :: r => b <- f a ;; bs <- mapM f r ;; Ok (b :: bs)
  end.

(** Threading a state through a left-to-right list comprehension. *)
Fixpoint mapS {A B S} (f : A -> S -> res (B * S)) (l : list A) (s : S) : res (list B * S) :=
  match l with
  | [] => Ok ([], s)
  | a :: r => '(b, s1) <- f a s ;; '(bs, s2) <- mapS f r s1 ;; Ok (b :: bs, s2)
  end.

(** range(lo, hi) as a list of Z; range(n) = zrange 0 n. *)
Definition zrange (lo hi : Z) : list Z := map (fun k => lo + Z.of_nat k) (seq 0 (Z.to_nat (hi - lo))).

(** Index normalisation of Python sequences and NumPy axes: negative indices count from the end. *)
Definition norm_ix (n i : Z) : option Z :=
  if (0 <=? i) && (i <? n) then Some i
  else if (- n <=? i) && (i <? 0) then Some (i + n) else None.

(** l[i] *)
Definition py_nth {A} (l : list A) (i : Z) : res A :=
  match norm_ix (Z.of_nat (length l)) i with
  | Some k => match nth_error l (Z.to_nat k) with Some a => Ok a | None => Err IndexError end
  | None => Err IndexError
  end.

(** l[-1] *)
Definition py_last {A} (l : list A) : res A := py_nth l (-1).

(** start/stop of a slice with step 1 on an axis of length n: negative bounds count from the end, then both
    are clamped to [0, n]. *)
Definition slice_bound (n i : Z) : Z := if i <? 0 then Z.max 0 (i + n) else Z.min i n.

(** Sequence replication l * k and list * int with k <= 0 giving []. *)
Definition py_repeat {A} (l : list A) (k : Z) : list A := concat (List.repeat l (Z.to_nat k)).

(** 2-D NumPy array: a shape and a cell function (only in-range cells are ever read). *)
Record arr (A : Type) := Arr { nrow : Z; ncol : Z; cell : Z -> Z -> A }.
Arguments Arr {A} _ _ _.
Arguments nrow {A} _.
Arguments ncol {A} _.
Arguments cell {A} _ _ _.

(** a[i, j] *)
Definition np_get {A} (a : arr A) (i j : Z) : res A :=
  match norm_ix (nrow a) i, norm_ix (ncol a) j with
  | Some i', Some j' => Ok (cell a i' j')
  | _, _ => Err IndexError
  end.

(** elementwise operations on arrays of equal shape *)
Definition amap {A B} (f : A -> B) (a : arr A) : arr B := Arr (nrow a) (ncol a) (fun i j => f (cell a i j)).
Definition amap2 {A B C} (f : A -> B -> C) (a : arr A) (b : arr B) : arr C :=
  Arr (nrow a) (ncol a) (fun i j => f (cell a i j) (cell b i j)).

(** v in a[i0:i1, j0:j1] *)
Definition in_slice (v : Z) (a : arr Z) (i0 i1 j0 j1 : Z) : bool :=
  existsb (fun i => existsb (fun j => cell a i j =? v)
                            (zrange (slice_bound (ncol a) j0) (slice_bound (ncol a) j1)))
          (zrange (slice_bound (nrow a) i0) (slice_bound (nrow a) i1)).

(** Association lists for dictionaries with string keys (insertion order kept). *)
Fixpoint dget {A} (k : string) (d : list (string * A)) : option A :=
  match d with
  | [] => None
  | (k', a) :: r => if String.eqb k k' then Some a else dget k r
  end.
Fixpoint dset {A} (k : string) (a : A) (d : list (string * A)) : list (string * A) :=
  match d with
  | [] => [(k, a)]
  | (k', a') :: r => if String.eqb k k' then (k', a) :: r else (k', a') :: dset k a r
  end.
Definition dmem {A} (k : string) (d : list (string * A)) : bool :=
  match dget k d with Some _ => true | None => false end.

(** Replace one element of a list. *)
Fixpoint upd_nth {A} (n : nat) (a : A) (l : list A) : list A :=
  match l, n with
  | [], _ => []
  | _ :: r, O => a :: r
  | x :: r, S n' => x :: upd_nth n' a r
  end.

Definition str_in (s : string) (l : list string) : bool := existsb (String.eqb s) l.

Section NumPy.
Context {T : Type} {N : Num T}.

(** Python's max(0, x) and max(c, x): the second argument wins only if it is greater. *)
Definition py_max (a b : T) : T := if nltb a b then b else a.

(** np.cumsum: running sums, left to right. *)
Fixpoint cumsum_from (acc : T) (l : list T) : list T :=
  match l with [] => [] | x :: r => let s := nadd acc x in s :: cumsum_from s r end.
Definition cumsum (l : list T) : list T :=
  match l with [] => [] | x :: r => x :: cumsum_from x r end.

(** NaN-aware "less than" of NumPy's sort and search routines: NaN is the largest value. *)
Definition np_lt (a b : T) : bool := nltb a b || (nisnan b && negb (nisnan a)).

(** ndarray.searchsorted(key) (side='left'): NumPy's binary search. *)
Fixpoint bsearch (fuel : nat) (a : list T) (key : T) (lo hi : nat) : nat :=
  match fuel with
  | O => lo
  | S f => if Nat.ltb lo hi then
             let mid := (lo + (hi - lo) / 2)%nat in
             if np_lt (nth mid a nnan) key then bsearch f a key (mid + 1)%nat hi
             else bsearch f a key lo mid
           else lo
  end.
Definition searchsorted (a : list T) (key : T) : nat := bsearch (length a) a key 0 (length a).

(** np.random.uniform(0, hi) for a draw u of the generator's unit interval: low + (high - low) * u, and
    OverflowError if the range is not finite. *)
Definition np_uniform0 (hi u : T) : res T :=
  let range := nsub hi n0 in
  if nisfin range then Ok (nadd n0 (nmul range u)) else Err OverflowError.

(** np.nansum over the last axis of length 9: NaN replaced by 0, then NumPy's pairwise summation, which for
    nine elements adds the first eight as ((0+1)+(2+3))+((4+5)+(6+7)) and then the ninth.  (The reduction's
    initial 0 is left out: it changes at most the sign of a zero.) *)
Definition nanz (x : T) : T := if nisnan x then n0 else x.
Definition nansum9 (l : list T) : T :=
  match map nanz l with
  | [a0; a1; a2; a3; a4; a5; a6; a7; a8] =>
      nadd (nadd (nadd (nadd a0 a1) (nadd a2 a3)) (nadd (nadd a4 a5) (nadd a6 a7))) a8
  | l' => fold_left nadd l' n0
  end.

(** np.max over a non-empty axis (propagates NaN), np.nanmax (ignores NaN; all-NaN gives NaN). *)
Definition np_max2 (a b : T) : T := if nisnan a then a else if nisnan b then b else if nltb a b then b else a.
Definition np_max (l : list T) : T := match l with [] => nnan | x :: r => fold_left np_max2 r x end.
Definition np_nanmax (l : list T) : T := np_max (filter (fun x => negb (nisnan x)) l).

End NumPy.
