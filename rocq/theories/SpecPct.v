(** Specification vocabulary for the percentile maps in binary64. *)
From Coq Require Import ZArith Bool List Reals.
From Flocq Require Import Core IEEE754.BinarySingleNaN.
From Verif Require Import Num F64 F64Laws.
Open Scope Z_scope.

(** A finite time of at least 2^-900 s. *)
Definition fpos (x : f64) : Prop := is_finite x = true /\ (bpow radix2 (-900) <= B2R x)%R.
(** A recorded exposure time: zero, NaN, or a time of at least 2^-900 s. *)
Definition recorded (x : f64) : Prop := neqb x n0 = true \/ nisnan x = true \/ fpos x.
(** The sample given to the density estimate: without zeros and NaN. *)
Definition positive_of (l : list f64) : list f64 := filter (fun x => negb (neqb x n0) && negb (nisnan x)) l.
