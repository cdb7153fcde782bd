(** Exact number semantics: rationals (canonical fractions, Leibniz equality) extended with NaN and
    infinities.  Every finite binary64 value is a rational, so this is "the code without rounding". *)
From Coq Require Import ZArith Bool List QArith Qcanon Qabs Lia Lqa.
From Verif Require Import Num.
Open Scope Z_scope.

Inductive xq := XNaN | XInf (neg : bool) | XFin (q : Qc).

Definition Qcleb (a b : Qc) : bool := Qle_bool (this a) (this b).
Definition Qcltb (a b : Qc) : bool := Qle_bool (this a) (this b) && negb (Qle_bool (this b) (this a)).
Definition Qcofz (z : Z) : Qc := Q2Qc (inject_Z z).
Definition qc0 : Qc := Qcofz 0.

Definition xleb (x y : xq) : bool :=
  match x, y with
  | XNaN, _ | _, XNaN => false
  | XInf true, _ => true
  | _, XInf false => true
  | XFin a, XFin b => Qcleb a b
  | _, _ => false
  end.
Definition xltb (x y : xq) : bool := xleb x y && negb (xleb y x).
Definition xeqb (x y : xq) : bool := xleb x y && xleb y x.

Definition xadd (x y : xq) : xq :=
  match x, y with
  | XNaN, _ | _, XNaN => XNaN
  | XInf s, XInf t => if Bool.eqb s t then XInf s else XNaN
  | XInf s, _ => XInf s
  | _, XInf s => XInf s
  | XFin a, XFin b => XFin (a + b)%Qc
  end.
Definition xopp (x : xq) : xq :=
  match x with XNaN => XNaN | XInf s => XInf (negb s) | XFin a => XFin (- a)%Qc end.
Definition xsub (x y : xq) : xq := xadd x (xopp y).

(* sign of a number: None for NaN or zero *)
Definition xneg (x : xq) : bool := xltb x (XFin qc0).
Definition xzero (x : xq) : bool := xeqb x (XFin qc0).

Definition xmul (x y : xq) : xq :=
  match x, y with
  | XNaN, _ | _, XNaN => XNaN
  | XFin a, XFin b => XFin (a * b)%Qc
  | _, _ => if xzero x || xzero y then XNaN else XInf (xorb (xneg x) (xneg y))
  end.
Definition xdiv (x y : xq) : xq :=
  match x, y with
  | XNaN, _ | _, XNaN => XNaN
  | XInf _, XInf _ => XNaN
  | XInf s, XFin b => XInf (xorb s (xneg y))
  | XFin a, XInf _ => XFin qc0
  | XFin a, XFin b => if xzero y then (if xzero x then XNaN else XInf (xneg x)) else XFin (a / b)%Qc
  end.
Definition xabs (x : xq) : xq :=
  match x with XNaN => XNaN | XInf _ => XInf false | XFin a => if Qcleb qc0 a then XFin a else XFin (- a)%Qc end.
Definition xisnan (x : xq) : bool := match x with XNaN => true | _ => false end.
Definition xisfin (x : xq) : bool := match x with XFin _ => true | _ => false end.
Definition xfrac (x : xq) : option (Z * positive) :=
  match x with XFin a => Some (Qnum (this a), Qden (this a)) | _ => None end.

Global Instance XQnum : Num xq := {
  nofZ := fun z => XFin (Qcofz z);
  nnan := XNaN;
  nadd := xadd; nsub := xsub; nmul := xmul; ndiv := xdiv; nabs := xabs;
  nleb := xleb; nltb := xltb; neqb := xeqb;
  nisnan := xisnan; nisfin := xisfin; nfrac := xfrac
}.
