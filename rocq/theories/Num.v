(** Number interface used by the whole model.

    The Python code computes with float64 (NumPy / CPython floats).  The model is written once over
    this interface and interpreted in [F64] (IEEE binary64, rounding) and in [XQ] (exact rationals with
    NaN and infinities).  Nothing here models a particular line of /repo; it fixes the meaning of the
    arithmetic operators and comparisons that every modelled function uses. *)
From Coq Require Import ZArith Bool List.
Open Scope Z_scope.

Class Num (T : Type) := {
  nofZ   : Z -> T;                 (* float(n) *)
  nnan   : T;                      (* np.nan *)
  nadd   : T -> T -> T;
  nsub   : T -> T -> T;
  nmul   : T -> T -> T;
  ndiv   : T -> T -> T;
  nabs   : T -> T;
  nleb   : T -> T -> bool;         (* <= , false if an argument is NaN *)
  nltb   : T -> T -> bool;         (* <  , false if an argument is NaN *)
  neqb   : T -> T -> bool;         (* == , false if an argument is NaN *)
  nisnan : T -> bool;              (* np.isnan *)
  nisfin : T -> bool;              (* np.isfinite *)
  nfrac  : T -> option (Z * positive)   (* exact value of a finite number as a fraction *)
}.

Definition n0 {T} {N : Num T} : T := nofZ 0.
Definition n1 {T} {N : Num T} : T := nofZ 1.

(** Decimal literals of the source: [ndec m k] is m * 10^-k.  For every literal used (0.1, 0.5, 0.05, 0.2,
    1e-8, 0.99, ...) both m and 10^k are exactly representable, so the division is the correctly
    rounded literal in binary64. *)
Definition ndec {T} {N : Num T} (m : Z) (k : Z) : T := ndiv (nofZ m) (nofZ (10 ^ k)).

Definition nhalf {T} {N : Num T} : T := ndec 5 1.          (* 0.5 *)
Definition ntenth {T} {N : Num T} : T := ndec 1 1.         (* 0.1 *)
Definition neps8 {T} {N : Num T} : T := ndec 1 8.          (* 1e-8 *)

(** np.floor(x).astype(int) / round(x) on a fraction; Python's and NumPy's round is half-to-even. *)
Definition zfloor (nd : Z * positive) : Z := fst nd / Zpos (snd nd).
Definition zceil (nd : Z * positive) : Z := - ((- fst nd) / Zpos (snd nd)).
Definition zround_he (nd : Z * positive) : Z :=
  let n := fst nd in let d := Zpos (snd nd) in
  let q := n / d in
  match Z.compare (2 * (n - q * d)) d with
  | Lt => q
  | Gt => q + 1
  | Eq => if Z.even q then q else q + 1
  end.

(** Math library used by the code: np.sqrt, math.cos, np.arctan2, the power operator.  Passed explicitly; theorems
    quantify over every library. *)
Record Libm (T : Type) := {
  m_sqrt  : T -> T;
  m_cos   : T -> T;
  m_atan2 : T -> T -> T;
  m_pow   : T -> T -> T
}.
Arguments m_sqrt {T} _ _.
Arguments m_cos {T} _ _.
Arguments m_atan2 {T} _ _ _.
Arguments m_pow {T} _ _ _.

(** Laws that both number semantics satisfy.  [nn x] is "x is a number >= 0" (never NaN). *)
Definition nn {T} {N : Num T} (x : T) : Prop := nleb n0 x = true.

Class NumLaws (T : Type) {N : Num T} : Prop := {
  leb_nan_l  : forall x y, nleb x y = true -> nisnan x = false;
  leb_nan_r  : forall x y, nleb x y = true -> nisnan y = false;
  leb_refl   : forall x, nisnan x = false -> nleb x x = true;
  leb_trans  : forall x y z, nleb x y = true -> nleb y z = true -> nleb x z = true;
  leb_total  : forall x y, nisnan x = false -> nisnan y = false -> nleb x y = true \/ nleb y x = true;
  ltb_def    : forall x y, nltb x y = nleb x y && negb (nleb y x);
  eqb_def    : forall x y, neqb x y = nleb x y && nleb y x;
  nan_isnan  : nisnan nnan = true;
  fin_notnan : forall x, nisfin x = true -> nisnan x = false;
  fin_between : forall x y z, nisfin x = true -> nisfin z = true ->
                nleb x y = true -> nleb y z = true -> nisfin y = true;
  ofZ_le     : forall a b, a <= b -> nleb (nofZ a) (nofZ b) = true;
  ofZ_lt     : forall a b, -9007199254740992 <= a -> a < b -> b <= 9007199254740992 ->
                nltb (nofZ a) (nofZ b) = true;
  ofZ_fin    : forall a, -9007199254740992 <= a <= 9007199254740992 -> nisfin (nofZ a) = true;
  (* addition *)
  add_nn_l   : forall x y, nn x -> nn y -> nleb x (nadd x y) = true;
  add_nn_r   : forall x y, nn x -> nn y -> nleb y (nadd x y) = true;
  add_zz     : forall x y, neqb x n0 = true -> neqb y n0 = true -> neqb (nadd x y) n0 = true;
  add_z_r    : forall x y, neqb y n0 = true -> nisnan x = false -> neqb (nadd x y) x = true;
  add_z_l    : forall x y, neqb x n0 = true -> nisnan y = false -> neqb (nadd x y) y = true;
  add_ge     : forall lo t d, nisfin lo = true -> nleb lo t = true -> nn d -> nleb t (nadd t d) = true;
  add_le_mono : forall x x' y y', nn x -> nn y -> nleb x x' = true -> nleb y y' = true ->
                nleb (nadd x y) (nadd x' y') = true;
  add_notneg : forall x y, nltb x n0 = false -> nltb y n0 = false -> nltb (nadd x y) n0 = false;
  (* subtraction *)
  sub_z_r    : forall x, nisnan x = false -> neqb (nsub x n0) x = true;
  sub_fin_z  : forall x, nisfin x = true -> nisfin (nsub x n0) = true;
  sub_nn     : forall x y, nisfin x = true -> nisfin y = true -> nleb y x = true -> nn (nsub x y);
  (* multiplication *)
  mul_notneg : forall x y, nltb x n0 = false -> nltb y n0 = false -> nltb (nmul x y) n0 = false;
  mul_nn     : forall x y, nn x -> nn y -> nisfin x = true -> nisfin y = true -> nn (nmul x y);
  mul_nn_pos : forall x y, nn x -> nltb n0 y = true -> nisfin y = true -> nn (nmul x y);
  mul_le_r   : forall x u, nn x -> nisfin x = true -> nn u -> nleb u n1 = true ->
               nleb (nmul x u) x = true;
  mul_le_l   : forall x u, nn x -> nisfin x = true -> nn u -> nleb u n1 = true ->
               nleb (nmul u x) x = true;
  mul_z_l    : forall x y, neqb x n0 = true -> nisfin y = true -> neqb (nmul x y) n0 = true;
  (* division *)
  div_notneg : forall x y, nltb x n0 = false -> nltb n0 y = true -> nltb (ndiv x y) n0 = false;
  div_share  : forall x y, nltb n0 x = true -> nleb x y = true -> nisfin y = true ->
               nleb (ndiv x y) n1 = true /\ (ndiv x y = n0 \/ nltb n0 (ndiv x y) = true);
  div_0      : forall y, nltb n0 y = true -> nisfin y = true -> ndiv n0 y = n0;
  mul_0_pos  : forall x, nltb n0 x = true -> nisfin x = true -> nmul n0 x = n0;
  mul_0_0    : nmul n0 n0 = n0;
  sub_1_1    : nsub n1 n1 = n0;
  (* absolute value *)
  abs_nn     : forall x, nisnan x = false -> nn (nabs x);
  abs_nan    : forall x, nisnan (nabs x) = nisnan x;
  abs_fin    : forall x, nisfin (nabs x) = nisfin x;
  (* the literals of the travel-time formula *)
  half_ok    : nn nhalf /\ nleb nhalf n1 = true /\ nisfin nhalf = true;
  eps8_ok    : nltb n0 neps8 = true /\ nisfin neps8 = true /\ nleb neps8 n1 = true;
  tenth_ok   : nltb n0 ntenth = true /\ nisfin ntenth = true /\ nleb ntenth n1 = true;
  inv_sum_ok : forall a b, nleb neps8 a = true -> nleb neps8 b = true ->
               nn (nadd (ndiv n1 a) (ndiv n1 b)) /\ nisfin (nadd (ndiv n1 a) (ndiv n1 b)) = true;
  diff_pos   : forall u dc, nn u -> nltb u n1 = true -> nn dc -> nleb dc (nofZ 2) = true ->
               nltb n0 (nadd n1 (nmul (nsub nhalf u) dc)) = true /\
               nisfin (nadd n1 (nmul (nsub nhalf u) dc)) = true;
  nodiff_pos : nltb n0 (nadd n1 n0) = true /\ nisfin (nadd n1 n0) = true
}.
