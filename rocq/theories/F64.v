(** IEEE-754 binary64 semantics (NumPy float64 / Python float): Flocq's executable binary floats with a
    single NaN, round-to-nearest, ties-to-even. *)
From Coq Require Import ZArith Bool.
From Flocq Require Import Core IEEE754.BinarySingleNaN.
From Verif Require Import Num.
Open Scope Z_scope.

Definition prec : Z := 53.
Definition emax : Z := 1024.
Lemma prec_gt_0 : FLX.Prec_gt_0 prec. Proof. reflexivity. Qed.
Lemma prec_lt_emax : Prec_lt_emax prec emax. Proof. reflexivity. Qed.

Definition f64 : Type := binary_float prec emax.
Definition fadd : f64 -> f64 -> f64 := @Bplus prec emax prec_gt_0 prec_lt_emax mode_NE.
Definition fsub : f64 -> f64 -> f64 := @Bminus prec emax prec_gt_0 prec_lt_emax mode_NE.
Definition fmul : f64 -> f64 -> f64 := @Bmult prec emax prec_gt_0 prec_lt_emax mode_NE.
Definition fdiv : f64 -> f64 -> f64 := @Bdiv prec emax prec_gt_0 prec_lt_emax mode_NE.
Definition fsqrt : f64 -> f64 := @Bsqrt prec emax prec_gt_0 prec_lt_emax mode_NE.
Definition fofZ (z : Z) : f64 := binary_normalize prec emax prec_gt_0 prec_lt_emax mode_NE z 0 false.
Definition fisfin (x : f64) : bool := is_finite x.
Definition fisnan (x : f64) : bool := is_nan x.
Definition ffrac (x : f64) : option (Z * positive) :=
  match x with
  | B754_zero _ => Some (0, 1%positive)
  | B754_finite s m e _ =>
      if Z.leb 0 e then Some (cond_Zopp s (Zpos m) * 2 ^ e, 1%positive)
      else Some (cond_Zopp s (Zpos m), Z.to_pos (2 ^ (- e)))
  | _ => None
  end.

Global Instance F64num : Num f64 := {
  nofZ := fofZ;
  nnan := B754_nan;
  nadd := fadd; nsub := fsub; nmul := fmul; ndiv := fdiv;
  nabs := @Babs prec emax;
  nleb := @Bleb prec emax; nltb := @Bltb prec emax; neqb := @Beqb prec emax;
  nisnan := fisnan; nisfin := fisfin; nfrac := ffrac
}.

(** A math library whose square root is the IEEE one; the transcendental functions stay arbitrary. *)
Definition f64_libm (cosf : f64 -> f64) (atan2f powf : f64 -> f64 -> f64) : Libm f64 :=
  {| m_sqrt := fsqrt; m_cos := cosf; m_atan2 := atan2f; m_pow := powf |}.
