(** Subtraction of binary64 numbers never loses a difference (gradual underflow). *)
From Coq Require Import ZArith Bool Reals Lra Lia Psatz.
From Flocq Require Import Core Plus_error IEEE754.BinarySingleNaN.
From Verif Require Import Num F64 F64Laws.
Open Scope Z_scope.
Local Existing Instance prec_gt_0.
Local Existing Instance prec_lt_emax.
Local Existing Instance fexp64_valid.
Local Instance rnd_valid2 : Valid_rnd (round_mode mode_NE) := valid_rnd_round_mode mode_NE.
Local Instance fexp64_mono : Monotone_exp fexp64 := fexp_monotone prec emax.

Lemma rnd_sub_zero (x y : f64) : rnd (B2R x - B2R y) = 0%R -> B2R x = B2R y.
Proof.
  intros H. destruct (Req_dec (B2R x + - B2R y) 0) as [E|E]; [lra|]. exfalso. revert H. unfold rnd, Rminus.
  apply round_plus_neq_0; try exact E; auto with typeclass_instances.
  - apply generic_format_B2R.
  - apply generic_format_opp, generic_format_B2R.
Qed.
Lemma f_sub_zero (x y : f64) : nisfin x = true -> nisfin y = true -> nleb (nabs (nsub x y)) n0 = true -> neqb x y = true.
Proof.
  change (nisfin x) with (is_finite x). change (nisfin y) with (is_finite y). intros FX FY H.
  assert (E : B2R x = B2R y).
  { destruct (fsub_V x y FX FY) as [(A & F & B) | [(A & E) | (A & E)]].
    - apply rnd_sub_zero. rewrite <- B. change (nabs (nsub x y)) with (Babs (fsub x y)) in H. change (n0 : f64) with (fofZ 0) in H. apply leb_0r in H; [|rewrite is_finite_Babs; exact F].
      rewrite B2R_Babs in H. pose proof (Rabs_pos (B2R (fsub x y))). destruct (Req_dec (B2R (fsub x y)) 0) as [Z|Z]; [exact Z|]. apply Rabs_pos_lt in Z. lra.
    - change (nsub x y) with (fsub x y) in H. rewrite E in H. vm_compute in H. discriminate.
    - change (nsub x y) with (fsub x y) in H. rewrite E in H. vm_compute in H. discriminate. }
  change (neqb x y) with (Beqb x y). rewrite eqb_eq. apply andb_true_iff. split; apply leb_R; try assumption; lra.
Qed.
Lemma f_sub_self (x y : f64) : nisfin x = true -> nisfin y = true -> neqb x y = true -> nleb (nabs (nsub x y)) n0 = true.
Proof.
  change (nisfin x) with (is_finite x). change (nisfin y) with (is_finite y). intros FX FY H. change (neqb x y) with (Beqb x y) in H. rewrite eqb_eq in H. apply andb_true_iff in H as (H1 & H2).
  apply leb_R in H1, H2; try assumption. assert (E : (B2R x - B2R y = 0)%R) by lra. pose proof (fsub_V x y FX FY) as V0. rewrite E in V0. unfold V in V0. rewrite rnd_0, Rabs_R0 in V0. pose proof big_pos.
  destruct V0 as [(A & F & B) | [(A & _) | (A & _)]]; [|lra|lra].
  change (nabs (nsub x y)) with (Babs (fsub x y)). change (n0 : f64) with (fofZ 0). apply leb_0r; [rewrite is_finite_Babs; exact F|]. rewrite B2R_Babs, B, Rabs_R0. lra.
Qed.
