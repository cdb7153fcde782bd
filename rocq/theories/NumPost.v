(** Laws of both number semantics used for the post-processing functions. *)
From Coq Require Import ZArith Bool QArith Qcanon Lqa Reals Lra Lia Psatz.
From Flocq Require Import Core IEEE754.BinarySingleNaN.
From Verif Require Import Num NumFacts F64 F64Laws XQ XQLaws XQFacts.
Open Scope Z_scope.

Class NumPost (T : Type) {N : Num T} : Prop := {
  half_nn   : forall x, nn x -> nn (nmul nhalf x);
  ofZ_succ  : forall k, 0 <= k < 9007199254740992 -> nadd (nofZ k) n1 = nofZ (k + 1);
  div_self  : forall x, nltb n0 x = true -> nisfin x = true -> ndiv x x = n1;
  div_big   : forall x y, nleb n1 x = true -> nleb x y = true -> nleb y (nofZ 9007199254740992) = true -> nltb n0 (ndiv x y) = true;
  nan_div   : forall y, ndiv nnan y = nnan;
  isnan_nan : forall x, nisnan x = true -> x = nnan;
  div_nn    : forall x y, nn x -> nltb n0 y = true -> nisfin y = true -> nn (ndiv x y)
}.

Local Existing Instance prec_gt_0.
Local Existing Instance prec_lt_emax.

Lemma strict_of (x : f64) : is_finite x = true -> B2R x <> 0%R -> is_finite_strict x = true.
Proof. destruct x; simpl; intros; try reflexivity; try discriminate. lra. Qed.
Lemma f_eq (x y : f64) : is_finite x = true -> is_finite y = true -> B2R x = B2R y -> B2R x <> 0%R -> x = y.
Proof. intros Fx Fy E Z. apply B2R_inj; [apply strict_of; auto | apply strict_of; [auto | rewrite <- E; auto] | auto]. Qed.

Global Instance F64post : NumPost f64.
Proof.
  constructor.
  - intros x Hx. unfold nn, n0 in *. cbn [nleb nofZ nmul F64num] in *. destruct f_half as (Bh & Fh).
    destruct (fv x) as [|s|x Fx]; [discriminate | destruct s; [discriminate | reflexivity] |].
    eapply V_sign_nn; [apply fmul_V; [exact Fh | exact Fx]|]. apply leb_0 in Hx; [|exact Fx]. rewrite Bh. nra.
  - intros k Hk. unfold n1. cbn [nadd nofZ F64num].
    destruct (fofZ_exact k ltac:(lia)) as (Fk & Bk). destruct (fofZ_exact 1 ltac:(lia)) as (F1 & B1).
    destruct (fofZ_exact (k+1) ltac:(lia)) as (Fs & Bs).
    pose proof (fadd_V (fofZ k) (fofZ 1) Fk F1) as HV. rewrite Bk, B1, <- plus_IZR, <- Bs in HV.
    destruct (V_fin_between _ _ (fofZ (k+1)) (fofZ (k+1)) HV Fs Fs) as (F & B); [lra|].
    apply f_eq; auto; [lra|]. assert (E : B2R (fadd (fofZ k) (fofZ 1)) = B2R (fofZ (k+1))) by lra. rewrite E, Bs.
    apply IZR_neq. lia.
  - intros x Hx Fx. unfold n0, n1 in *. cbn [nltb ndiv nofZ nisfin F64num] in *. unfold fisfin in Fx.
    rewrite ltb_eq in Hx. apply andb_true_iff in Hx as (_ & Hx). apply negb_true_iff in Hx.
    apply leb_R_false in Hx; [|exact Fx|reflexivity]. simpl in Hx.
    pose proof (fdiv_V x x Fx Fx ltac:(lra)) as HV. replace (B2R x / B2R x)%R with (B2R (fofZ 1)) in HV by (rewrite B2R_1; field; lra).
    destruct (V_fin_between _ _ (fofZ 1) (fofZ 1) HV fin_1 fin_1) as (F & B); [lra|].
    apply f_eq; auto; [lra|]. rewrite B2R_1 in B. lra.
  - intros x y Hx Hxy Hy. unfold n0, n1 in *. cbn [nltb nleb ndiv nofZ F64num] in *.
    destruct (fofZ_exact 9007199254740992 ltac:(lia)) as (Fb & Bb).
    assert (Fx : is_finite x = true). { pose proof (f_leb_trans _ _ _ Hxy Hy). destruct x as [|[|]| |]; try reflexivity; try discriminate. }
    assert (Fy : is_finite y = true). { pose proof (f_leb_trans _ _ _ Hx Hxy). destruct y as [|[|]| |]; try reflexivity; try discriminate. }
    apply leb_R in Hx; [|reflexivity|exact Fx]. apply leb_R in Hxy; auto. apply leb_R in Hy; auto. rewrite B2R_1 in Hx. rewrite Bb in Hy.
    pose proof (fdiv_V x y Fx Fy ltac:(lra)) as HV.
    destruct (fmk_exact 1 (-53)) as (Fm & Bm); [simpl; lia | lia |].
    assert (Em : B2R (fmk 1 (-53)) = (/ 9007199254740992)%R). { rewrite Bm. unfold F2R. simpl. lra. }
    assert (Q : (/ 9007199254740992 <= B2R x / B2R y)%R).
    { unfold Rdiv. apply Rle_trans with (1 * / B2R y)%R; [rewrite Rmult_1_l; apply Rinv_le_contravar; lra|].
      apply Rmult_le_compat_r; [|lra]. left. apply Rinv_0_lt_compat. lra. }
    pose proof (V_leb_r (fmk 1 (-53)) _ _ HV Fm ltac:(lra)) as K.
    rewrite ltb_eq. apply andb_true_iff. split.
    + eapply f_leb_trans; [|exact K]. apply leb_0; [exact Fm|]. rewrite Em. lra.
    + apply negb_true_iff. destruct (Bleb (fdiv x y) (fofZ 0)) eqn:E; [|reflexivity]. pose proof (f_leb_trans _ _ _ K E) as C.
      apply leb_0r in C; [|exact Fm]. rewrite Em in C. lra.
  - intros y. reflexivity.
  - intros x. destruct x; try discriminate. reflexivity.
  - intros x y Hx Hy Fy. unfold nn, n0 in *. cbn [nltb nleb ndiv nofZ nisfin F64num] in *. unfold fisfin in Fy.
    rewrite ltb_eq in Hy. apply andb_true_iff in Hy as (_ & Hy). apply negb_true_iff in Hy. apply leb_R_false in Hy; [|exact Fy|reflexivity]. simpl in Hy.
    destruct (fv x) as [|s|x Fx]; [discriminate | |].
    + destruct s; [discriminate|]. destruct y as [s| | |[|] m e He]; try discriminate; simpl in Hy; try lra; [|reflexivity].
      exfalso. assert (B2R (B754_finite true m e He) < 0)%R; [|simpl in *; lra]. simpl. apply F2R_lt_0. reflexivity.
    + eapply V_sign_nn; [apply fdiv_V; auto; lra|]. apply leb_0 in Hx; [|exact Fx]. unfold Rdiv. apply Rmult_le_pos; [lra|]. left. apply Rinv_0_lt_compat. lra.
Qed.

Global Instance XQpost : NumPost xq.
Proof.
  assert (INV : forall b : Qc, (0 < b)%Qc -> (0 < / b)%Qc).
  { intros b Hb. unfold Qclt in *. change (this 0%Qc) with 0%Q in *. rewrite this_inv. apply Qinv_lt_0_compat. exact Hb. }
  constructor.
  - intros x Hx. unfold nn in *. rewrite n0_xq, xq_half in *. destruct x as [|[|]|a]; try discriminate; [reflexivity|].
    rewrite xq_mul. apply xq_leb in Hx. apply xq_leb. unfold Qcle in *. change (this 0%Qc) with 0%Q in *. rewrite this_mul.
    assert (h : (this (1 / (1 + 1))%Qc == 1#2)%Q) by reflexivity. rewrite h. Lqa.lra.
  - intros k _. rewrite n1_xq. change (nofZ k : xq) with (XFin (Qcofz k)). change (nofZ (k+1) : xq) with (XFin (Qcofz (k+1))). rewrite xq_add. f_equal.
    apply Qc_eq_iff. rewrite this_add, !this_ofz, inject_Z_plus. reflexivity.
  - intros x Hx Fx. destruct (xfin_ex x Fx) as (q & ->). rewrite n0_xq, n1_xq in *. apply xq_ltb in Hx. rewrite xq_div by (apply qc_pos_nz; exact Hx).
    f_equal. apply Qcmult_inv_r. apply qc_pos_nz; exact Hx.
  - intros x y Hx Hxy Hy. change (nofZ 9007199254740992 : xq) with (XFin (Qcofz 9007199254740992)) in Hy. rewrite n0_xq, n1_xq in *.
    destruct x as [|[|]|a], y as [|[|]|b]; try discriminate. apply xq_leb in Hx, Hxy.
    assert (P : (0 < b)%Qc). { unfold Qcle, Qclt in *. change (this 1%Qc) with 1%Q in *. change (this 0%Qc) with 0%Q. Lqa.lra. }
    rewrite xq_div by (apply qc_pos_nz; exact P). apply xq_ltb. specialize (INV b P). unfold Qcle, Qclt, Qcdiv in *. change (this 1%Qc) with 1%Q in *. change (this 0%Qc) with 0%Q in *. rewrite this_mul.
    apply Qmult_lt_0_compat; Lqa.lra.
  - intros y. reflexivity.
  - intros x. destruct x; try discriminate. reflexivity.
  - intros x y Hx Hy Fy. destruct (xfin_ex y Fy) as (b & ->). unfold nn in *. rewrite n0_xq in *. apply xq_ltb in Hy.
    destruct x as [|[|]|a]; try discriminate.
    + cbn. unfold xneg. change (xltb (XFin b) (XFin qc0)) with (nltb (XFin b) (XFin qc0)). rewrite qc0_eq.
      rewrite (proj2 (xq_ltb_f b 0%Qc)); [reflexivity | apply Qclt_le_weak; exact Hy].
    + rewrite xq_div by (apply qc_pos_nz; exact Hy). apply xq_leb in Hx. apply xq_leb. specialize (INV b Hy).
      unfold Qcle, Qclt, Qcdiv in *. change (this 0%Qc) with 0%Q in *. rewrite this_mul. apply Qmult_le_0_compat; Lqa.lra.
Qed.
