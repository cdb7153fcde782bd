(** Laws about the integer part of a number and multiplication by one. *)
From Coq Require Import ZArith Bool QArith Qcanon Lqa Reals Lra Lia Psatz.
From Flocq Require Import Core IEEE754.BinarySingleNaN.
From Verif Require Import Num NumFacts F64 F64Laws XQ XQLaws XQFacts NumPost ProofCoord.
Open Scope Z_scope.

Class NumFrac (T : Type) {N : Num T} : Prop := {
  frac_floor : forall x m, m <= 9007199254740992 -> nn x -> nltb x (nofZ m) = true -> exists f, nfrac x = Some f /\ 0 <= zfloor f < m;
  ofZ_mul_1  : forall k, 0 <= k <= 9007199254740992 -> nleb (nofZ k) (nmul (nofZ k) n1) = true;
  div_unit   : forall x y, nn x -> nleb x y = true -> nltb n0 y = true -> nisfin y = true -> nn (ndiv x y) /\ nleb (ndiv x y) n1 = true
}.
Local Existing Instance prec_gt_0.
Local Existing Instance prec_lt_emax.

Global Instance F64frac : NumFrac f64.
Proof.
  constructor.
  - intros x m Hm Hx Hlt. unfold nn, n0 in Hx. cbn [nleb nltb nofZ F64num nfrac] in *.
    assert (M0 : 0 < m).
    { destruct (Z.lt_ge_cases 0 m); [assumption|]. exfalso. rewrite ltb_eq in Hlt. apply andb_true_iff in Hlt as (_ & Hlt). apply negb_true_iff in Hlt.
      pose proof (@ofZ_le f64 F64num _ m 0 ltac:(lia)) as Q. cbn [nleb nofZ F64num] in Q. pose proof (f_leb_trans _ _ _ Q Hx) as R. congruence. }
    destruct (fofZ_exact m ltac:(lia)) as (Fm & Bm).
    assert (Fx : is_finite x = true). { destruct x as [|[|]| |]; try reflexivity; try discriminate. destruct (fofZ m) as [| [|] | |]; discriminate. }
    destruct (ffrac_value x Fx) as (n & d & E & V1). exists (n, d). split; [exact E|]. unfold zfloor. cbn [fst snd].
    apply leb_0 in Hx; [|exact Fx]. rewrite ltb_eq in Hlt. apply andb_true_iff in Hlt as (_ & Hlt). apply negb_true_iff in Hlt. apply leb_R_false in Hlt; [|exact Fm|exact Fx].
    rewrite Bm in Hlt. rewrite V1 in *. assert (D : (0 < IZR (Zpos d))%R) by (apply IZR_lt; reflexivity).
    assert (A1 : (0 <= IZR n)%R). { replace (IZR n) with (IZR n / IZR (Zpos d) * IZR (Zpos d))%R by (field; lra). nra. }
    assert (A2 : (IZR n < IZR m * IZR (Zpos d))%R). { replace (IZR n) with (IZR n / IZR (Zpos d) * IZR (Zpos d))%R by (field; lra). nra. }
    rewrite <- mult_IZR in A2. apply lt_IZR in A2. apply le_IZR in A1. split; [apply Z.div_pos; lia | apply Z.div_lt_upper_bound; lia].
  - intros k Hk. cbn [nleb nofZ nmul F64num]. unfold n1. cbn [nofZ F64num].
    destruct (fofZ_exact k ltac:(lia)) as (Fk & Bk). pose proof (fmul_V (fofZ k) (fofZ 1) Fk fin_1) as HV. rewrite B2R_1, Rmult_1_r in HV.
    eapply V_leb_r; [exact HV | exact Fk | lra].
  - intros x y Hx Hxy Hy Fy. pose proof Fy as Fy'. unfold nn, n0, n1 in *. cbn [nleb nltb ndiv nofZ F64num nisfin] in *. unfold fisfin in Fy.
    rewrite ltb_eq in Hy. apply andb_true_iff in Hy as (_ & Hy). apply negb_true_iff in Hy. apply leb_R_false in Hy; [|exact Fy|reflexivity]. simpl in Hy.
    assert (Fx : is_finite x = true). { destruct x as [|[|]| |]; try reflexivity; try discriminate. destruct y as [| [|] | |[|]]; discriminate. }
    apply leb_0 in Hx; [|exact Fx]. apply leb_R in Hxy; auto. pose proof (fdiv_V x y Fx Fy ltac:(lra)) as HV.
    assert (Q0 : (0 <= B2R x / B2R y)%R) by (unfold Rdiv; apply Rmult_le_pos; [lra | left; apply Rinv_0_lt_compat; lra]).
    assert (Q1 : (B2R x / B2R y <= 1)%R) by (apply Rmult_le_reg_r with (B2R y); [lra|]; unfold Rdiv; rewrite Rmult_assoc, Rinv_l by lra; lra).
    split; [eapply V_sign_nn; [exact HV | exact Q0] | eapply V_leb_l; [exact HV | exact fin_1 | rewrite B2R_1; exact Q1]].
Qed.
Global Instance XQfrac : NumFrac xq.
Proof.
  constructor.
  - intros x m _ Hx Hlt. unfold nn in Hx. rewrite n0_xq in Hx. change (nofZ m : xq) with (XFin (Qcofz m)) in Hlt.
    destruct x as [|[|]|q]; try discriminate. apply xq_leb in Hx. apply xq_ltb in Hlt. unfold Qcle, Qclt in *. rewrite this_ofz in Hlt. change (this 0%Qc) with 0%Q in Hx.
    cbn [nfrac XQnum xfrac]. eexists. split; [reflexivity|]. unfold zfloor. cbn [fst snd]. destruct (this q) as [n d]. unfold Qle, Qlt in *. cbn [Qnum Qden inject_Z] in *.
    split; [apply Z.div_pos; lia | apply Z.div_lt_upper_bound; lia].
  - intros k _. rewrite n1_xq. change (nofZ k : xq) with (XFin (Qcofz k)). rewrite xq_mul. apply xq_leb. rewrite Qcmult_1_r. apply Qcle_refl.
  - intros x y Hx Hxy Hy Fy. destruct (xfin_ex y Fy) as (b & ->). unfold nn in *. rewrite n0_xq, n1_xq in *. apply xq_ltb in Hy.
    destruct x as [|[|]|a]; try discriminate. apply xq_leb in Hx, Hxy. rewrite xq_div by (apply qc_pos_nz; exact Hy).
    split; apply xq_leb; unfold Qcle, Qclt in *; rewrite this_div; change (this 0%Qc) with 0%Q in *.
    + apply Qle_shift_div_l; [exact Hy | Lqa.lra].
    + change (this 1%Qc) with 1%Q. apply Qle_shift_div_r; [exact Hy | Lqa.lra].
Qed.
