(** Further laws of both number semantics, used for the constructor. *)
From Coq Require Import ZArith Bool QArith Qcanon Lqa Reals Lra Lia Psatz.
From Flocq Require Import Core IEEE754.BinarySingleNaN.
From Verif Require Import Num F64 F64Laws XQ XQLaws XQFacts.
Open Scope Z_scope.

Class NumMore (T : Type) {N : Num T} : Prop := {
  sq_nn      : forall x, nisnan x = false -> nn (nmul x x);
  mul_ge1_nz : forall x y, nleb n1 x = true -> neqb y n0 = false -> neqb (nmul x y) n0 = false;
  sub_nan_l  : forall y, nisnan (nsub nnan y) = true;
  abs_pos_id : forall x, nltb n0 x = true -> nabs x = x;
  mul_1_fin  : forall y, nn y -> nisfin y = true -> nn (nmul n1 y) /\ nisfin (nmul n1 y) = true
}.

Local Existing Instance prec_gt_0.
Local Existing Instance prec_lt_emax.

Lemma fmul_inf_inf s t : fmul (B754_infinity s) (B754_infinity t) = B754_infinity (xorb s t).
Proof. reflexivity. Qed.
Lemma V_pos_far x r (y : f64) : V x r -> is_finite y = true -> (0 < B2R y <= r)%R -> Beqb x (fofZ 0) = false.
Proof.
  intros HV Fy (P & L). rewrite eqb_eq. apply andb_false_iff. left.
  destruct (Bleb x (fofZ 0)) eqn:E; [|reflexivity]. exfalso.
  pose proof (V_leb_r y x r HV ltac:(exact Fy) L) as Q. pose proof (f_leb_trans _ _ _ Q E) as Z.
  apply leb_0r in Z; [lra | exact Fy].
Qed.
Lemma V_neg_far x r (y : f64) : V x r -> is_finite y = true -> (r <= B2R y < 0)%R -> Beqb x (fofZ 0) = false.
Proof.
  intros HV Fy (L & P). rewrite eqb_eq. apply andb_false_iff. right.
  destruct (Bleb (fofZ 0) x) eqn:E; [|reflexivity]. exfalso.
  pose proof (V_leb_l x y r HV ltac:(exact Fy) L) as Q. pose proof (f_leb_trans _ _ _ E Q) as Z.
  apply leb_0 in Z; [lra | exact Fy].
Qed.

Global Instance F64more : NumMore f64.
Proof.
  constructor.
  - intros x Nx. unfold nn, n0. cbn [nleb nofZ nmul F64num]. destruct (fv x) as [|s|x Fx]; [discriminate | destruct s; reflexivity |].
    eapply V_sign_nn; [apply fmul_V; assumption|]. nra.
  - intros x y Hx Hy. unfold n0, n1 in *. cbn [nleb nofZ nmul neqb F64num] in *.
    destruct (fv x) as [|s|x Fx]; [discriminate | |].
    + destruct s; [discriminate|]. destruct (fv y) as [|t|y Fy]; [reflexivity | destruct t; reflexivity |].
      destruct y as [s| | |s m e He]; try discriminate. destruct s; reflexivity.
    + destruct (fv y) as [|t|y Fy].
      * rewrite fmul_nan_r. reflexivity.
      * apply leb_R in Hx; try assumption; try reflexivity. rewrite B2R_1 in Hx.
        destruct x as [s| | |s m e He]; try discriminate; simpl in Hx; [lra|].
        destruct s, t; reflexivity.
      * apply leb_R in Hx; try assumption; try reflexivity. rewrite B2R_1 in Hx.
        pose proof (fmul_V x y Fx Fy) as HV.
        destruct (Rtotal_order (B2R y) 0) as [L|[E|G]].
        -- apply (V_neg_far _ _ y HV Fy). nra.
        -- exfalso. rewrite eqb_eq in Hy. apply andb_false_iff in Hy as [Hy|Hy].
           ++ apply leb_R_false in Hy; try assumption; try reflexivity. simpl in Hy. lra.
           ++ apply leb_R_false in Hy; try assumption; try reflexivity. simpl in Hy. lra.
        -- apply (V_pos_far _ _ y HV Fy). nra.
  - intros y. destruct y; reflexivity.
  - intros x H. unfold n0 in H. cbn [nltb nofZ nabs F64num] in *. destruct x as [[|]|[|]| |[|] m e He]; try discriminate; reflexivity.
  - intros y Hy Fy. unfold nn, n0, n1 in *. cbn [nleb nofZ nmul nisfin F64num] in *. unfold fisfin in *.
    pose proof (fmul_V (fofZ 1) y fin_1 Fy) as HV. rewrite B2R_1, Rmult_1_l in HV.
    destruct (V_fin_between _ _ y y HV Fy Fy) as (F & B); [lra|]. split; [|exact F].
    apply leb_0 in Hy; [|exact Fy]. apply leb_0; [exact F | lra].
Qed.

Global Instance XQmore : NumMore xq.
Proof.
  constructor.
  - intros x Nx. destruct x as [|[|]|a]; try discriminate; try reflexivity. rewrite xq_mul. unfold nn. rewrite n0_xq. apply xq_leb.
    unfold Qcle. rewrite this_mul. change (this 0%Qc) with 0%Q. Lqa.nra.
  - intros x y Hx Hy. destruct x as [|[|]|a], y as [|[|]|b]; try discriminate; try reflexivity.
    + rewrite n0_xq in *. destruct (neqb (nmul (XInf false) (XFin b)) (XFin 0%Qc)) eqn:E; [|reflexivity]. exfalso.
      cbn in E. unfold xzero in E. rewrite qc0_eq in E. cbn [orb] in E. change (xeqb (XFin b) (XFin 0%Qc)) with (neqb (XFin b) (XFin 0%Qc)) in E.
      rewrite Hy in E. cbn in E. destruct (xneg (XFin b)); discriminate.
    + rewrite n0_xq, n1_xq in *. apply xq_leb in Hx. cbn. unfold xzero, xneg. 
      destruct (xeqb (XFin a) (XFin qc0)) eqn:E; cbn; [reflexivity|]. destruct (xltb _ _); reflexivity.
    + rewrite n0_xq, n1_xq in *. apply xq_leb in Hx. cbn. unfold xzero, xneg. 
      destruct (xeqb (XFin a) (XFin qc0)) eqn:E; cbn; [reflexivity|]. destruct (xltb _ _); reflexivity.
    + rewrite n0_xq, n1_xq, xq_mul in *. apply xq_leb in Hx.
      destruct (neqb (XFin (a * b)) (XFin 0%Qc)) eqn:E; [|reflexivity]. apply xq_eqb in E.
      apply Qcmult_integral in E as [E|E]; [|].
      * subst. unfold Qcle in Hx. cbn in Hx. Lqa.lra.
      * subst. rewrite (proj2 (xq_eqb 0 0) eq_refl) in Hy. discriminate.
  - intros y. destruct y; reflexivity.
  - intros x H. destruct x as [|[|]|a]; try discriminate; try reflexivity. cbn [nabs XQnum xabs].
    rewrite n0_xq in H. apply xq_ltb in H. destruct (Qcleb qc0 a) eqn:E; [reflexivity|]. exfalso.
    apply Qcleb_false in E. unfold Qclt in H. rewrite qc0_eq in E. Lqa.lra.
  - intros y Hy Fy. destruct (xfin_ex y Fy) as (q & ->). rewrite n1_xq, xq_mul, Qcmult_1_l. auto.
Qed.
