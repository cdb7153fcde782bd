(** The exact semantics [xq] satisfies the number laws. *)
From Coq Require Import ZArith Bool List QArith Qcanon Qabs Lia Lqa.
From Verif Require Import Num XQ.
Open Scope Z_scope.

Lemma this_add a b : (this (a + b)%Qc == this a + this b)%Q.
Proof. unfold Qcplus, Q2Qc; cbn [this]. apply Qred_correct. Qed.
Lemma this_mul a b : (this (a * b)%Qc == this a * this b)%Q.
Proof. unfold Qcmult, Q2Qc; cbn [this]. apply Qred_correct. Qed.
Lemma this_opp a : (this (- a)%Qc == - this a)%Q.
Proof. unfold Qcopp, Q2Qc; cbn [this]. apply Qred_correct. Qed.
Lemma this_sub a b : (this (a - b)%Qc == this a - this b)%Q.
Proof. unfold Qcminus. rewrite this_add, this_opp. reflexivity. Qed.
Lemma this_inv a : (this (/ a)%Qc == / this a)%Q.
Proof. unfold Qcinv, Q2Qc; cbn [this]. apply Qred_correct. Qed.
Lemma this_div a b : (this (a / b)%Qc == this a / this b)%Q.
Proof. unfold Qcdiv. rewrite this_mul, this_inv. reflexivity. Qed.
Lemma this_ofz z : (this (Qcofz z) == inject_Z z)%Q.
Proof. unfold Qcofz, Q2Qc; cbn [this]. apply Qred_correct. Qed.

Lemma Qcleb_true a b : Qcleb a b = true <-> (this a <= this b)%Q.
Proof. unfold Qcleb. apply Qle_bool_iff. Qed.
Lemma Qcleb_false a b : Qcleb a b = false <-> (this b < this a)%Q.
Proof.
  unfold Qcleb. split; intros H.
  - destruct (Qlt_le_dec (this b) (this a)) as [|C]; [assumption|].
    apply Qle_bool_iff in C. congruence.
  - destruct (Qle_bool (this a) (this b)) eqn:E; [|reflexivity].
    apply Qle_bool_iff in E. lra.
Qed.

Lemma Qc_eq_iff a b : a = b <-> (this a == this b)%Q.
Proof. split; [intros ->; reflexivity | apply Qc_is_canon]. Qed.

(** Turn every [Qc] fact into a [Q] fact. *)
Ltac qc_prep :=
  unfold Qclt, Qcle, Qcltb, qc0 in *;
  repeat match goal with
  | H : @eq Qc _ _ |- _ => apply (proj1 (Qc_eq_iff _ _)) in H
  | H : Qcleb _ _ = true |- _ => apply (proj1 (Qcleb_true _ _)) in H
  | H : Qcleb _ _ = false |- _ => apply (proj1 (Qcleb_false _ _)) in H
  | H : true = Qcleb _ _ |- _ => symmetry in H
  | H : false = Qcleb _ _ |- _ => symmetry in H
  | |- Qcleb _ _ = true => apply (proj2 (Qcleb_true _ _))
  | |- Qcleb _ _ = false => apply (proj2 (Qcleb_false _ _))
  | |- @eq Qc _ _ => apply (proj2 (Qc_eq_iff _ _))
  end;
  repeat (progress (rewrite ?this_add, ?this_mul, ?this_opp, ?this_sub, ?this_div, ?this_inv, ?this_ofz in *));
  unfold inject_Z in *.
Ltac qclra := qc_prep; lra.
Ltac qcnra := qc_prep; nra.

Ltac xq_case :=
  repeat match goal with
  | x : xq |- _ => destruct x as [|[|]|?]
  | b : bool |- _ => destruct b
  end.

Ltac bcase :=
  repeat match goal with
  | H : Qcleb ?a ?b = true |- _ => apply (proj1 (Qcleb_true _ _)) in H
  | H : Qcleb ?a ?b = false |- _ => apply (proj1 (Qcleb_false _ _)) in H
  | H : context [Qcleb ?a ?b] |- _ =>
      let E := fresh "E" in destruct (Qcleb a b) eqn:E;
      [apply (proj1 (Qcleb_true _ _)) in E | apply (proj1 (Qcleb_false _ _)) in E]
  | |- context [Qcleb ?a ?b] =>
      let E := fresh "E" in destruct (Qcleb a b) eqn:E;
      [apply (proj1 (Qcleb_true _ _)) in E | apply (proj1 (Qcleb_false _ _)) in E]
  end.

Ltac xunf := unfold nn, n0, n1 in *; cbn [nofZ nnan nadd nsub nmul ndiv nabs nleb nltb neqb nisnan nisfin nfrac XQnum] in *;
  unfold xltb, xeqb, xneg, xzero, xsub, xopp, qc0 in *;
  cbn [xleb xadd xmul xdiv xabs xisnan xisfin xopp xorb negb andb orb Bool.eqb] in *; unfold xltb, xeqb, xneg, xzero, qc0 in *;
  cbn [xleb xadd xmul xdiv xabs xisnan xisfin xopp xorb negb andb orb Bool.eqb] in *.

Ltac xgo := intros; xq_case; xunf; try discriminate; try reflexivity; try congruence; bcase; xunf;
   try discriminate; try reflexivity; try congruence; try (exfalso; qclra); try qclra; auto.

Ltac xloop := repeat (progress (xunf; try discriminate; try reflexivity; try congruence; bcase));
   try discriminate; try reflexivity; try congruence; try (exfalso; qclra); exfalso; qc_prep.

Lemma Qc_mul_nn a b : (0 <= this a)%Q -> (0 <= this b)%Q -> (0 <= this (a * b)%Qc)%Q.
Proof. intros. rewrite this_mul. apply Qmult_le_0_compat; assumption. Qed.

Lemma ndec_xq m k : 0 <= k -> @ndec xq XQnum m k = XFin (Qcofz m / Qcofz (10 ^ k))%Qc.
Proof.
  intros Hk. unfold ndec; cbn [ndiv nofZ XQnum xdiv].
  assert (Hp : 0 < 10 ^ k) by (apply Z.pow_pos_nonneg; lia).
  unfold xzero, xeqb; cbn [xleb].
  destruct (Qcleb (Qcofz (10 ^ k)) qc0) eqn:E; [|reflexivity].
  exfalso. apply Qcleb_true in E. unfold qc0 in E. rewrite !this_ofz in E.
  rewrite <- Zle_Qle in E. lia.
Qed.

Lemma half_xq : @nhalf xq XQnum = XFin (Q2Qc (1 # 2)).
Proof. unfold nhalf. rewrite ndec_xq by lia. apply (f_equal XFin). apply Qc_is_canon. vm_compute. reflexivity. Qed.
Lemma eps8_xq : @neps8 xq XQnum = XFin (Q2Qc (1 # 100000000)).
Proof. unfold neps8. rewrite ndec_xq by lia. apply (f_equal XFin). apply Qc_is_canon. vm_compute. reflexivity. Qed.
Lemma tenth_xq : @ntenth xq XQnum = XFin (Q2Qc (1 # 10)).
Proof. unfold ntenth. rewrite ndec_xq by lia. apply (f_equal XFin). apply Qc_is_canon. vm_compute. reflexivity. Qed.

Lemma this_Q2Qc q : (this (Q2Qc q) == q)%Q.
Proof. unfold Q2Qc; cbn [this]. apply Qred_correct. Qed.

Lemma Qinv_bound (q : Q) : (1 # 100000000 <= q)%Q -> (0 <= / q)%Q.
Proof. intros H. apply Qinv_le_0_compat. lra. Qed.

Global Instance XQlaws : NumLaws xq.
Proof.
  split.
  - xgo.
  - xgo.
  - xgo.
  - xgo.
  - xgo.
  - xgo.
  - xgo.
  - xgo.
  - xgo.
  - xgo.
  - intros a b H; xunf. apply Qcleb_true. rewrite !this_ofz. rewrite <- Zle_Qle. exact H.
  - intros a b _ H _; xunf.
    assert (E1 : Qcleb (Qcofz a) (Qcofz b) = true)
      by (apply Qcleb_true; rewrite !this_ofz; rewrite <- Zle_Qle; lia).
    assert (E2 : Qcleb (Qcofz b) (Qcofz a) = false)
      by (apply Qcleb_false; rewrite !this_ofz; rewrite <- Zlt_Qlt; lia).
    rewrite E1, E2; reflexivity.
  - reflexivity.
  - xgo.
  - xgo.
  - xgo.
  - xgo.
  - xgo.
  - xgo.
  - xgo.
  - xgo.
  - xgo.
  - xgo.
  - xgo.
  - (* mul_notneg *)
    intros x y Hx Hy; destruct x as [|[|]|a], y as [|[|]|b]; xloop;
    (assert (0 <= this a * this b)%Q by (apply Qmult_le_0_compat; lra); lra).
  - intros x y Hx Hy Fx Fy; destruct x as [|[|]|a], y as [|[|]|b]; xloop;
    (assert (0 <= this a * this b)%Q by (apply Qmult_le_0_compat; lra); lra).
  - intros x y Hx Hy Fy; destruct x as [|[|]|a], y as [|[|]|b]; xloop;
    (assert (0 <= this a * this b)%Q by (apply Qmult_le_0_compat; lra); lra).
  - intros x u Hx Fx Hu Hu1; destruct x as [|[|]|a], u as [|[|]|b]; xloop;
    (assert (0 <= this a * (1 - this b))%Q by (apply Qmult_le_0_compat; lra); lra).
  - intros x u Hx Fx Hu Hu1; destruct x as [|[|]|a], u as [|[|]|b]; xloop;
    (assert (0 <= this a * (1 - this b))%Q by (apply Qmult_le_0_compat; lra); lra).
  - intros x u Hx Fx; destruct x as [|[|]|a], u as [|[|]|b]; xloop;
    (assert (Z : (this a == 0)%Q) by lra; rewrite Z in *; lra).
  - (* div_notneg *)
    intros x y Hx Hy; destruct x as [|[|]|a], y as [|[|]|b]; xloop;
     assert (0 <= /this b)%Q by (apply Qinv_le_0_compat; lra); unfold Qdiv in *;
     assert (0 <= this a * /this b)%Q by (apply Qmult_le_0_compat; lra); lra.
  - (* div_share *)
    intros x y Hx Hxy Fy; destruct x as [|[|]|a], y as [|[|]|b]; xunf; try discriminate.
    bcase; xunf; try discriminate.
    assert (Ha : (0 < this a)%Q) by qclra. assert (Hb : (this a <= this b)%Q) by qclra.
    assert (D : (0 < this a * / this b)%Q) by (apply Qmult_lt_0_compat; [lra | apply Qinv_lt_0_compat; lra]).
    assert (D1 : (this a * / this b <= 1)%Q).
    { apply Qle_shift_div_r; lra. }
    assert (Z : Qcleb b qc0 = false) by (apply Qcleb_false; unfold qc0; rewrite this_ofz; unfold inject_Z; lra).
    unfold qc0 in Z. rewrite ?Z. cbn [andb xleb].
    assert (Y : Qcleb (Qcofz 0) (a / b) = true) by (apply Qcleb_true; rewrite this_div, this_ofz; unfold Qdiv, inject_Z; lra).
    assert (Y1 : Qcleb (a / b) (Qcofz 0) = false) by (apply Qcleb_false; rewrite this_div, this_ofz; unfold Qdiv, inject_Z; lra).
    split; [|right; rewrite Y, Y1; reflexivity].
    apply Qcleb_true. rewrite this_div, this_ofz. unfold Qdiv, inject_Z; lra.
  - (* div_0 *)
    intros y Hy Fy; destruct y as [|[|]|b]; xunf; try discriminate. bcase; xunf; try discriminate.
    assert (Z : Qcleb b (Qcofz 0) = false) by (apply Qcleb_false; rewrite this_ofz in *; assumption).
    rewrite Z. cbn [andb]. apply (f_equal XFin). apply Qc_is_canon. rewrite this_div, this_ofz. unfold Qdiv, inject_Z. lra.
  - intros y Hy Fy; destruct y as [|[|]|b]; xunf; try discriminate. apply (f_equal XFin). apply Qc_is_canon.
    rewrite this_mul, this_ofz. unfold inject_Z. lra.
  - apply (f_equal XFin). apply Qc_is_canon. vm_compute. reflexivity.
  - apply (f_equal XFin). apply Qc_is_canon. vm_compute. reflexivity.
  - xgo.
  - xgo.
  - xgo.
  - rewrite half_xq. vm_compute. repeat split; discriminate.
  - rewrite eps8_xq. vm_compute. repeat split; discriminate.
  - rewrite tenth_xq. vm_compute. repeat split; discriminate.
  - intros a b. rewrite eps8_xq. intros Ha Hb.
    destruct a as [|[|]|a], b as [|[|]|b]; xunf; try discriminate;
    try (apply Qcleb_true in Ha; rewrite this_Q2Qc in Ha; pose proof (Qinv_bound _ Ha));
    try (apply Qcleb_true in Hb; rewrite this_Q2Qc in Hb; pose proof (Qinv_bound _ Hb));
    (split; xloop; unfold Qdiv in *; lra).
  - intros u dc. rewrite half_xq. destruct u as [|[|]|a], dc as [|[|]|b]; xunf; try discriminate; intros.
    bcase; xunf; try discriminate; try (split; reflexivity); exfalso.
    + qc_prep. rewrite this_Q2Qc in *. nra.
    + qc_prep. rewrite this_Q2Qc in *. nra.
    + qc_prep. rewrite this_Q2Qc in *. nra.
  - vm_compute. split; reflexivity.
Qed.
