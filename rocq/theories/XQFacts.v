(** Exact semantics on finite numbers: the operations are those of the field Qc. *)
From Coq Require Import ZArith Bool List QArith Qcanon Lia Lqa.
From Verif Require Import Num XQ XQLaws Py.
Import ListNotations.
Open Scope Z_scope.

Lemma xfin_ex (x : xq) : nisfin x = true -> exists q, x = XFin q.
Proof. destruct x as [|[|]|q]; simpl; try discriminate. intros _. exists q. reflexivity. Qed.
Lemma xq_leb a b : nleb (XFin a) (XFin b) = true <-> (a <= b)%Qc.
Proof. apply Qcleb_true. Qed.
Lemma xq_leb_f a b : nleb (XFin a) (XFin b) = false <-> (b < a)%Qc.
Proof. apply Qcleb_false. Qed.
Lemma xq_ltb a b : nltb (XFin a) (XFin b) = true <-> (a < b)%Qc.
Proof.
  cbn. unfold xltb. cbn. rewrite andb_true_iff, negb_true_iff, Qcleb_true, Qcleb_false. unfold Qclt.
  split; [tauto|]. intros H. split; [lra | exact H].
Qed.
Lemma xq_ltb_f a b : nltb (XFin a) (XFin b) = false <-> (b <= a)%Qc.
Proof.
  destruct (nltb (XFin a) (XFin b)) eqn:E; split; intros H; try discriminate; try reflexivity.
  - apply xq_ltb in E. unfold Qclt, Qcle in *. lra.
  - destruct (Qclt_le_dec a b) as [C|C]; [|exact C]. apply xq_ltb in C. congruence.
Qed.
Lemma xq_eqb a b : neqb (XFin a) (XFin b) = true <-> a = b.
Proof.
  cbn. unfold xeqb. cbn. rewrite andb_true_iff, !Qcleb_true. split.
  - intros (A & B). apply Qc_is_canon. lra.
  - intros ->. lra.
Qed.
Lemma qc0_eq : qc0 = 0%Qc.
Proof. apply Qc_is_canon. reflexivity. Qed.
Lemma qc1_eq : Qcofz 1 = 1%Qc.
Proof. apply Qc_is_canon. reflexivity. Qed.
Lemma n0_xq : (n0 : xq) = XFin 0%Qc.
Proof. unfold n0. cbn. f_equal. Qed.
Lemma n1_xq : (n1 : xq) = XFin 1%Qc.
Proof. unfold n1. cbn. f_equal. Qed.
Lemma xq_add a b : nadd (XFin a) (XFin b) = XFin (a + b)%Qc.
Proof. reflexivity. Qed.
Lemma xq_sub a b : nsub (XFin a) (XFin b) = XFin (a - b)%Qc.
Proof. reflexivity. Qed.
Lemma xq_mul a b : nmul (XFin a) (XFin b) = XFin (a * b)%Qc.
Proof. reflexivity. Qed.
Lemma xq_div a b : b <> 0%Qc -> ndiv (XFin a) (XFin b) = XFin (a / b)%Qc.
Proof.
  intros H. cbn. unfold xzero. destruct (xeqb (XFin b) (XFin qc0)) eqn:E; [|reflexivity].
  exfalso. apply H. rewrite <- qc0_eq. apply xq_eqb. exact E.
Qed.
Lemma qc_pos_nz b : (0 < b)%Qc -> b <> 0%Qc.
Proof. intros H ->. unfold Qclt in H. lra. Qed.
Lemma xq_half : (nhalf : xq) = XFin (1 / (1 + 1))%Qc.
Proof. apply (f_equal XFin). apply Qc_is_canon. vm_compute. reflexivity. Qed.

Lemma nansum9_fin (f : nat -> Qc) :
  nansum9 (map (fun k => XFin (f k)) (seq 0 9)) =
  XFin (f 0%nat + f 1%nat + (f 2%nat + f 3%nat) + (f 4%nat + f 5%nat + (f 6%nat + f 7%nat)) + f 8%nat)%Qc.
Proof. reflexivity. Qed.
