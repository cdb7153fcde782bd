(** Exact arithmetic: random_pick chooses direction k on an interval of draws of length w_k / sum w (C08). *)
From Coq Require Import ZArith Bool List Lia QArith Qcanon Lqa.
From Verif Require Import Num Py NumFacts Walker XQ XQLaws XQFacts SpecPick ProofPick.
Import ListNotations.
Open Scope Z_scope.
Open Scope res_scope.

Lemma Qcsum_app a b : Qcsum (a ++ b) = (Qcsum a + Qcsum b)%Qc.
Proof. induction a; simpl; [ring | rewrite IHa; ring]. Qed.
Lemma firstn_S_nth {A} (l : list A) d k : (k < length l)%nat -> firstn (S k) l = firstn k l ++ [nth k l d].
Proof.
  revert k. induction l; intros k H; simpl in H; [lia|]. destruct k; [reflexivity|].
  change (firstn (S (S k)) (a :: l)) with (a :: firstn (S k) l).
  change (firstn (S k) (a :: l)) with (a :: firstn k l). simpl nth. cbn [app]. f_equal. apply IHl. lia.
Qed.
Lemma prefix_S w k : (k < length w)%nat -> prefix_sum w (S k) = (prefix_sum w k + nth k w 0)%Qc.
Proof. intros H. unfold prefix_sum. rewrite (firstn_S_nth w 0%Qc k H), Qcsum_app. simpl. ring. Qed.
Lemma nth_xfin w k : nth k (map XFin w) (n0 : xq) = XFin (nth k w 0%Qc).
Proof. rewrite n0_xq. apply map_nth. Qed.
Lemma cumsum_prefix w k : (k < length w)%nat -> nth k (cumsum (map XFin w)) nnan = XFin (prefix_sum w (S k)).
Proof.
  induction k; intros H.
  - rewrite cumsum_0, prefix_S by exact H. destruct w; simpl in *; [lia|]. f_equal. unfold prefix_sum. simpl. ring.
  - rewrite cumsum_S by (rewrite map_length; exact H). rewrite IHk by lia. rewrite nth_xfin, xq_add. f_equal.
    symmetry. apply prefix_S, H.
Qed.
Lemma nanz_map_fin w : map nanz (map XFin w) = map XFin w.
Proof. rewrite map_map. apply map_ext. reflexivity. Qed.
Lemma prefix_all w : prefix_sum w (length w) = Qcsum w.
Proof. unfold prefix_sum. rewrite firstn_all. reflexivity. Qed.
Lemma Qcsum_nonneg w : Forall (fun x => (0 <= x)%Qc) w -> (0 <= Qcsum w)%Qc.
Proof.
  induction 1; simpl; [unfold Qcle; lra|]. unfold Qcle in *. rewrite this_add. change (this 0%Qc) with 0%Q in *. lra.
Qed.
Lemma prefix_mono w a b : Forall (fun x => (0 <= x)%Qc) w -> (a <= b <= length w)%nat -> (prefix_sum w a <= prefix_sum w b)%Qc.
Proof.
  intros H (L & B). induction L; [unfold Qcle; lra|].
  rewrite prefix_S by lia. specialize (IHL ltac:(lia)).
  assert (0 <= nth m w 0)%Qc by (rewrite Forall_forall in H; apply H, nth_In; lia).
  unfold Qcle in *. rewrite this_add. change (this 0%Qc) with 0%Q in *. lra.
Qed.

Lemma div_lt_iff a s u : (0 < s)%Qc -> (a / s < u)%Qc <-> (a < s * u)%Qc.
Proof.
  unfold Qclt. change (this 0%Qc) with 0%Q. intros S. rewrite this_div, this_mul. split; intros H.
  - setoid_replace (this a) with (this s * (this a / this s))%Q by (field; lra). apply Qmult_lt_l; assumption.
  - apply Qlt_shift_div_r; [exact S|]. lra.
Qed.
Lemma div_ge_iff a s u : (0 < s)%Qc -> (u <= a / s)%Qc <-> (s * u <= a)%Qc.
Proof.
  unfold Qcle, Qclt. change (this 0%Qc) with 0%Q. intros S. rewrite this_div, this_mul. split; intros H.
  - setoid_replace (this a) with (this s * (this a / this s))%Q by (field; lra). apply Qmult_le_l; assumption.
  - apply Qle_shift_div_l; [exact S|]. lra.
Qed.

Lemma random_pick_interval (w : list Qc) (u : Qc) k :
  Forall (fun x => (0 <= x)%Qc) w -> (0 < Qcsum w)%Qc -> (0 <= u)%Qc -> (u < 1)%Qc ->
  random_pick (map XFin w) (XFin u) = Ok (k, map XFin w) <->
  (k < length w)%nat /\ (k = 0%nat \/ (prefix_sum w k / Qcsum w < u)%Qc) /\ (u <= prefix_sum w (S k) / Qcsum w)%Qc.
Proof.
  intros W S U0 U1.
  assert (NEW : w <> []) by (intros ->; unfold Qclt in S; simpl in S; lra).
  assert (LW : (0 < length w)%nat) by (destruct w; [congruence | simpl; lia]).
  assert (AN : allnn (map XFin w)).
  { intros m. rewrite nth_xfin. unfold nn. rewrite n0_xq. apply xq_leb.
    destruct (Nat.lt_ge_cases m (length w)); [rewrite Forall_forall in W; apply W, nth_In; lia|].
    rewrite nth_overflow by lia. unfold Qcle. lra. }
  assert (UD : unit_draw (XFin u)).
  { split; rewrite ?n0_xq, ?n1_xq; [apply xq_leb, U0 | apply xq_ltb, U1]. }
  assert (TOP : nth (length (map XFin w) - 1) (cumsum (map XFin w)) nnan = XFin (Qcsum w)).
  { rewrite map_length, cumsum_prefix by lia. replace (Datatypes.S (length w - 1)) with (length w) by lia. rewrite prefix_all. reflexivity. }
  assert (MD : mapped_draw (map XFin w) (XFin u) = XFin (Qcsum w * u)%Qc).
  { unfold mapped_draw. rewrite TOP, n0_xq, xq_sub, xq_mul, xq_add. f_equal. ring. }
  assert (SPEC : forall k', pick (map XFin w) (XFin u) = Ok k' ->
     (k' < length w)%nat /\ (k' = 0%nat \/ (prefix_sum w k' / Qcsum w < u)%Qc) /\ (u <= prefix_sum w (Datatypes.S k') / Qcsum w)%Qc).
  { intros k' Hp. destruct (pick_spec _ _ _ AN UD Hp) as (A & B & C & D). rewrite MD in *.
    rewrite map_length in A. split; [exact A|]. split.
    - destruct k' as [|k']; [left; reflexivity|]. right. apply div_lt_iff; [exact S|].
      specialize (D k' ltac:(lia)). rewrite cumsum_prefix in D by lia. apply xq_ltb, D.
    - apply div_ge_iff; [exact S|]. rewrite cumsum_prefix in C by exact A. apply xq_leb, C. }
  rewrite random_pick_pick, nanz_map_fin.
  destruct (pick_total (map XFin w) (XFin u) AN) as (k' & Hk').
  - destruct w; [congruence | discriminate].
  - rewrite TOP. reflexivity.
  - rewrite Hk'. cbn [bind]. destruct (SPEC k' Hk') as (A & B & C). split.
    + intros E. injection E as <-. repeat split; assumption.
    + intros (A2 & B2 & C2). destruct (Nat.lt_trichotomy k k') as [L|[->|L]]; [exfalso| reflexivity |exfalso].
      * destruct B as [B|B]; [lia|]. apply div_lt_iff in B; [|exact S]. apply div_ge_iff in C2; [|exact S].
        pose proof (prefix_mono w (Datatypes.S k) k' W ltac:(lia)). unfold Qclt, Qcle in *. lra.
      * destruct B2 as [B2|B2]; [lia|]. apply div_lt_iff in B2; [|exact S]. apply div_ge_iff in C; [|exact S].
        pose proof (prefix_mono w (Datatypes.S k') k W ltac:(lia)). unfold Qclt, Qcle in *. lra.
Qed.
Lemma interval_length (w : list Qc) k : (0 < Qcsum w)%Qc -> (k < length w)%nat ->
  (prefix_sum w (S k) / Qcsum w - prefix_sum w k / Qcsum w)%Qc = (nth k w 0 / Qcsum w)%Qc.
Proof. intros S H. rewrite prefix_S by exact H. field. apply qc_pos_nz, S. Qed.
