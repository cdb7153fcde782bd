(** Proofs of the weight properties from the per-cell form. *)
From Coq Require Import ZArith Bool List Lia.
From Verif Require Import Num Py NumFacts Walker SpecWeights ProofWeights.
Import ListNotations.
Open Scope Z_scope.

Section W.
Context {T : Type} {N : Num T} {NL : NumLaws T}.

Lemma nth_map9 {A} (f : nat -> A) d k : (k < 9)%nat -> nth k (map f (seq 0 9)) d = f k.
Proof.
  intros H. do 9 (destruct k as [|k]; [reflexivity|]). lia.
Qed.
Lemma weight_nth lm (P : pobj T) i j k : wf_obj P -> inside P i j -> (k < 9)%nat ->
  nth k (weights_of lm P i j) n0 = spec_weight lm P i j k.
Proof. intros Hw Hi Hk. rewrite weight_refines by assumption. apply nth_map9, Hk. Qed.

Lemma ring_border (P : pobj T) i j : on_ring P i j ->
  on_border (nrow (o_depth P)) (ncol (o_depth P)) i j = true.
Proof.
  intros (G & I). unfold on_border. rewrite !orb_true_iff, !Z.eqb_eq.
  unfold in_grid, inside in *. lia.
Qed.
Lemma nb_in_grid (P : pobj T) i j k : inside P i j -> in_grid P (i + row_off k) (j + col_off k).
Proof.
  intros H. unfold inside, in_grid in *.
  assert (-1 <= row_off k <= 1 /\ -1 <= col_off k <= 1).
  { do 9 (destruct k as [|k]; [unfold row_off, col_off; simpl; lia|]).
    unfold row_off, col_off. simpl. destruct k; lia. }
  lia.
Qed.

Lemma pospart_notneg (x : T) : nltb (pospart x) n0 = false.
Proof.
  unfold pospart. destruct (nleb x n0) eqn:E; [apply notneg_n0|].
  rewrite ltb_def, E. reflexivity.
Qed.
Lemma slope_notneg (P : pobj T) i j k : nltb (slope P i j k) n0 = false.
Proof. unfold slope. destruct nb_blocked; [apply notneg_n0 | apply pospart_notneg]. Qed.
Lemma inertia_notneg (P : pobj T) i j k : nltb (inertia P i j k) n0 = false.
Proof. unfold inertia. destruct nb_blocked; [apply notneg_n0 | apply pospart_notneg]. Qed.
Lemma share_notneg (f : nat -> T) k : (forall k, nltb (f k) n0 = false) -> nltb (share f k) n0 = false.
Proof.
  intros H. unfold share. destruct (nltb n0 (total9 f)) eqn:E; [|apply H].
  apply div_notneg; [apply H | exact E].
Qed.
Lemma gamma_parts (P : pobj T) : gamma_ok P ->
  nltb (o_gamma P) n0 = false /\ nltb (nsub n1 (o_gamma P)) n0 = false.
Proof.
  intros (A & B). split; [apply nn_notneg, A|]. apply nn_notneg, sub_nn; [apply n1_fin | | exact B].
  eapply fin_between; [apply n0_fin | apply n1_fin | exact A | exact B].
Qed.
Lemma base_notneg lm (P : pobj T) i j k : gamma_ok P -> pow_ok lm P ->
  nltb (base_weight lm P i j k) n0 = false.
Proof.
  intros G Hp. destruct (gamma_parts P G) as (G1 & G2).
  unfold base_weight. destruct (nb_blocked P i j k) eqn:B; [apply notneg_n0|].
  unfold nb_blocked in B. apply orb_false_iff in B as (B & _).
  apply mul_notneg; [apply Hp, B|].
  apply add_notneg; apply mul_notneg; try assumption; apply share_notneg;
    [apply slope_notneg | apply inertia_notneg].
Qed.
Lemma spec_notneg lm (P : pobj T) i j k : gamma_ok P -> pow_ok lm P ->
  nltb (spec_weight lm P i j k) n0 = false.
Proof.
  intros G Hp. unfold spec_weight. destruct (_ && _); [apply nn_notneg, nn_n1 | apply base_notneg; assumption].
Qed.

(** C01 *)
Lemma weights_never_negative lm (P : pobj T) i j k : wf_obj P -> gamma_ok P -> pow_ok lm P -> in_grid P i j ->
  nltb (nth k (weights_of lm P i j) n0) n0 = false.
Proof.
  intros Hw G Hp Hg.
  destruct (on_border (nrow (o_depth P)) (ncol (o_depth P)) i j) eqn:B.
  - rewrite weight_border by assumption. rewrite nth_repeat. apply notneg_n0.
  - assert (inside P i j).
    { unfold on_border in B. rewrite !orb_false_iff, !Z.eqb_neq in B. unfold in_grid, inside in *. lia. }
    destruct (Nat.lt_ge_cases k 9) as [L|L].
    + rewrite weight_nth by assumption. apply spec_notneg; assumption.
    + rewrite nth_overflow; [apply notneg_n0|]. rewrite weight_refines by assumption. exact L.
Qed.

Lemma total_base_nn lm (P : pobj T) i j : gamma_ok P -> pow_ok lm P -> nn (total9 (base_weight lm P i j)).
Proof.
  intros G Hp. apply nansum9_nn; [reflexivity|]. apply Forall_forall. intros x Hx.
  apply in_map_iff in Hx as (k & <- & _). apply base_notneg; assumption.
Qed.
Lemma deepest_attained (P : pobj T) i j : depth_clean P -> inside P i j ->
  (exists k, (k < 9)%nat /\ neqb (nb i j (o_depth P) k) (deepest P i j) = true) /\
  forall k, (k < 9)%nat -> nleb (nb i j (o_depth P) k) (deepest P i j) = true.
Proof.
  intros D Hi. destruct (np_max_spec (map (nb i j (o_depth P)) (seq 0 9))) as (A & B).
  - discriminate.
  - apply Forall_forall. intros x Hx. apply in_map_iff in Hx as (k & <- & _). apply D, nb_in_grid, Hi.
  - split.
    + apply in_map_iff in A as (k & E & Hk). apply in_seq in Hk. exists k. split; [lia|].
      unfold deepest. rewrite <- E. apply eq_refl', D, nb_in_grid, Hi.
    + intros k Hk. rewrite Forall_forall in B. apply B, in_map_iff. exists k. split; [reflexivity|].
      apply in_seq. lia.
Qed.

(** C02 *)
Lemma interior_has_positive lm (P : pobj T) i j : wf_obj P -> gamma_ok P -> pow_ok lm P -> depth_clean P ->
  inside P i j -> exists k, (k < 9)%nat /\ nltb n0 (nth k (weights_of lm P i j) n0) = true.
Proof.
  intros Hw G Hp D Hi. pose proof (total_base_nn lm P i j G Hp) as TN.
  destruct (nleb (total9 (base_weight lm P i j)) n0) eqn:E.
  - destruct (deepest_attained P i j D Hi) as ((k & Hk & Ek) & _). exists k. split; [exact Hk|].
    rewrite weight_nth by assumption. unfold spec_weight. rewrite E, Ek. apply n0_lt_n1.
  - assert (PT : nltb n0 (total9 (base_weight lm P i j)) = true) by (apply lt_split; split; assumption).
    apply nansum9_pos_exists in PT; [|reflexivity|].
    + apply Exists_exists in PT as (x & Hx & Px). apply in_map_iff in Hx as (k & <- & Hk). apply in_seq in Hk.
      exists k. split; [lia|]. rewrite weight_nth by (assumption || lia). unfold spec_weight. rewrite E. exact Px.
    + apply Forall_forall. intros x Hx. apply in_map_iff in Hx as (k & <- & _). apply base_notneg; assumption.
Qed.
Lemma ring_all_zero lm (P : pobj T) i j : wf_obj P -> on_ring P i j -> weights_of lm P i j = repeat n0 9.
Proof. intros Hw R. apply weight_border; [exact Hw | apply ring_border, R]. Qed.

(** C03 *)
Lemma nonzero_weight_target lm (P : pobj T) i j k : wf_obj P -> gamma_ok P -> pow_ok lm P -> depth_clean P ->
  nisnan (o_dry P) = false -> inside P i j -> (k < 9)%nat ->
  neqb (nth k (weights_of lm P i j) n0) n0 = false ->
  (nltb (o_dry P) (nb i j (o_depth P) k) = true /\ nb i j (o_ct P) k <> 2) \/
  (dead_end lm P i j /\ forall m, (m < 9)%nat -> nleb (nb i j (o_depth P) m) (nb i j (o_depth P) k) = true).
Proof.
  intros Hw G Hp D Dn Hi Hk H. rewrite weight_nth in H by assumption. unfold spec_weight in H.
  destruct (nleb (total9 (base_weight lm P i j)) n0) eqn:E; cbn [andb] in H;
    [destruct (neqb (nb i j (o_depth P) k) (deepest P i j)) eqn:Q|].
  - right. split.
    + intros m Hm. assert (L : nleb (nanz (base_weight lm P i j m)) (total9 (base_weight lm P i j)) = true).
      { apply nansum9_ge; [reflexivity| |].
        - apply Forall_forall. intros x Hx. apply in_map_iff in Hx as (q & <- & _). apply base_notneg; assumption.
        - apply in_map_iff. exists m. split; [reflexivity | apply in_seq; lia]. }
      assert (L0 : nleb (nanz (base_weight lm P i j m)) n0 = true) by (eapply leb_trans; eassumption).
      unfold nanz in L0. destruct (nisnan (base_weight lm P i j m)) eqn:Nm.
      * destruct (nltb n0 (base_weight lm P i j m)) eqn:F; [|reflexivity].
        apply lt_nan_r in F. congruence.
      * apply le_not_lt, L0.
    + intros m Hm. eapply leb_trans; [apply (proj2 (deepest_attained P i j D Hi)), Hm|]. apply eq_ge, Q.
  - left. unfold base_weight in H. destruct (nb_blocked P i j k) eqn:B.
    + rewrite eq_refl' in H by apply n0_notnan. discriminate.
    + unfold nb_blocked in B. apply orb_false_iff in B as (B1 & B2). apply Z.eqb_neq in B2. split; [|exact B2].
      apply not_le_lt; [apply D, nb_in_grid, Hi | exact Dn | exact B1].
  - left. unfold base_weight in H. destruct (nb_blocked P i j k) eqn:B.
    + rewrite eq_refl' in H by apply n0_notnan. discriminate.
    + unfold nb_blocked in B. apply orb_false_iff in B as (B1 & B2). apply Z.eqb_neq in B2. split; [|exact B2].
      apply not_le_lt; [apply D, nb_in_grid, Hi | exact Dn | exact B1].
Qed.
End W.
