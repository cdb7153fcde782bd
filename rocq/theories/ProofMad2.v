(** When the outlier filter keeps the order of two maps. *)
From Coq Require Import ZArith Bool String List Lia QArith Qcanon Lqa Permutation Sorted.
From Verif Require Import Num NumFacts NumPost XQ XQLaws XQFacts Py Walker PostProc Grid Spatial SpecSpat ProofMad.
Import ListNotations.
Open Scope Z_scope.

Lemma sorted_unique : forall s s' : list Qc, Permutation s s' -> StronglySorted Qcle s -> StronglySorted Qcle s' -> s = s'.
Proof.
  induction s as [|a s IH]; intros s' P S S'; [apply Permutation_nil in P; congruence|].
  destruct s' as [|b s']; [apply Permutation_sym, Permutation_nil in P; discriminate|].
  apply StronglySorted_inv in S as (S & A). apply StronglySorted_inv in S' as (S' & B). rewrite Forall_forall in A, B.
  assert (E : a = b).
  { assert (Ha : In a (b :: s')) by (apply (Permutation_in _ P); left; reflexivity). assert (Hb : In b (a :: s)) by (apply (Permutation_in _ (Permutation_sym P)); left; reflexivity).
    destruct Ha as [->|Ha]; [reflexivity|]. destruct Hb as [->|Hb]; [reflexivity|]. apply Qcle_antisym; [apply A, Hb | apply B, Ha]. }
  subst b. f_equal. apply IH; [apply (Permutation_cons_inv P) | exact S | exact S'].
Qed.
Lemma median_unique l m m' : is_median l m -> is_median l m' -> m = m'.
Proof.
  intros (s & P & S & E) (s' & P' & S' & E'). assert (s' = s) as -> by (apply sorted_unique; [rewrite <- P', <- P; reflexivity | exact S' | exact S]).
  destruct (Nat.even (length l)); [|congruence]. rewrite <- E' in E. apply (f_equal (fun x => x / Qcofz 2)%Qc) in E. rewrite !Qcdiv_mult_l in E by (apply q2_nz). exact E.
Qed.
Lemma forall2_len {A B} (R : A -> B -> Prop) l l' : Forall2 R l l' -> length l = length l'.
Proof. induction 1; cbn; congruence. Qed.
Lemma total_le l l' : Forall2 Qcle l l' -> (qtotal l <= qtotal l')%Qc.
Proof. induction 1; cbn [qtotal fold_right]; [apply Qcle_refl|]. apply Qcplus_le_compat; assumption. Qed.
Lemma mean_le l l' v v' : Forall2 Qcle l l' -> is_mean l v -> is_mean l' v' -> (v <= v')%Qc.
Proof.
  intros F (NE & E) (_ & E'). pose proof (total_le _ _ F) as T. rewrite <- E, <- E', <- (forall2_len _ _ _ F) in T.
  assert (0 < length l)%nat by (destruct l; [congruence | cbn; lia]). apply (Qcmult_lt_0_le_reg_r _ _ (Qcofz (Z.of_nat (length l)))); [apply qcofz_pos; lia | exact T].
Qed.
Lemma dist_zero m x : (dist m x <= 0)%Qc -> x = m.
Proof.
  unfold dist. destruct (Qclt_le_dec (x - m) 0) as [L|L]; intros H.
  - exfalso. apply Qcopp_le_compat in H. replace (- (m - x))%Qc with (x - m)%Qc in H by ring. apply (Qclt_not_le _ _ L). exact H.
  - assert (E : (x - m = 0)%Qc) by (apply Qcle_antisym; assumption). replace x with ((x - m) + m)%Qc by ring. rewrite E. ring.
Qed.
Lemma filter_id {A} (p : A -> bool) l : (forall a, In a l -> p a = true) -> filter p l = l.
Proof. induction l as [|a l IH]; intros H; cbn [filter]; [reflexivity|]. rewrite (H a (or_introl eq_refl)), IH; [reflexivity | intros; apply H; right; assumption]. Qed.
Lemma total_const l m : (forall x, In x l -> x = m) -> (m * Qcofz (Z.of_nat (length l)) = qtotal l)%Qc.
Proof.
  induction l as [|a l IH]; intros H; [cbn; apply Qcmult_0_r|]. cbn [qtotal fold_right length]. fold (qtotal l). rewrite <- IH by (intros; apply H; right; assumption).
  rewrite (H a (or_introl eq_refl)), Nat2Z.inj_succ, <- Z.add_1_r, qcofz_add. change (Qcofz 1) with 1%Qc. ring.
Qed.
(** Without outliers the filter is the mean of the window. *)
Lemma mad_value_mean l thr v : l <> [] -> (1 <= thr)%Qc -> mad_value (map XFin l) (XFin thr) = XFin v ->
  (exists m d, is_median l m /\ is_median (map (dist m) l) d /\ forall x, In x l -> (dist m x <= thr * d)%Qc) -> is_mean l v.
Proof.
  intros NE TH E (m & d & M & D & H). destruct (mad_value_ok l thr NE TH) as (m' & d' & v' & E' & M' & D' & A & B).
  rewrite E in E'. injection E' as <-. pose proof (median_unique _ _ _ M M') as <-. pose proof (median_unique _ _ _ D D') as <-.
  destruct (Qc_eq_dec d 0) as [->|N0].
  - rewrite (A eq_refl). split; [exact NE|]. apply total_const. intros x Hx. apply dist_zero. eapply Qcle_trans; [apply H, Hx|]. rewrite Qcmult_0_r. apply Qcle_refl.
  - specialize (B N0). rewrite filter_id in B; [exact B|]. intros x Hx. apply (xq_leb (dist m x)). apply H, Hx.
Qed.
(** Windows of two maps with numbers at the same places. *)
Lemma flat_map_forall2 {A B} (R : B -> B -> Prop) (f g : A -> list B) l : (forall a, In a l -> Forall2 R (f a) (g a)) -> Forall2 R (flat_map f l) (flat_map g l).
Proof. induction l as [|a l IH]; intros H; cbn [flat_map]; [constructor|]. apply Forall2_app; [apply H; left; reflexivity | apply IH; intros; apply H; right; assumption]. Qed.
Lemma in_zrange_inv a b x : In x (zrange a b) -> a <= x < b.
Proof. unfold zrange. intros H. apply in_map_iff in H as (k & <- & Hk). apply in_seq in Hk. lia. Qed.
Lemma window_vals_le (a b : arr xq) size i j : nrow a = nrow b -> ncol a = ncol b ->
  (forall p q, in_window a size i j p q -> (cell a p q = XNaN /\ cell b p q = XNaN) \/ exists x y, cell a p q = XFin x /\ cell b p q = XFin y /\ (x <= y)%Qc) ->
  Forall2 Qcle (window_vals a size i j) (window_vals b size i j).
Proof.
  intros ER EC H. unfold window_vals. rewrite <- ER, <- EC. apply flat_map_forall2. intros p Hp. apply flat_map_forall2. intros q Hq.
  destruct ((Z.abs (p - i) <=? size / 2) && (Z.abs (q - j) <=? size / 2)) eqn:E; [|constructor]. apply andb_true_iff in E as (E1 & E2). apply Z.leb_le in E1, E2.
  apply in_zrange_inv in Hp, Hq. destruct (H p q) as [(-> & ->)|(x & y & -> & -> & L)]; [split; [exact Hp|]; split; [exact Hq|]; split; assumption| constructor | constructor; [exact L | constructor]].
Qed.
