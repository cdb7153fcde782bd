(** The outlier filter in exact arithmetic. *)
From Coq Require Import ZArith Bool String List Lia QArith Qcanon Lqa Permutation Sorted.
From Verif Require Import Num NumFacts NumPost XQ XQLaws XQFacts Py Walker ParticleTrack SpecWeights SpecPick SpecWalk PostProc SpecPost SpecGrid ProofExposure ProofNour ProofGrid Grid Spatial SpecSpat.
Import ListNotations.
Open Scope Z_scope.

(** ** Window *)
Lemma zrange_app a b c : a <= b <= c -> zrange a c = zrange a b ++ zrange b c.
Proof.
  intros H. unfold zrange. replace (Z.to_nat (c - a)) with (Z.to_nat (b - a) + Z.to_nat (c - b))%nat by lia. rewrite seq_app, map_app. f_equal.
  rewrite Nat.add_0_l. replace (seq (Z.to_nat (b - a)) (Z.to_nat (c - b))) with (map (Nat.add (Z.to_nat (b - a))) (seq 0 (Z.to_nat (c - b)))).
  - rewrite map_map. apply map_ext. intros x. lia.
  - rewrite <- (Nat.add_0_r (Z.to_nat (b - a))) at 2. generalize 0%nat. induction (Z.to_nat (c - b)) as [|m IH]; intros s; [reflexivity|]. cbn [seq map]. f_equal. rewrite IH. f_equal. lia.
Qed.
Lemma filter_none {A} (p : A -> bool) l : (forall a, In a l -> p a = false) -> filter p l = [].
Proof. induction l as [|a l IH]; intros H; [reflexivity|]. cbn [filter]. rewrite H by (left; reflexivity). apply IH. intros b Hb. apply H. right. exact Hb. Qed.
Lemma filter_window n h i : 0 <= i < n -> 0 <= h -> filter (fun p => Z.abs (p - i) <=? h) (zrange 0 n) = zrange (Z.max (i - h) 0) (Z.min (i + h + 1) n).
Proof.
  intros I H. rewrite (zrange_app 0 (Z.max (i - h) 0) n) by lia. rewrite (zrange_app (Z.max (i - h) 0) (Z.min (i + h + 1) n) n) by lia.
  rewrite !filter_app. rewrite (filter_none _ (zrange 0 _)). 2:{ intros p Hp. apply zrange_in in Hp. apply Z.leb_gt. lia. }
  rewrite (filter_none _ (zrange (Z.min _ _) n)). 2:{ intros p Hp. apply zrange_in in Hp. apply Z.leb_gt. lia. }
  rewrite (filter_all _ (zrange (Z.max (i - h) 0) _)). 2:{ intros p Hp. apply zrange_in in Hp. apply Z.leb_le. lia. }
  rewrite app_nil_r. reflexivity.
Qed.
Lemma flat_map_filter {A B} (f : A -> list B) (p : A -> bool) l : flat_map (fun a => if p a then f a else []) l = flat_map f (filter p l).
Proof. induction l as [|a l IH]; [reflexivity|]. cbn [flat_map filter]. destruct (p a); cbn [flat_map app]; rewrite IH; reflexivity. Qed.
Lemma window_ok (a : arr xq) size i j : finite_or_nan a -> 0 <= size -> 0 <= i < nrow a -> 0 <= j < ncol a -> window a size i j = map XFin (window_vals a size i j).
Proof.
  intros FN HS HI HJ. assert (0 <= size / 2) by (apply Z.div_pos; lia). unfold window, window_vals. cbv zeta.
  assert (SB : forall n v, 0 <= v <= n -> slice_bound n v = v). { intros n v Hv. unfold slice_bound. destruct (Z.ltb_spec v 0); lia. }
  rewrite !SB by lia. set (h := size / 2) in *. clearbody h.
  rewrite <- (filter_window (nrow a) h i), <- (filter_window (ncol a) h j) by lia.
  rewrite filter_flat_map, flat_map_map.
  rewrite <- (flat_map_filter (fun p => filter (fun x => negb (nisnan x)) (map (cell a p) (filter (fun q => Z.abs (q - j) <=? h) (zrange 0 (ncol a)))))).
  apply flat_map_ext_in. intros p Hp. apply zrange_in in Hp. destruct (Z.abs (p - i) <=? h); cbn [andb].
  2:{ induction (zrange 0 (ncol a)) as [|q l IH]; [reflexivity | exact IH]. }
  rewrite flat_map_map. rewrite filter_map.
  assert (G : forall l, (forall q, In q l -> 0 <= q < ncol a) -> map (cell a p) (filter (fun q => negb (nisnan (cell a p q))) (filter (fun q => Z.abs (q - j) <=? h) l))
     = flat_map (fun q => map XFin (if Z.abs (q - j) <=? h then match cell a p q with XFin v => [v] | _ => [] end else [])) l).
  { induction l as [|q l IH]; intros Hl; [reflexivity|]. cbn [filter flat_map]. specialize (IH (fun q' Hq' => Hl q' (or_intror Hq'))).
    destruct (Z.abs (q - j) <=? h); [|exact IH]. cbn [filter]. destruct (FN p q Hp (Hl q (or_introl eq_refl))) as [E|(v & E)]; rewrite E; cbn [nisnan XQnum xisnan negb map app].
    - exact IH.
    - rewrite E. f_equal. exact IH. }
  apply G. intros q Hq. apply zrange_in in Hq. exact Hq.
Qed.
Lemma window_vals_in (a : arr xq) size i j v : In v (window_vals a size i j) <-> exists p q, in_window a size i j p q /\ cell a p q = XFin v.
Proof.
  unfold window_vals, in_window. rewrite in_flat_map. split.
  - intros (p & Hp & H). apply in_flat_map in H as (q & Hq & H). apply zrange_in in Hp. apply zrange_in in Hq. exists p, q.
    destruct (Z.leb_spec (Z.abs (p - i)) (size / 2)), (Z.leb_spec (Z.abs (q - j)) (size / 2)); cbn [andb] in H; try (destruct H; fail).
    destruct (cell a p q) as [|b|u] eqn:E; try (destruct H; fail). destruct H as [<-|[]]. split; [lia | reflexivity].
  - intros (p & q & (P & Q & A & B) & E). exists p. split; [apply zrange_in; exact P|]. apply in_flat_map. exists q. split; [apply zrange_in; exact Q|].
    rewrite (proj2 (Z.leb_le _ _) A), (proj2 (Z.leb_le _ _) B), E. left. reflexivity.
Qed.

(** ** Median and mean *)
Lemma isort_fin l : exists s, isort (map XFin l) = map XFin s /\ Permutation l s /\ StronglySorted Qcle s.
Proof.
  induction l as [|x l (s & E & P & S)]; [exists []; repeat constructor|]. cbn [map isort]. rewrite E. clear E.
  assert (G : exists s', insert (XFin x) (map XFin s) = map XFin s' /\ Permutation (x :: s) s' /\ StronglySorted Qcle s').
  { clear P. induction s as [|y s IH]; [exists [x]; repeat constructor|]. cbn [map insert]. apply StronglySorted_inv in S as (S1 & F). destruct (nltb (XFin y) (XFin x)) eqn:E.
    - destruct (IH S1) as (s' & -> & P' & S'). exists (y :: s'). split; [reflexivity|]. split; [rewrite perm_swap; apply perm_skip, P'|]. constructor; [exact S'|].
      apply Forall_forall. intros z Hz. apply (Permutation_in z (Permutation_sym P')) in Hz. destruct Hz as [<-|Hz]; [apply xq_ltb in E; apply Qclt_le_weak, E | rewrite Forall_forall in F; apply F, Hz].
    - exists (x :: y :: s). split; [reflexivity|]. split; [reflexivity|]. apply xq_ltb_f in E. constructor; [constructor; assumption|]. constructor; [exact E|].
      rewrite Forall_forall in *. intros z Hz. eapply Qcle_trans; [exact E | apply F, Hz]. }
  destruct G as (s' & -> & P' & S'). exists s'. split; [reflexivity|]. split; [|exact S']. rewrite <- P'. apply perm_skip, P.
Qed.
Lemma nth_fin l i d : (i < length l)%nat -> nth i (map XFin l) d = XFin (nth i l 0%Qc).
Proof. intros H. rewrite (nth_indep _ d (XFin 0%Qc)) by (rewrite map_length; exact H). apply map_nth. Qed.
Lemma q2_nz : Qcofz 2 <> 0%Qc. Proof. intros H. apply (f_equal this) in H. discriminate. Qed.
Lemma median_ok l : l <> [] -> exists m, median (map XFin l) = XFin m /\ is_median l m.
Proof.
  intros NE. destruct (isort_fin l) as (s & E & P & S). assert (LS : length s = length l) by (symmetry; apply Permutation_length, P).
  assert (0 < length l)%nat by (destruct l; [congruence | cbn; lia]).
  unfold median, is_median. rewrite E, map_length, LS. destruct (Nat.even (length l)) eqn:EV.
  - assert (2 <= length l)%nat by (destruct l as [|? [|? ?]]; cbn in *; [lia | discriminate | lia]).
    assert (length l / 2 < length l)%nat by (apply Nat.div_lt; lia). assert (1 <= length l / 2)%nat by (apply Nat.div_le_lower_bound; lia).
    rewrite !nth_fin by lia. rewrite xq_add. change (nofZ 2) with (XFin (Qcofz 2)). rewrite xq_div by apply q2_nz. eexists. split; [reflexivity|]. exists s. split; [exact P|]. split; [exact S|].
    field. apply q2_nz.
  - assert (length l / 2 < length l)%nat by (apply Nat.div_lt; lia). rewrite nth_fin by lia. eexists. split; [reflexivity|]. exists s. split; [exact P|]. split; [exact S|]. reflexivity.
Qed.
Lemma qdouble a : (a * Qcofz 2)%Qc = (a + a)%Qc.
Proof. replace (Qcofz 2) with (1 + 1)%Qc by (apply Qc_is_canon; reflexivity). ring. Qed.
Lemma qhalf_le a b c d : (c * Qcofz 2 = a + b)%Qc -> (a <= d)%Qc -> (b <= d)%Qc -> (c <= d)%Qc.
Proof.
  intros E A B. rewrite qdouble in E. assert (c + c <= d + d)%Qc by (rewrite E; apply Qcplus_le_compat; assumption).
  destruct (Qclt_le_dec d c) as [L|L]; [|exact L]. exfalso. apply (Qclt_not_le (d + d) (c + c)); [|assumption]. apply Qclt_trans with (d + c)%Qc; [|rewrite (Qcplus_comm d c)]; unfold Qclt in *; cbn [this Qcplus Q2Qc] in *; rewrite !Qred_correct; lra.
Qed.
Lemma qhalf_ge a b c d : (c * Qcofz 2 = a + b)%Qc -> (d <= a)%Qc -> (d <= b)%Qc -> (d <= c)%Qc.
Proof.
  intros E A B. assert (X : (- c * Qcofz 2 = - a + - b)%Qc) by (replace (- c * Qcofz 2)%Qc with (- (c * Qcofz 2))%Qc by ring; rewrite E; ring).
  apply (qhalf_le _ _ _ (- d)%Qc) in X; [|apply Qcopp_le_compat, A | apply Qcopp_le_compat, B]. apply Qcopp_le_compat in X. rewrite !Qcopp_involutive in X. exact X.
Qed.
Lemma median_between l m lo hi : l <> [] -> is_median l m -> (forall x, In x l -> (lo <= x)%Qc /\ (x <= hi)%Qc) -> (lo <= m)%Qc /\ (m <= hi)%Qc.
Proof.
  intros NE (s & P & _ & M) H. assert (LS : length s = length l) by (symmetry; apply Permutation_length, P). assert (0 < length l)%nat by (destruct l; [congruence | cbn; lia]).
  assert (IN : forall i, (i < length l)%nat -> (lo <= nth i s 0)%Qc /\ (nth i s 0 <= hi)%Qc). { intros i Hi. apply H. apply (Permutation_in _ (Permutation_sym P)), nth_In. lia. }
  assert (length l / 2 < length l)%nat by (apply Nat.div_lt; lia).
  destruct (Nat.even (length l)).
  - destruct (IN (length l / 2 - 1)%nat ltac:(lia)) as (A & B). destruct (IN (length l / 2)%nat ltac:(lia)) as (C & D). split; [eapply qhalf_ge | eapply qhalf_le]; eauto.
  - subst m. apply IN. lia.
Qed.
(** Some value is not above the median. *)
Lemma median_some l m : l <> [] -> is_median l m -> exists x, In x l /\ (x <= m)%Qc.
Proof.
  intros NE (s & P & S & M). assert (LS : length s = length l) by (symmetry; apply Permutation_length, P). assert (0 < length l)%nat by (destruct l; [congruence | cbn; lia]).
  assert (length l / 2 < length l)%nat by (apply Nat.div_lt; lia).
  destruct s as [|x s]; [cbn in LS; lia|]. exists x. split; [apply (Permutation_in _ (Permutation_sym P)); left; reflexivity|].
  assert (F : forall i, (i < length l)%nat -> (x <= nth i (x :: s) 0)%Qc). { intros i Hi. apply StronglySorted_inv in S as (_ & F). rewrite Forall_forall in F. destruct i as [|i]; [apply Qcle_refl|]. cbn [nth]. apply F, nth_In. cbn [length] in LS. lia. }
  destruct (Nat.even (length l)); [|subst m; apply F; lia]. eapply qhalf_ge; [exact M | apply F; lia | apply F; lia].
Qed.
Lemma fold_add_fin l : forall a, fold_left nadd (map XFin l) (XFin a) = XFin (a + qtotal l)%Qc.
Proof. induction l as [|x l IH]; intros a; cbn [map fold_left qtotal fold_right]; [f_equal; ring|]. rewrite xq_add, IH. fold (qtotal l). f_equal. ring. Qed.
Lemma qcofz_pos n : 0 < n -> (0 < Qcofz n)%Qc.
Proof. intros H. unfold Qclt, Qcofz. cbn [this Q2Qc]. rewrite !Qred_correct. unfold Qlt, inject_Z. cbn. lia. Qed.
Lemma mean_ok l : l <> [] -> exists v, mean (map XFin l) = XFin v /\ is_mean l v.
Proof.
  intros NE. assert (0 < length l)%nat by (destruct l; [congruence | cbn; lia]). assert (NZ : Qcofz (Z.of_nat (length l)) <> 0%Qc) by (apply qc_pos_nz, qcofz_pos; lia).
  unfold mean, is_mean. rewrite n0_xq, fold_add_fin, map_length. change (nofZ (Z.of_nat (length l))) with (XFin (Qcofz (Z.of_nat (length l)))). rewrite xq_div by exact NZ.
  eexists. split; [reflexivity|]. split; [exact NE|]. field. exact NZ.
Qed.
Lemma qcofz_add a b : Qcofz (a + b) = (Qcofz a + Qcofz b)%Qc.
Proof. apply Qc_is_canon. unfold Qcofz. cbn [this Q2Qc Qcplus]. rewrite !Qred_correct. rewrite inject_Z_plus. reflexivity. Qed.
Lemma total_between l lo hi : (forall x, In x l -> (lo <= x)%Qc /\ (x <= hi)%Qc) -> (lo * Qcofz (Z.of_nat (length l)) <= qtotal l)%Qc /\ (qtotal l <= hi * Qcofz (Z.of_nat (length l)))%Qc.
Proof.
  induction l as [|x l IH]; intros H.
  - cbn [length qtotal fold_right]. change (Qcofz (Z.of_nat 0)) with (Qcofz 0). replace (Qcofz 0) with 0%Qc by (apply Qc_is_canon; reflexivity). split; (replace (_ * 0)%Qc with 0%Qc by ring; apply Qcle_refl).
  - destruct (H x (or_introl eq_refl)) as (A & B). destruct (IH (fun y Hy => H y (or_intror Hy))) as (C & D). cbn [length qtotal fold_right]. fold (qtotal l).
    replace (Z.of_nat (S (length l))) with (1 + Z.of_nat (length l)) by lia. rewrite qcofz_add, qc1_eq.
    split; (match goal with |- (?u * (1 + ?n) <= _)%Qc => replace (u * (1 + n))%Qc with (u + u * n)%Qc by ring | |- (_ <= ?u * (1 + ?n))%Qc => replace (u * (1 + n))%Qc with (u + u * n)%Qc by ring end; apply Qcplus_le_compat; assumption).
Qed.
Lemma mean_between l v lo hi : is_mean l v -> (forall x, In x l -> (lo <= x)%Qc /\ (x <= hi)%Qc) -> (lo <= v)%Qc /\ (v <= hi)%Qc.
Proof.
  intros (NE & E) H. destruct (total_between l lo hi H) as (A & B). rewrite <- E in A, B.
  assert (0 < length l)%nat by (destruct l; [congruence | cbn; lia]). assert (NP : (0 < Qcofz (Z.of_nat (length l)))%Qc) by (apply qcofz_pos; lia).
  split; (eapply Qcmult_lt_0_le_reg_r; [exact NP | assumption]).
Qed.
Lemma dist_ok m x : nabs (nsub (XFin x) (XFin m)) = XFin (dist m x).
Proof.
  rewrite xq_sub. unfold dist. cbn [nabs XQnum xabs]. destruct (Qcleb qc0 (x - m)) eqn:E.
  - apply (xq_leb 0%Qc) in E. destruct (Qclt_le_dec (x - m) 0) as [L|L]; [exfalso; apply (Qclt_not_le _ _ L E) | reflexivity].
  - apply (xq_leb_f 0%Qc) in E. destruct (Qclt_le_dec (x - m) 0) as [L|L]; [f_equal; ring | exfalso; apply (Qclt_not_le _ _ E L)].
Qed.
Lemma dist_nn m x : (0 <= dist m x)%Qc.
Proof. unfold dist. destruct (Qclt_le_dec (x - m) 0) as [L|L]; [|exact L]. apply Qclt_le_weak in L. apply Qcopp_le_compat in L. replace (- (x - m))%Qc with (m - x)%Qc in L by ring. exact L. Qed.

(** The value of the filter. *)
Lemma mad_value_ok l thr : l <> [] -> (1 <= thr)%Qc -> exists m d v, mad_value (map XFin l) (XFin thr) = XFin v /\ is_median l m /\ is_median (map (dist m) l) d /\
  (d = 0%Qc -> v = m) /\ (d <> 0%Qc -> is_mean (filter (fun x => Qcleb (dist m x) (thr * d)) l) v).
Proof.
  intros NE TH. destruct (median_ok l NE) as (m & E & M). unfold mad_value. cbv zeta. rewrite E. rewrite map_map. rewrite (map_ext (fun x => nabs (nsub (XFin x) (XFin m))) (fun x => XFin (dist m x))) by (intros; apply dist_ok).
  rewrite <- (map_map (dist m) XFin). assert (NE' : map (dist m) l <> []) by (destruct l; [congruence | discriminate]).
  destruct (median_ok _ NE') as (d & E' & D). rewrite E'. exists m, d. destruct (neqb (XFin d) n0) eqn:Z0.
  - rewrite n0_xq in Z0. apply xq_eqb in Z0. exists m. split; [reflexivity|]. split; [exact M|]. split; [exact D|]. split; [reflexivity | intros; contradiction].
  - assert (DN : d <> 0%Qc) by (intros ->; rewrite n0_xq in Z0; rewrite (proj2 (xq_eqb _ _) eq_refl) in Z0; discriminate).
    rewrite filter_map. rewrite (filter_ext _ (fun x => Qcleb (dist m x) (thr * d))). 2:{ intros x. rewrite dist_ok, xq_mul. reflexivity. }
    assert (FN : filter (fun x => Qcleb (dist m x) (thr * d)) l <> []).
    { destruct (median_some _ _ NE' D) as (y & Hy & LE). apply in_map_iff in Hy as (x & <- & Hx). intros C.
      assert (I : In x (filter (fun x => Qcleb (dist m x) (thr * d)) l)); [|rewrite C in I; destruct I]. apply filter_In. split; [exact Hx|].
      apply (xq_leb (dist m x)). eapply Qcle_trans; [exact LE|]. assert (D0 : (0 <= d)%Qc) by (eapply Qcle_trans; [apply (dist_nn m x) | exact LE]).
      replace d with (1 * d)%Qc at 1 by ring. apply Qcmult_le_compat_r; assumption. }
    destruct (mean_ok _ FN) as (v & EV & MV). exists v. split.
    + destruct (filter (fun x => Qcleb (dist m x) (thr * d)) l); [congruence | exact EV].
    + split; [exact M|]. split; [exact D|]. split; [intros; contradiction | intros _; exact MV].
Qed.
Lemma mad_value_between l thr v lo hi : l <> [] -> (1 <= thr)%Qc -> mad_value (map XFin l) (XFin thr) = XFin v -> (forall x, In x l -> (lo <= x)%Qc /\ (x <= hi)%Qc) -> (lo <= v)%Qc /\ (v <= hi)%Qc.
Proof.
  intros NE TH E H. destruct (mad_value_ok l thr NE TH) as (m & d & v' & E' & M & _ & A & B). rewrite E in E'. injection E' as <-.
  destruct (Qc_eq_dec d 0) as [e|e]; [rewrite (A e); apply (median_between l); assumption|]. apply (mean_between _ v lo hi (B e)). intros x Hx. apply filter_In in Hx as (Hx & _). apply H, Hx.
Qed.
Lemma mad_filter_cell (a : arr xq) size thr i j : finite_or_nan a -> 0 <= size -> 0 <= i < nrow a -> 0 <= j < ncol a ->
  cell (mad_filter a size thr) i j = match cell a i j with XNaN => XNaN | _ => mad_value (map XFin (window_vals a size i j)) thr end /\
  (cell a i j <> XNaN -> window_vals a size i j <> []).
Proof.
  intros FN HS HI HJ. assert (NE : cell a i j <> XNaN -> window_vals a size i j <> []).
  { intros NN C. destruct (FN i j HI HJ) as [E|(v & E)]; [contradiction|]. assert (I : In v (window_vals a size i j)); [|rewrite C in I; destruct I].
    apply window_vals_in. exists i, j. split; [|exact E]. assert (0 <= size / 2) by (apply Z.div_pos; lia). unfold in_window. lia. }
  split; [|exact NE]. unfold mad_filter. cbn [cell]. rewrite window_ok by assumption. destruct (FN i j HI HJ) as [E|(v & E)]; rewrite E in *; cbn [nisnan XQnum xisnan]; [reflexivity|].
  specialize (NE ltac:(discriminate)). destruct (window_vals a size i j); [congruence | reflexivity].
Qed.
