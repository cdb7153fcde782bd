(** The exposure-time distribution in binary64. *)
From Coq Require Import ZArith Bool String List Reals Lra Lia Psatz Permutation Sorted.
From Flocq Require Import Core IEEE754.BinarySingleNaN.
From Verif Require Import Num NumFacts F64 F64Laws NumPost F64Lin Py Walker SpecPick ParticleTrack SpecWalk PostProc Grid Routines SpecRout SpecEtd ProofStep ProofCoord ProofExposure ProofNour ProofPick ProofPct ProofRout ProofRout2.
Import ListNotations.
Open Scope Z_scope.
Open Scope res_scope.

Local Existing Instance prec_gt_0.
Local Existing Instance prec_lt_emax.

Section Gen.
Context {T : Type} {N : Num T} {L : NumLaws T}.
Lemma filter_filter {A} (p q : A -> bool) l : filter q (filter p l) = filter (fun x => p x && q x) l.
Proof. induction l as [|a l IH]; [reflexivity|]. cbn [filter]. destruct (p a); cbn [filter andb]; [destruct (q a)|]; rewrite IH; reflexivity. Qed.
Lemma filter_false {A} (p : A -> bool) l : (forall a, In a l -> p a = false) -> filter p l = [].
Proof. induction l as [|a l IH]; intros H; [reflexivity|]. cbn [filter]. rewrite H by (left; reflexivity). apply IH. intros b Hb. apply H. right. exact Hb. Qed.
Lemma filter_short {A} (p : A -> bool) l : (length (filter p l) <= length l)%nat.
Proof. induction l as [|a l IH]; [reflexivity|]. cbn [filter]. destruct (p a); cbn [length]; lia. Qed.
Lemma included_eq (ets : list T) e : included ets e = left_region ets e.
Proof. unfold included, left_region. apply filter_filter. Qed.
Lemma perm_filter {A} (p : A -> bool) l l' : Permutation l l' -> length (filter p l) = length (filter p l').
Proof. intros H. induction H; cbn [filter]; try (destruct (p x); cbn [length]; congruence); try reflexivity; [destruct (p x), (p y); reflexivity | congruence]. Qed.

(** Value of the step function with sorted jump positions. *)
Lemma step_fold (x : T) r : forall acc, StronglySorted (fun p q => nleb (fst p) (fst q) = true) r ->
  fold_left (fun acc (p : T * T) => if nleb (fst p) x then snd p else acc) r acc = nth (length (filter (fun p => nleb (fst p) x) r)) (acc :: map snd r) nnan.
Proof.
  induction r as [|p r IH]; intros acc S; [reflexivity|]. cbn [fold_left filter map]. apply StronglySorted_inv in S as (S & F). destruct (nleb (fst p) x) eqn:E.
  - rewrite IH by exact S. reflexivity.
  - rewrite filter_false. 2:{ intros q Hq. rewrite Forall_forall in F. specialize (F q Hq). destruct (nleb (fst q) x) eqn:X; [|reflexivity]. rewrite (leb_trans _ _ _ F X) in E. discriminate. }
    cbn [length nth]. clear IH. rewrite Forall_forall in F. revert acc. induction r as [|q r IH]; intros acc; [reflexivity|]. cbn [fold_left].
    destruct (nleb (fst q) x) eqn:X; [rewrite (leb_trans _ _ _ (F q (or_introl eq_refl)) X) in E; discriminate|]. apply IH; [apply StronglySorted_inv in S; apply S | intros z Hz; apply F; right; exact Hz].
Qed.
Lemma psort_id (l : list (T * T)) : StronglySorted (fun p q => nleb (fst p) (fst q) = true) l -> psort l = l.
Proof.
  induction l as [|p l IH]; intros S; [reflexivity|]. unfold psort in *. cbn [fold_right]. apply StronglySorted_inv in S as (S & F). rewrite IH by exact S. destruct l as [|q l]; [reflexivity|]. cbn [pinsert].
  rewrite Forall_forall in F. specialize (F q (or_introl eq_refl)). rewrite ltb_def, F, andb_false_r. reflexivity.
Qed.
Lemma combine_fst {A B} (l : list A) (l' : list B) : length l = length l' -> map fst (combine l l') = l.
Proof. revert l'. induction l as [|a l IH]; intros [|b l'] H; try discriminate; [reflexivity|]. cbn [combine map fst]. f_equal. apply IH. injection H as H. exact H. Qed.
Lemma combine_snd {A B} (l : list A) (l' : list B) : length l = length l' -> map snd (combine l l') = l'.
Proof. revert l'. induction l as [|a l IH]; intros [|b l'] H; try discriminate; [reflexivity|]. cbn [combine map snd]. f_equal. apply IH. injection H as H. exact H. Qed.
Lemma sorted_fst {A B} (R : A -> A -> Prop) (l : list (A * B)) : StronglySorted R (map fst l) -> StronglySorted (fun p q => R (fst p) (fst q)) l.
Proof.
  induction l as [|p l IH]; intros S; [constructor|]. cbn [map] in S. apply StronglySorted_inv in S as (S & F). constructor; [apply IH, S|].
  rewrite Forall_forall in *. intros q Hq. apply F, in_map, Hq.
Qed.
Lemma filter_fst {A B} (p : A -> bool) (l : list (A * B)) : length (filter (fun x => p (fst x)) l) = length (filter p (map fst l)).
Proof. induction l as [|x l IH]; [reflexivity|]. cbn [filter map]. destruct (p (fst x)); cbn [length]; rewrite IH; reflexivity. Qed.
Lemma last_nth {A} (l : list A) d : last l d = nth (length l - 1) l d.
Proof.
  induction l as [|a l IH]; [reflexivity|]. destruct l as [|b l]; [reflexivity|]. change (last (a :: b :: l) d) with (last (b :: l) d). rewrite IH.
  cbn [length]. replace (S (S (length l)) - 1)%nat with (S (length l)) by lia. replace (S (length l) - 1)%nat with (length l) by lia. reflexivity.
Qed.
Lemma ss_app (R : T -> T -> Prop) l l' : StronglySorted R l -> StronglySorted R l' -> (forall a b, In a l -> In b l' -> R a b) -> StronglySorted R (l ++ l').
Proof.
  induction l as [|x l IH]; intros S S' H; [exact S'|]. cbn [app]. apply StronglySorted_inv in S as (S & F). constructor; [apply IH; [exact S | exact S' | intros; apply H; [right|]; assumption]|].
  apply Forall_forall. intros y Hy. apply in_app_or in Hy as [Hy|Hy]; [rewrite Forall_forall in F; apply F, Hy | apply H; [left; reflexivity | exact Hy]].
Qed.
Lemma ss_nth (l : list T) : StronglySorted (fun a b => nleb a b = true) l -> (forall x, In x l -> nisnan x = false) -> nondecreasing l.
Proof.
  intros S NN i j I J. destruct (Nat.eq_dec i j) as [->|NE]; [apply leb_refl, NN, nth_In, J|].
  revert i j I J NE. induction S as [|x l S IH F]; intros i j I J NE; [cbn in J; lia|]. cbn [length] in J. rewrite Forall_forall in F.
  destruct j as [|j]; [lia|]. destruct i as [|i]; cbn [nth]; [apply F, nth_In; lia|]. apply IH; [intros; apply NN; right; assumption | lia | lia | lia].
Qed.
(** In a sorted list, at least i + 1 entries are <= entry i, and at most i entries are <= anything below entry i. *)
Lemma count_ge (l : list T) i : StronglySorted (fun a b => nleb a b = true) l -> (forall x, In x l -> nisnan x = false) -> (i < length l)%nat -> (S i <= length (filter (fun s => nleb s (nth i l nnan)) l))%nat.
Proof.
  intros S NN Hi. pose proof (ss_nth l S NN) as ND. assert (C : forall k, (k <= i)%nat -> nleb (nth k l nnan) (nth i l nnan) = true) by (intros; apply ND; lia).
  generalize dependent (nth i l nnan). intros c C. rewrite <- (firstn_skipn (Datatypes.S i) l). rewrite filter_app, app_length.
  rewrite (filter_all _ (firstn _ l)); [rewrite firstn_length; lia|]. intros a Ha. apply (In_nth _ _ nnan) in Ha as (k & Hk & <-). rewrite firstn_length in Hk.
  assert (E : nth k (firstn (Datatypes.S i) l) nnan = nth k l nnan). { rewrite <- (firstn_skipn (Datatypes.S i) l) at 2. rewrite app_nth1; [reflexivity | rewrite firstn_length; lia]. }
  rewrite E. apply C; lia.
Qed.
Lemma count_lt (l : list T) i t : StronglySorted (fun a b => nleb a b = true) l -> (forall x, In x l -> nisnan x = false) -> (i < length l)%nat -> nltb t (nth i l nnan) = true -> (length (filter (fun s => nleb s t) l) <= i)%nat.
Proof.
  intros S NN Hi LT. pose proof (ss_nth l S NN) as ND. rewrite <- (firstn_skipn i l). rewrite filter_app, app_length.
  rewrite (filter_false _ (skipn i l)).
  - pose proof (filter_short (fun s => nleb s t) (firstn i l)). rewrite firstn_length in H. cbn [length]. lia.
  - intros a Ha. apply (In_nth _ _ nnan) in Ha as (k & Hk & <-). rewrite skipn_length in Hk.
    assert (E : nth k (skipn i l) nnan = nth (i + k) l nnan). { rewrite <- (firstn_skipn i l) at 2. rewrite app_nth2; rewrite firstn_length; [f_equal; lia | lia]. }
    rewrite E. destruct (nleb (nth (i + k) l nnan) t) eqn:X; [|reflexivity]. rewrite ltb_def in LT. apply andb_true_iff in LT as (_ & LT).
    rewrite (leb_trans _ _ _ (ND i (i + k)%nat ltac:(lia) ltac:(lia)) X) in LT. discriminate.
Qed.
End Gen.

Section Max.
Context {T : Type} {N : Num T} {L : NumLaws T}.
Lemma np_max_ok (l : list T) : l <> [] -> (forall x, In x l -> nisnan x = false) -> In (np_max l) l /\ forall x, In x l -> nleb x (np_max l) = true.
Proof.
  destruct l as [|a r]; [congruence|]. intros _ NN. cbn [np_max].
  assert (NA : nisnan a = false) by (apply NN; left; reflexivity). assert (NR : forall x, In x r -> nisnan x = false) by (intros; apply NN; right; assumption). clear NN.
  revert a NA. induction r as [|b r IH]; intros a NA; cbn [fold_left].
  - split; [left; reflexivity|]. intros x [<-|[]]. apply leb_refl, NA.
  - pose proof (NR b (or_introl eq_refl)) as NB. unfold np_max2 at 2 4. rewrite NA, NB. destruct (nltb a b) eqn:E.
    + destruct (IH (fun x Hx => NR x (or_intror Hx)) b NB) as (I & M). split; [right; exact I|]. intros x [<-|Hx]; [|apply M, Hx].
      rewrite ltb_def in E. apply andb_true_iff in E as (E & _). eapply leb_trans; [exact E | apply M; left; reflexivity].
    + destruct (IH (fun x Hx => NR x (or_intror Hx)) a NA) as (I & M). split; [destruct I as [<-|I]; [left; reflexivity | right; right; exact I]|].
      intros x [<-|[<-|Hx]]; [apply M; left; reflexivity | | apply M; right; exact Hx]. eapply leb_trans; [|apply M; left; reflexivity].
      rewrite ltb_def in E. destruct (leb_total b a NB NA) as [K|K]; [exact K|]. rewrite K in E. cbn in E. apply negb_false_iff in E. exact E.
Qed.
End Max.

(** ** Fractions and thresholds *)
Definition threshold (m k a b : Z) : Prop := (m, k, a, b) = (5, 1, 1, 2) \/ (m, k, a, b) = (75, 2, 3, 4) \/ (m, k, a, b) = (9, 1, 9, 10).
Section Frac.
Variable np : Z.
Hypothesis NP : 1 <= np <= 9007199254740992.
Definition frac (i : Z) : f64 := ndiv (nofZ i) (nofZ np).
Lemma np_ok : nltb n0 (nofZ np : f64) = true /\ nisfin (nofZ np : f64) = true.
Proof. split; [apply ofZ_lt; lia | apply ofZ_fin; lia]. Qed.
Lemma frac_mono i j : i <= j -> nleb (frac i) (frac j) = true.
Proof. intros H. destruct np_ok as (A & B). apply f_div_mono; [apply ofZ_le; exact H | exact A | exact B]. Qed.
Lemma frac_0 : frac 0 = n0.
Proof. destruct np_ok as (A & B). apply div_0; assumption. Qed.
Lemma frac_le1 i : i <= np -> nleb (frac i) n1 = true.
Proof. intros H. destruct np_ok as (A & B). rewrite <- (div_self (nofZ np) A B). apply frac_mono, H. Qed.
Lemma frac_nan i : 0 <= i -> nisnan (frac i) = false.
Proof. intros H. apply leb_nan_r with (frac 0), frac_mono, H. Qed.
Lemma frac_V i : 0 <= i <= np -> V (frac i) (IZR i / IZR np).
Proof.
  intros H. unfold frac. cbn [ndiv nofZ F64num]. destruct (fofZ_exact i ltac:(lia)) as (Fi & Bi). destruct (fofZ_exact np ltac:(lia)) as (Fn & Bn).
  rewrite <- Bi, <- Bn. apply fdiv_V; [exact Fi | exact Fn|]. rewrite Bn. apply IZR_neq. lia.
Qed.

Hypothesis NP30 : np <= 1073741824.
Lemma eps_ok : is_finite (ndec 1 12 : f64) = true /\ (0 <= B2R (ndec 1 12 : f64) <= / 549755813888)%R.
Proof.
  unfold ndec. cbn [ndiv nofZ F64num]. destruct (fofZ_exact 1 ltac:(lia)) as (Fm & Bm). destruct (fofZ_exact (10 ^ 12) ltac:(cbn; lia)) as (Fk & Bk).
  change (10 ^ 12) with 1000000000000 in *. pose proof (fdiv_V _ _ Fm Fk ltac:(rewrite Bk; lra)) as HV. rewrite Bm, Bk in HV.
  destruct (fmk_exact 1 (-39)) as (Fh & Bh); [simpl; lia | lia |]. assert (Eh : F2R (Float radix2 1 (-39)) = (/ 549755813888)%R) by (unfold F2R; simpl; lra). rewrite Eh in Bh.
  destruct (V_fin_between _ _ (fofZ 0) (fmk 1 (-39)) HV eq_refl Fh) as (F & B); [rewrite Bh; simpl; lra|]. rewrite Bh in B. simpl in B. split; [exact F | exact B].
Qed.
Lemma frac_fin i : 0 <= i <= np -> is_finite (frac i) = true.
Proof. intros H. destruct (V_fin_between _ _ (fofZ 0) (fofZ 1) (frac_V i H) eq_refl fin_1) as (F & _); [|exact F]. rewrite B2R_1. simpl B2R.
  assert (P : (0 < IZR np)%R) by (apply IZR_lt; lia). assert (I0 : (0 <= IZR i <= IZR np)%R) by (split; apply IZR_le; lia). unfold Rdiv. split; [apply Rmult_le_pos; [lra | left; apply Rinv_0_lt_compat, P]|].
  rewrite <- (Rinv_r (IZR np)) by lra. apply Rmult_le_compat_r; [left; apply Rinv_0_lt_compat, P | lra].
Qed.
Lemma frac_cmp m k a b i : threshold m k a b -> 0 <= i <= np ->
  nleb (ndec m k) (frac i) = (a * np <=? b * i) /\ nleb (ndec m k) (nadd (frac i) (ndec 1 12)) = (a * np <=? b * i).
Proof.
  intros TH Hi. pose proof (frac_V i Hi) as FV. pose proof (frac_fin i Hi) as FF. destruct eps_ok as (FE & BE).
  assert (PN : (0 < IZR np)%R) by (apply IZR_lt; lia).
  (* the literal *)
  assert (LV : exists C, 0 <= C - 5 /\ C < 2 ^ 53 /\ V (ndec m k : f64) (IZR a / IZR b) /\ (IZR C <= IZR a / IZR b * 68719476736 < IZR C + 1)%R /\ 2 <= b <= 10 /\ 0 < a).
  { destruct TH as [E|[E|E]]; injection E as -> -> -> ->.
    - exists 34359738368. assert (HV : V (ndec 5 1 : f64) (5 / 10)). { unfold ndec. cbn [ndiv nofZ F64num]. change (10 ^ 1) with 10. destruct (fofZ_exact 5 ltac:(lia)) as (F1 & B1). destruct (fofZ_exact 10 ltac:(lia)) as (F2 & B2). rewrite <- B1, <- B2. apply fdiv_V; auto. rewrite B2. lra. }
      replace (5 / 10)%R with (1 / 2)%R in HV by lra. repeat split; try lia; try exact HV; lra.
    - exists 51539607552. assert (HV : V (ndec 75 2 : f64) (75 / 100)). { unfold ndec. cbn [ndiv nofZ F64num]. change (10 ^ 2) with 100. destruct (fofZ_exact 75 ltac:(lia)) as (F1 & B1). destruct (fofZ_exact 100 ltac:(lia)) as (F2 & B2). rewrite <- B1, <- B2. apply fdiv_V; auto. rewrite B2. lra. }
      replace (75 / 100)%R with (3 / 4)%R in HV by lra. repeat split; try lia; try exact HV; lra.
    - exists 61847529062. assert (HV : V (ndec 9 1 : f64) (9 / 10)). { unfold ndec. cbn [ndiv nofZ F64num]. change (10 ^ 1) with 10. destruct (fofZ_exact 9 ltac:(lia)) as (F1 & B1). destruct (fofZ_exact 10 ltac:(lia)) as (F2 & B2). rewrite <- B1, <- B2. apply fdiv_V; auto. rewrite B2. lra. }
      repeat split; try lia; try exact HV; lra. }
  destruct LV as (C & C0 & C1 & LV & (Q1 & Q2) & HB & HA). generalize dependent (ndec m k : f64). intros lit LV.
  assert (PB : (2 <= IZR b <= 10)%R) by (split; apply IZR_le; lia).
  destruct (Z.leb_spec (a * np) (b * i)) as [LE|GT].
  - apply IZR_le in LE. rewrite !mult_IZR in LE.
    assert (Q : (IZR a / IZR b <= IZR i / IZR np)%R). { apply Rmult_le_reg_r with (IZR b * IZR np)%R; [apply Rmult_lt_0_compat; lra|]. field_simplify; lra. }
    assert (X : nleb lit (frac i) = true) by (cbn [nleb F64num]; eapply V_mono; eassumption). split; [exact X|].
    eapply leb_trans; [exact X|]. apply add_nn_l; [unfold nn; rewrite <- frac_0; apply frac_mono; lia|]. unfold nn, n0. cbn [nleb nofZ F64num]. apply leb_0; [exact FE | lra].
  - assert (GT' : b * i + 1 <= a * np) by lia. apply IZR_le in GT'. rewrite plus_IZR, !mult_IZR in GT'.
    assert (NPB : (IZR np <= 1073741824)%R) by (apply IZR_le; lia).
    destruct (fmk_exact C (-36)) as (Fc & Bc); [lia | lia |]. destruct (fmk_exact (C - 5) (-36)) as (Fd & Bd); [lia | lia |]. destruct (fmk_exact (C - 4) (-36)) as (Fg & Bg); [lia | lia |].
    assert (SC : forall z, F2R (Float radix2 z (-36)) = (IZR z / 68719476736)%R) by (intros z; unfold F2R; simpl; lra). rewrite SC in Bc, Bd, Bg. rewrite minus_IZR in Bd, Bg.
    assert (LC : Bleb (fmk C (-36)) lit = true). { eapply V_leb_r; [exact LV | exact Fc|]. rewrite Bc. lra. }
    assert (U : (IZR i / IZR np <= (IZR C - 5) / 68719476736)%R).
    { assert (Y : (IZR i / IZR np <= IZR a / IZR b - / (IZR b * IZR np))%R). { apply Rmult_le_reg_r with (IZR b * IZR np)%R; [apply Rmult_lt_0_compat; lra|]. field_simplify; lra. }
      assert (Z1 : (/ 10737418240 <= / (IZR b * IZR np))%R). { apply Rinv_le_contravar; [apply Rmult_lt_0_compat; lra|]. apply Rle_trans with (10 * IZR np)%R; [apply Rmult_le_compat_r; lra | lra]. }
      apply Rle_trans with (IZR a / IZR b - / 10737418240)%R; [lra|]. lra. }
    assert (FD : Bleb (frac i) (fmk (C - 5) (-36)) = true). { eapply V_leb_l; [exact FV | exact Fd|]. rewrite Bd. exact U. }
    assert (FB : (B2R (frac i) <= (IZR C - 5) / 68719476736)%R). { apply leb_R in FD; [|exact FF | exact Fd]. rewrite Bd in FD. exact FD. }
    assert (SD : Bleb (fadd (frac i) (ndec 1 12)) (fmk (C - 4) (-36)) = true). { eapply V_leb_l; [apply fadd_V; [exact FF | exact FE] | exact Fg|]. rewrite Bg. lra. }
    assert (GC : Bleb (fmk C (-36)) (fmk (C - 4) (-36)) = false) by (apply leb_R_false; [exact Fc | exact Fg | rewrite Bc, Bg; lra]).
    assert (DG : Bleb (fmk (C - 5) (-36)) (fmk (C - 4) (-36)) = true) by (apply leb_R; [exact Fd | exact Fg | rewrite Bd, Bg; lra]).
    cbn [nleb nadd F64num]. split.
    + destruct (Bleb lit (frac i)) eqn:X; [|reflexivity]. rewrite <- GC. symmetry. eapply f_leb_trans; [exact LC|]. eapply f_leb_trans; [exact X|]. eapply f_leb_trans; [exact FD | exact DG].
    + destruct (Bleb lit (fadd (frac i) (ndec 1 12))) eqn:X; [|reflexivity]. rewrite <- GC. symmetry. eapply f_leb_trans; [exact LC|]. eapply f_leb_trans; [exact X | exact SD].
Qed.
End Frac.

(** ** The curve *)
Lemma lits_etd : nleb n0 (ndec 1 6 : f64) = true /\ nleb n0 (ndec 99 2 : f64) = true /\ nleb (ndec 99 2 : f64) n1 = true.
Proof. repeat split; vm_compute; reflexivity. Qed.
Section Curve.
Variable ets : list f64.
Variable e : f64.
Variable np : Z.
Hypothesis NP : 1 <= np <= 9007199254740992.
Hypothesis E0 : nleb n0 e = true.
Hypothesis EF : nisfin e = true.
Hypothesis LN : Z.of_nat (length ets) <= np.
Notation le := (fun a b : f64 => nleb a b = true).
Let s := isort (left_region ets e).
Let n := length s.

Lemma left_bounds t : In t (left_region ets e) -> nleb n0 t = true /\ nleb t e = true.
Proof.
  unfold left_region. rewrite filter_In, andb_true_iff. intros (_ & A & B). destruct lits_etd as (L1 & L2 & L3). rewrite ltb_def in A, B. apply andb_true_iff in A as (A & _). apply andb_true_iff in B as (B & _).
  split; [exact (leb_trans _ _ _ L1 A)|]. eapply leb_trans; [exact B|]. apply mul_le_l; assumption.
Qed.
Lemma s_in t : In t s <-> In t (left_region ets e).
Proof. split; apply Permutation_in; [apply Permutation_sym|]; apply isort_perm. Qed.
Lemma s_nan t : In t s -> nisnan t = false.
Proof. intros H. apply s_in, left_bounds in H. eapply leb_nan_r, H. Qed.
Lemma s_sorted : StronglySorted le s.
Proof. apply sorted_strong, isort_sorted. intros y Hy. eapply leb_nan_r. apply left_bounds, Hy. Qed.
Lemma s_len : length (left_region ets e) = n.
Proof. apply Permutation_length, isort_perm. Qed.
Lemma n_le : Z.of_nat n <= np.
Proof. rewrite <- s_len. pose proof (filter_short (fun t => nltb (ndec 1 6) t && nltb t (nmul (ndec 99 2) e)) ets). unfold left_region. lia. Qed.
Lemma e_nan : nisnan e = false.
Proof. eapply leb_nan_r, E0. Qed.
Lemma left_by_s t : left_by ets e t = length (filter (fun x => nleb x t) s).
Proof. unfold left_by. apply perm_filter, isort_perm. Qed.
Lemma left_by_le t : (left_by ets e t <= n)%nat.
Proof. rewrite left_by_s. apply filter_short. Qed.
Lemma left_by_mono t u : nleb t u = true -> (left_by ets e t <= left_by ets e u)%nat.
Proof.
  intros H. unfold left_by. induction (left_region ets e) as [|x l IH]; [reflexivity|]. cbn [filter].
  destruct (nleb x t) eqn:X; [rewrite (leb_trans _ _ _ X H); cbn [length]; apply le_n_S, IH|]. destruct (nleb x u); cbn [length]; [apply le_S, IH | apply IH].
Qed.
Lemma left_by_end t : nleb e t = true -> left_by ets e t = n.
Proof. intros H. unfold left_by. rewrite filter_all; [apply s_len|]. intros x Hx. eapply leb_trans; [apply left_bounds, Hx | exact H]. Qed.

Lemma times_eq : cdf_times ets e = n0 :: s ++ [e].
Proof. unfold cdf_times. rewrite included_eq. reflexivity. Qed.
Lemma times_sorted : StronglySorted le (cdf_times ets e).
Proof.
  rewrite times_eq. constructor.
  - apply ss_app; [apply s_sorted | constructor; [constructor | constructor] |]. intros a b Ha [<-|[]]. apply s_in in Ha. apply left_bounds, Ha.
  - apply Forall_forall. intros x Hx. apply in_app_or in Hx as [Hx|[<-|[]]]; [apply s_in in Hx; apply left_bounds, Hx | exact E0].
Qed.
Lemma times_nan x : In x (cdf_times ets e) -> nisnan x = false.
Proof. rewrite times_eq. intros [<-|H]; [reflexivity|]. apply in_app_or in H as [H|[<-|[]]]; [apply s_nan, H | apply e_nan]. Qed.
Lemma times_len : length (cdf_times ets e) = (n + 2)%nat.
Proof. rewrite times_eq. cbn [length]. rewrite app_length. cbn [length]. fold n. lia. Qed.
Lemma fracs_eq : cdf_fracs ets e np = map (frac np) (zrange 0 (Z.of_nat n + 1)) ++ [frac np (Z.of_nat n)].
Proof. unfold cdf_fracs. rewrite included_eq, s_len. reflexivity. Qed.
Lemma fracs_len : length (cdf_fracs ets e np) = (n + 2)%nat.
Proof. rewrite fracs_eq, app_length, map_length, zrange_len. cbn [length]. lia. Qed.
Lemma fracs_nth i d : (i <= n)%nat -> nth i (cdf_fracs ets e np) d = frac np (Z.of_nat i).
Proof.
  intros H. rewrite fracs_eq, app_nth1 by (rewrite map_length, zrange_len; lia). rewrite (nth_indep _ d (frac np 0)) by (rewrite map_length, zrange_len; lia).
  rewrite map_nth. rewrite zrange_nth by lia. f_equal.
Qed.
Lemma fracs_last d : nth (S n) (cdf_fracs ets e np) d = frac np (Z.of_nat n).
Proof. rewrite fracs_eq, app_nth2 by (rewrite map_length, zrange_len; lia). rewrite map_length, zrange_len. replace (S n - _)%nat with 0%nat by lia. reflexivity. Qed.
Lemma fracs_at i d : (i < n + 2)%nat -> nth i (cdf_fracs ets e np) d = frac np (Z.of_nat (Nat.min i n)).
Proof.
  intros H. destruct (Nat.eq_dec i (S n)) as [->|NE]; [rewrite fracs_last; do 2 f_equal; lia|]. rewrite fracs_nth by lia. do 2 f_equal. lia.
Qed.
Lemma fracs_mono : nondecreasing (cdf_fracs ets e np).
Proof. intros i j I J. rewrite fracs_len in J. rewrite !fracs_at by lia. apply frac_mono; [exact NP | lia]. Qed.
Lemma fracs_in x : In x (cdf_fracs ets e np) -> exists i, (i <= n)%nat /\ x = frac np (Z.of_nat i).
Proof. intros H. apply (In_nth _ _ nnan) in H as (i & Hi & <-). rewrite fracs_len in Hi. exists (Nat.min i n). split; [lia | apply fracs_at, Hi]. Qed.

(** The interpolated value is the fraction that has left. *)
Lemma interp_ok x : nleb n0 x = true -> nleb x e = true ->
  interp_prev (combine (cdf_times ets e) (cdf_fracs ets e np)) x = Ok (frac np (Z.of_nat (left_by ets e x))).
Proof.
  intros X0 XE. assert (LE : length (cdf_times ets e) = length (cdf_fracs ets e np)) by (rewrite times_len, fracs_len; reflexivity).
  pose proof (combine_fst _ _ LE) as CF. pose proof (combine_snd _ _ LE) as CS.
  assert (SS : StronglySorted (fun p q : f64 * f64 => nleb (fst p) (fst q) = true) (combine (cdf_times ets e) (cdf_fracs ets e np))).
  { apply (sorted_fst le). rewrite CF. apply times_sorted. }
  unfold interp_prev. rewrite psort_id by exact SS. destruct (combine _ _) as [|p0 r] eqn:K; [rewrite times_eq in CF; discriminate|].
  cbn [map] in CF, CS. rewrite times_eq in CF. assert (C0 : fst p0 = n0) by exact (f_equal (hd n0) CF). apply (f_equal (@tl f64)) in CF. cbn [tl] in CF.
  assert (HI : fst (last r p0) = e).
  { rewrite last_nth. rewrite <- map_nth, CF. assert (LR : length r = S n) by (rewrite <- (map_length fst), CF, app_length; cbn [length]; fold n; lia).
    rewrite LR. replace (S n - 1)%nat with n by lia. rewrite app_nth2 by (fold n; lia). fold n. rewrite Nat.sub_diag. reflexivity. }
  rewrite HI, C0. assert (Y1 : nltb x n0 = false) by (rewrite ltb_def, X0; apply andb_false_r). assert (Y2 : nltb e x = false) by (rewrite ltb_def, XE; apply andb_false_r). rewrite Y1, Y2. cbn [orb]. apply StronglySorted_inv in SS as (SS & _). rewrite step_fold by exact SS.
  rewrite CS, (filter_fst (fun t => nleb t x)), CF, filter_app, app_length, <- left_by_s. f_equal. cbn [filter].
  destruct (nleb e x) eqn:EX.
  - cbn [length]. rewrite (left_by_end x EX). rewrite Nat.add_1_r. apply fracs_last.
  - cbn [length]. rewrite Nat.add_0_r. apply fracs_nth, left_by_le.
Qed.

Variable nbins : Z.
Hypothesis NB : 2 <= nbins <= 1125899906842624.
Hypothesis EU : neqb e n0 = true \/ (bpow radix2 (-960) <= B2R e)%R.
Let pt := lpoint n0 e nbins.
Lemma n0_f : is_finite (n0 : f64) = true. Proof. reflexivity. Qed.
Lemma n0_R : (0 <= B2R (n0 : f64))%R. Proof. apply Rle_refl. Qed.
Lemma e_R : is_finite e = true /\ (0 <= B2R e)%R.
Proof. split; [exact EF|]. apply leb_0; [exact EF | exact E0]. Qed.
Lemma e_AB : B2R (n0 : f64) = B2R e \/ (bpow radix2 (-960) <= B2R e - B2R (n0 : f64))%R.
Proof.
  change (B2R (n0 : f64)) with 0%R. rewrite Rminus_0_r. destruct EU as [H|H]; [left | right; exact H].
  destruct e_R as (F & P). cbn [neqb F64num] in H. rewrite eqb_eq in H. apply andb_true_iff in H as (H & _). unfold n0 in H. cbn [nofZ F64num] in H. apply leb_R in H; [|exact F | reflexivity]. simpl B2R in H. lra.
Qed.
Lemma pt_ok i : 0 <= i < nbins -> nleb n0 (pt i) = true /\ nleb (pt i) e = true.
Proof.
  intros Hi. destruct e_R as (F & P). destruct (lpoint_fin n0 e nbins n0_f F n0_R e_AB NB i ltac:(lia)) as (G & B). fold pt in G, B. change (B2R n0) with 0%R in B.
  split; [unfold n0; cbn [nleb nofZ F64num]; apply leb_0; [exact G | lra] | cbn [nleb F64num]; apply leb_R; [exact G | exact F | lra]].
Qed.
Lemma pt_mono i j : 0 <= i <= j -> j < nbins -> nleb (pt i) (pt j) = true.
Proof. intros Hi Hj. destruct e_R as (F & P). apply (lpoint_mono n0 e nbins n0_f F n0_R e_AB NB); lia. Qed.
Lemma smooth_ok : smooth_cdf ets e np nbins = Ok (map pt (zrange 0 nbins), map (fun i => frac np (Z.of_nat (left_by ets e (pt i)))) (zrange 0 nbins)).
Proof.
  unfold smooth_cdf. destruct e_R as (F & P). rewrite (f_linspace n0 e nbins NB). fold pt. cbn [bind].
  rewrite mapM_map, (mapM_Ok _ (fun i => frac np (Z.of_nat (left_by ets e (pt i))))); [reflexivity|]. intros i Hi. apply zrange_in in Hi. apply interp_ok; apply pt_ok; lia.
Qed.
Lemma sf_nth i d : (i < Z.to_nat nbins)%nat -> nth i (map (fun i => frac np (Z.of_nat (left_by ets e (pt i)))) (zrange 0 nbins)) d = frac np (Z.of_nat (left_by ets e (pt (Z.of_nat i)))).
Proof.
  intros H. rewrite (nth_indep _ d (frac np (Z.of_nat (left_by ets e (pt 0))))) by (rewrite map_length, zrange_len; lia).
  rewrite (map_nth (fun i => frac np (Z.of_nat (left_by ets e (pt i))))). rewrite zrange_nth by lia. reflexivity.
Qed.
Lemma st_nth i d : (i < Z.to_nat nbins)%nat -> nth i (map pt (zrange 0 nbins)) d = pt (Z.of_nat i).
Proof. intros H. rewrite (nth_indep _ d (pt 0)) by (rewrite map_length, zrange_len; lia). rewrite map_nth. rewrite zrange_nth by lia. reflexivity. Qed.
Lemma sf_mono : nondecreasing (map (fun i => frac np (Z.of_nat (left_by ets e (pt i)))) (zrange 0 nbins)).
Proof.
  intros i j I J. rewrite map_length, zrange_len in J. rewrite !sf_nth by lia. apply frac_mono; [exact NP|]. apply inj_le, left_by_mono, pt_mono; lia.
Qed.

(** *** Thresholds *)
Hypothesis NP30 : np <= 1073741824.
Variables (m k a b : Z).
Hypothesis TH : threshold m k a b.
Lemma th_ab : 0 < a /\ 0 < b /\ nisnan (ndec m k : f64) = false.
Proof. destruct TH as [E|[E|E]]; injection E as -> -> -> ->; repeat split; try lia; vm_compute; reflexivity. Qed.
Lemma max_reach : nleb (ndec m k) (nadd (np_max (cdf_fracs ets e np)) (ndec 1 12)) = (a * np <=? b * Z.of_nat n).
Proof.
  destruct th_ab as (A0 & B0 & NN). destruct (np_max_ok (cdf_fracs ets e np)) as (I & M).
  { intros C. pose proof fracs_len as FL. rewrite C in FL. cbn [length] in FL. lia. }
  { intros x Hx. apply fracs_in in Hx as (i & _ & ->). apply frac_nan; [exact NP | lia]. }
  pose proof n_le as NL. apply fracs_in in I as (i & Hi & Ei). rewrite Ei in *. destruct (frac_cmp np NP NP30 m k a b (Z.of_nat i) TH ltac:(lia)) as (C1 & C2). rewrite C2.
  destruct (Z.leb_spec (a * np) (b * Z.of_nat n)) as [LE|GT]; [|apply Z.leb_gt; nia].
  destruct (frac_cmp np NP NP30 m k a b (Z.of_nat n) TH ltac:(lia)) as (D1 & _). rewrite <- C1. eapply leb_trans; [rewrite D1; apply Z.leb_le, LE|].
  apply M. rewrite <- (fracs_nth n nnan (le_n n)). apply nth_In. rewrite fracs_len. lia.
Qed.
Lemma reach_end t : nleb e t = true -> reached a b ets e np t <-> a * np <= b * Z.of_nat n.
Proof. intros H. unfold reached. rewrite left_by_end by exact H. reflexivity. Qed.
Lemma report_ok td :
  (b * Z.of_nat n < a * np -> report ets e np td (ndec m k) = Ok None) /\
  (a * np <= b * Z.of_nat n -> exists t, report ets e np td (ndec m k) = Ok (Some (ndiv t td)) /\ In t (left_region ets e) /\ reached a b ets e np t /\
     forall u, nltb u t = true -> ~ reached a b ets e np u).
Proof.
  destruct th_ab as (A0 & B0 & NN). pose proof n_le as NL. unfold report. rewrite max_reach. split; intros H; [destruct (Z.leb_spec (a * np) (b * Z.of_nat n)); [lia | reflexivity]|].
  rewrite (proj2 (Z.leb_le _ _) H). destruct (search_first (cdf_fracs ets e np) (ndec m k) NN fracs_mono) as (R1 & R2 & R3). set (r := searchsorted _ _) in *. rewrite fracs_len in R1, R3.
  assert (RN : (r <= n)%nat).
  { destruct (le_lt_dec r n) as [L0|L0]; [exact L0|]. specialize (R2 n L0). rewrite fracs_nth in R2 by lia. rewrite ltb_def in R2. apply andb_true_iff in R2 as (_ & R2). apply negb_true_iff in R2.
    destruct (frac_cmp np NP NP30 m k a b (Z.of_nat n) TH ltac:(lia)) as (D1 & _). rewrite D1 in R2. apply Z.leb_gt in R2. lia. }
  assert (RR : a * np <= b * Z.of_nat r). { specialize (R3 r ltac:(lia)). rewrite fracs_nth in R3 by lia. destruct (frac_cmp np NP NP30 m k a b (Z.of_nat r) TH ltac:(lia)) as (D1 & _). rewrite D1 in R3. apply Z.leb_le in R3. exact R3. }
  destruct r as [|r']; [nia|]. rewrite times_len. replace (Z.max 0 _) with (Z.of_nat (S r')) by lia.
  assert (TN : nth (S r') (cdf_times ets e) nnan = nth r' s nnan) by (rewrite times_eq; cbn [nth]; apply app_nth1; fold n; lia).
  assert (PN : py_nth (cdf_times ets e) (Z.of_nat (S r')) = Ok (nth r' s nnan)) by (rewrite <- TN; apply py_nth_ok; rewrite times_len; lia).
  rewrite PN. cbn [bind]. exists (nth r' s nnan). assert (IN : In (nth r' s nnan) s) by (apply nth_In; fold n; lia). split; [reflexivity|]. split; [apply s_in, IN|]. split.
  - unfold reached. rewrite left_by_s. pose proof (count_ge s r' s_sorted s_nan ltac:(fold n; lia)) as CG. nia.
  - intros u HU RU. unfold reached in RU. rewrite left_by_s in RU. pose proof (count_lt s r' u s_sorted s_nan ltac:(fold n; lia) HU) as CL.
    specialize (R2 r' (Nat.lt_succ_diag_r _)). rewrite fracs_nth in R2 by lia. rewrite ltb_def in R2. apply andb_true_iff in R2 as (_ & R2). apply negb_true_iff in R2.
    destruct (frac_cmp np NP NP30 m k a b (Z.of_nat r') TH ltac:(lia)) as (D1 & _). rewrite D1 in R2. apply Z.leb_gt in R2. nia.
Qed.
(** First grid point at which the fraction is reached. *)
Lemma grid_reach :
  let sf := map (fun i => frac np (Z.of_nat (left_by ets e (pt i)))) (zrange 0 nbins) in let r := searchsorted sf (ndec m k) in
  (b * Z.of_nat n < a * np -> Z.of_nat r = nbins) /\
  (a * np <= b * Z.of_nat n -> 0 <= Z.of_nat r < nbins /\ reached a b ets e np (pt (Z.of_nat r)) /\ forall j, 0 <= j < Z.of_nat r -> ~ reached a b ets e np (pt j)).
Proof.
  intros sf r. destruct th_ab as (A0 & B0 & NN). pose proof n_le as NL. destruct (search_first sf (ndec m k) NN sf_mono) as (R1 & R2 & R3). fold r in R1, R2, R3.
  assert (SL : length sf = Z.to_nat nbins) by (unfold sf; rewrite map_length, zrange_len; lia). rewrite SL in R1, R3.
  assert (CMP : forall i, (i < Z.to_nat nbins)%nat -> nleb (ndec m k) (nth i sf nnan) = true <-> reached a b ets e np (pt (Z.of_nat i))).
  { intros i Hi. unfold sf. rewrite sf_nth by exact Hi. pose proof (left_by_le (pt (Z.of_nat i))) as LB. destruct (frac_cmp np NP NP30 m k a b (Z.of_nat (left_by ets e (pt (Z.of_nat i)))) TH (conj (Nat2Z.is_nonneg _) (Z.le_trans _ _ _ (inj_le _ _ LB) NL))) as (D1 & _).
    rewrite D1. unfold reached. apply Z.leb_le. }
  assert (LOW : forall i, (i < r)%nat -> ~ reached a b ets e np (pt (Z.of_nat i))).
  { intros i Hi RE. apply CMP in RE; [|lia]. specialize (R2 i Hi). rewrite ltb_def, RE, andb_false_r in R2. discriminate. }
  assert (LST : reached a b ets e np (pt (nbins - 1)) <-> a * np <= b * Z.of_nat n).
  { apply reach_end. unfold pt, lpoint. rewrite Z.eqb_refl. apply leb_refl, e_nan. }
  split; intros H.
  - destruct (Nat.eq_dec r (Z.to_nat nbins)) as [E|E]; [lia|]. exfalso. assert (RE : reached a b ets e np (pt (Z.of_nat r))) by (apply CMP; [lia | apply R3; lia]).
    unfold reached in RE. pose proof (left_by_le (pt (Z.of_nat r))). nia.
  - assert (RN : (r < Z.to_nat nbins)%nat). { destruct (Nat.eq_dec r (Z.to_nat nbins)) as [E|E]; [|lia]. exfalso. apply (LOW (Z.to_nat (nbins - 1))); [lia|]. rewrite Z2Nat.id by lia. apply LST, H. }
    split; [lia|]. split; [apply CMP; [exact RN | apply R3; lia]|]. intros j Hj. specialize (LOW (Z.to_nat j) ltac:(lia)). rewrite Z2Nat.id in LOW by lia. exact LOW.
Qed.
End Curve.

(** ** The two routines *)
Section Ends.
Variable w : walk f64.
Hypothesis RW : rect_walk w.
Lemma ends_val : exists s k, get_state w (-1) = Ok (s, k) /\ (st_o s = None <-> opts w = []) /\ st_t s = map (final_time w) (seq 0 (count w)).
Proof.
  rewrite (get_state_val w (-1) RW). eexists _, _. split; [reflexivity|]. split.
  - cbn [mk_state st_o gval g_o]. destruct (opts w); cbn [map]; split; congruence.
  - cbn [mk_state st_t gval g_t]. apply map_ext_in. intros q Hq. apply in_seq in Hq. destruct (has_last w RW q ltac:(lia)) as (_ & ->). reflexivity.
Qed.
Hypothesis FT : forall q, (q < count w)%nat -> nleb n0 (final_time w q) = true /\ nisfin (final_time w q) = true.
Lemma end_of_ok uniform : (0 < count w)%nat -> exists e, end_of uniform (map (final_time w) (seq 0 (count w))) = Ok e /\ end_time_of uniform w e /\ nleb n0 e = true /\ nisfin e = true.
Proof.
  intros C. assert (NE : map (final_time w) (seq 0 (count w)) <> []) by (destruct (count w); [lia | discriminate]).
  assert (NN : forall x, In x (map (final_time w) (seq 0 (count w))) -> nisnan x = false).
  { intros x Hx. apply in_map_iff in Hx as (q & <- & Hq). apply in_seq in Hq. eapply leb_nan_r, FT. lia. }
  assert (KEY : exists e, end_of uniform (map (final_time w) (seq 0 (count w))) = Ok e /\ In e (map (final_time w) (seq 0 (count w))) /\
    forall x, In x (map (final_time w) (seq 0 (count w))) -> (if uniform then nleb x e else nleb e x) = true).
  { destruct uniform; cbn [end_of]; [destruct (maxl_gen _ NE NN) as (e & A & B & D) | destruct (minl_gen _ NE NN) as (e & A & B & D)]; exists e; auto. }
  destruct KEY as (e & A & B & D). exists e. split; [exact A|]. apply in_map_iff in B as (q & B & Hq). apply in_seq in Hq. split; [|subst e; apply FT; lia]. split; [exists q; split; [lia | symmetry; exact B]|].
  intros q' Hq'. apply D. apply in_map. apply in_seq. lia.
Qed.
End Ends.
Lemma py_int_ok (x : f64) : is_finite x = true -> (0 <= B2R x)%R -> exists z, py_int x = Ok z /\ (IZR z <= B2R x < IZR z + 1)%R.
Proof.
  intros F P. destruct (ffrac_value x F) as (a & d & E & B). exists (Z.quot a (Zpos d)). unfold py_int. cbn [nfrac F64num]. rewrite E. split; [reflexivity|].
  assert (D : (0 < IZR (Zpos d))%R) by (apply IZR_lt; reflexivity).
  assert (A : 0 <= a). { apply le_IZR. rewrite B in P. apply Rmult_le_reg_r with (/ IZR (Zpos d))%R; [apply Rinv_0_lt_compat, D|]. unfold Rdiv in P. lra. }
  pose proof (Z.quot_rem' a (Zpos d)) as QR. pose proof (Z.rem_bound_pos a (Zpos d) A eq_refl) as RB. set (qq := Z.quot a (Zpos d)) in *.
  assert (L1 : Zpos d * qq <= a) by lia. assert (L2 : a < Zpos d * (qq + 1)) by lia. apply IZR_le in L1. apply IZR_lt in L2. rewrite mult_IZR in L1, L2. rewrite plus_IZR in L2.
  rewrite B. split; [apply Rmult_le_reg_r with (IZR (Zpos d)) | apply Rmult_lt_reg_r with (IZR (Zpos d))]; try exact D; unfold Rdiv; rewrite Rmult_assoc, Rinv_l, Rmult_1_r by lra; lra.
Qed.
Lemma div_td (x td : f64) : is_finite x = true -> (0 <= B2R x)%R -> nleb n1 td = true -> nisfin td = true -> is_finite (ndiv x td) = true /\ (0 <= B2R (ndiv x td))%R.
Proof.
  intros F P T1 TF. cbn [nleb nisfin F64num] in T1, TF. change (n1 : f64) with (fofZ 1) in T1. apply leb_R in T1; [|apply fin_1 | exact TF]. rewrite B2R_1 in T1. cbn [ndiv F64num].
  pose proof (fdiv_V x td F TF ltac:(lra)) as HV.
  destruct (V_fin_between _ _ (fofZ 0) x HV eq_refl F) as (G & B); [|simpl B2R in B; split; [exact G | apply B]]. simpl B2R at 1.
  unfold Rdiv. assert (I : (0 < / B2R td <= 1)%R) by (split; [apply Rinv_0_lt_compat; lra | rewrite <- Rinv_1; apply Rinv_le_contravar; lra]). nra.
Qed.
