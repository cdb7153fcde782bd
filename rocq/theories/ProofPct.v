(** Percentiles of compute_thresholds in binary64. *)
From Coq Require Import ZArith Bool String List Reals Lra Lia Psatz.
From Flocq Require Import Core IEEE754.BinarySingleNaN.
From Verif Require Import Num NumFacts F64 F64Laws NumPost F64Lin Py Walker SpecPick ParticleTrack PostProc Grid Spatial SpecSpat SpecPct SpecRout ProofExposure ProofNour ProofPick ProofStep ProofRout ProofSpat.
Import ListNotations.
Open Scope Z_scope.
Open Scope res_scope.

Local Existing Instance prec_gt_0.
Local Existing Instance prec_lt_emax.

Section Gen.
Context {T : Type} {N : Num T} {L : NumLaws T}.
Lemma cumsum_from_mass l : forall (acc : T) i, (i < length l)%nat -> nth i (cumsum_from acc l) nnan = fold_left nadd (firstn (S i) l) acc.
Proof. induction l as [|x l IH]; intros acc i Hi; [cbn in Hi; lia|]. cbn [cumsum_from]. destruct i as [|i]; [reflexivity|]. cbn [nth]. rewrite IH by (cbn in Hi; lia). reflexivity. Qed.
Lemma cumsum_mass (l : list T) i : (i < length l)%nat -> nth i (cumsum l) nnan = mass l i.
Proof. destruct l as [|x l]; intros Hi; [cbn in Hi; lia|]. unfold mass. cbn [cumsum hd tl]. destruct i as [|i]; [reflexivity|]. cbn [nth]. apply cumsum_from_mass. cbn in Hi; lia. Qed.
Lemma mass_S (l : list T) i : (S i < length l)%nat -> mass l (S i) = nadd (mass l i) (nth (S i) l n0).
Proof. intros H. rewrite <- !cumsum_mass by lia. apply cumsum_S. exact H. Qed.
Lemma mass_nn (l : list T) i : (forall x, In x l -> nleb n0 x = true) -> (i < length l)%nat -> nn (mass l i).
Proof.
  intros H. induction i as [|i IH]; intros Hi.
  - rewrite <- cumsum_mass by exact Hi. rewrite cumsum_0. apply H, nth_In, Hi.
  - rewrite mass_S by exact Hi. apply nn_add; [apply IH; lia | apply H, nth_In; exact Hi].
Qed.
Lemma mass_mono (l : list T) i j : (forall x, In x l -> nleb n0 x = true) -> (i <= j)%nat -> (j < length l)%nat -> nleb (mass l i) (mass l j) = true.
Proof.
  intros H I. induction I as [|j I IH]; intros Hj.
  - apply leb_refl. apply leb_nan_r with n0, mass_nn; assumption.
  - eapply leb_trans; [apply IH; lia|]. rewrite mass_S by exact Hj. apply add_nn_l; [apply mass_nn; [exact H | lia] | apply H, nth_In, Hj].
Qed.
Lemma minl_gen (l : list T) : l <> [] -> (forall x, In x l -> nisnan x = false) -> exists m, py_minl l = Ok m /\ In m l /\ forall x, In x l -> nleb m x = true.
Proof.
  destruct l as [|a r]; [congruence|]. intros _ NN. cbn [py_minl]. eexists. split; [reflexivity|].
  assert (NA : nisnan a = false) by (apply NN; left; reflexivity). assert (NR : forall x, In x r -> nisnan x = false) by (intros; apply NN; right; assumption). clear NN.
  revert a NA. induction r as [|b r IH]; intros a NA; cbn [fold_left].
  - split; [left; reflexivity|]. intros x [<-|[]]. apply leb_refl, NA.
  - destruct (nltb b a) eqn:E.
    + destruct (IH (fun x Hx => NR x (or_intror Hx)) b (NR b (or_introl eq_refl))) as (I & M). split; [right; exact I|]. intros x [<-|Hx]; [|apply M, Hx].
      rewrite ltb_def in E. apply andb_true_iff in E as (E & _). eapply leb_trans; [apply M; left; reflexivity | exact E].
    + destruct (IH (fun x Hx => NR x (or_intror Hx)) a NA) as (I & M). split; [destruct I as [<-|I]; [left; reflexivity | right; right; exact I]|].
      intros x [<-|[<-|Hx]]; [apply M; left; reflexivity | | apply M; right; exact Hx]. eapply leb_trans; [apply M; left; reflexivity|].
      rewrite ltb_def in E. destruct (leb_total a b NA (NR b (or_introl eq_refl))) as [K|K]; [exact K|]. rewrite K in E. cbn in E. apply negb_false_iff in E. exact E.
Qed.
Lemma maxl_gen (l : list T) : l <> [] -> (forall x, In x l -> nisnan x = false) -> exists m, py_maxl l = Ok m /\ In m l /\ forall x, In x l -> nleb x m = true.
Proof.
  destruct l as [|a r]; [congruence|]. intros _ NN. cbn [py_maxl]. eexists. split; [reflexivity|].
  assert (NA : nisnan a = false) by (apply NN; left; reflexivity). assert (NR : forall x, In x r -> nisnan x = false) by (intros; apply NN; right; assumption). clear NN.
  revert a NA. induction r as [|b r IH]; intros a NA; cbn [fold_left].
  - split; [left; reflexivity|]. intros x [<-|[]]. apply leb_refl, NA.
  - destruct (nltb a b) eqn:E.
    + destruct (IH (fun x Hx => NR x (or_intror Hx)) b (NR b (or_introl eq_refl))) as (I & M). split; [right; exact I|]. intros x [<-|Hx]; [|apply M, Hx].
      rewrite ltb_def in E. apply andb_true_iff in E as (E & _). eapply leb_trans; [exact E | apply M; left; reflexivity].
    + destruct (IH (fun x Hx => NR x (or_intror Hx)) a NA) as (I & M). split; [destruct I as [<-|I]; [left; reflexivity | right; right; exact I]|].
      intros x [<-|[<-|Hx]]; [apply M; left; reflexivity | | apply M; right; exact Hx]. eapply leb_trans; [|apply M; left; reflexivity].
      rewrite ltb_def in E. destruct (leb_total b a (NR b (or_introl eq_refl)) NA) as [K|K]; [exact K|]. rewrite K in E. cbn in E. apply negb_false_iff in E. exact E.
Qed.
(** Searching the non-decreasing shares. *)
Lemma search_first (cdf : list T) p : nisnan p = false -> (forall i j, (i <= j)%nat -> (j < length cdf)%nat -> nleb (nth i cdf nnan) (nth j cdf nnan) = true) ->
  let r := searchsorted cdf p in (r <= length cdf)%nat /\ (forall i, (i < r)%nat -> nltb (nth i cdf nnan) p = true) /\ (forall i, (r <= i < length cdf)%nat -> nleb p (nth i cdf nnan) = true).
Proof.
  intros NP S. cbv zeta. unfold searchsorted.
  assert (LT : forall x, np_lt x p = nltb x p) by (intros x; unfold np_lt; rewrite NP; cbn [andb]; apply orb_false_r).
  assert (NC : forall i, (i < length cdf)%nat -> nisnan (nth i cdf nnan) = false) by (intros i Hi; apply leb_nan_l with (nth i cdf nnan), S; lia).
  destruct (bsearch_spec cdf p (length cdf) 0 (length cdf)) as (A & B & C); [lia | lia | |].
  - intros i j I J. rewrite !LT. intros E. rewrite ltb_def in *. apply andb_true_iff in E as (E1 & E2). apply negb_true_iff in E2. specialize (S i j ltac:(lia) J).
    apply andb_true_iff. split; [eapply leb_trans; eassumption|]. apply negb_true_iff. destruct (nleb p (nth i cdf nnan)) eqn:K; [|reflexivity]. rewrite (leb_trans _ _ _ K S) in E2. discriminate.
  - split; [lia|]. split; [intros i Hi; rewrite <- LT; apply B; lia|]. intros i Hi. specialize (C i Hi). rewrite LT, ltb_def in C.
    destruct (leb_total p (nth i cdf nnan) NP (NC i ltac:(lia))) as [K|K]; [exact K|]. rewrite K in C. cbn in C. apply negb_false_iff in C. exact C.
Qed.
(** The number of distinct values. *)
Lemma distinct_set (l : list T) : (forall x y, In x l -> In y l -> neqb x y = true -> x = y) -> (forall x, In x l -> nisnan x = false) ->
  exists s, NoDup s /\ incl s l /\ incl l s /\ length s = distinct l.
Proof.
  intros INJ NN. induction l as [|a l IH]; [exists []; repeat split; [constructor | intros ? [] | intros ? []]|].
  destruct IH as (s & D & A & B & E); [intros; apply INJ; [right; assumption | right; assumption | assumption] | intros; apply NN; right; assumption |]. cbn [distinct].
  destruct (existsb (neqb a) l) eqn:X.
  - apply existsb_exists in X as (b & Hb & X). apply INJ in X; [|left; reflexivity | right; exact Hb]. subst b. exists s. split; [exact D|]. split; [apply incl_tl, A|]. split; [|exact E].
    intros x [<-|Hx]; [apply B, Hb | apply B, Hx].
  - exists (a :: s). split; [constructor; [|exact D]|]. 2:{ split; [intros x [<-|Hx]; [left; reflexivity | right; apply A, Hx]|]. split; [intros x [<-|Hx]; [left; reflexivity | right; apply B, Hx]|]. cbn. rewrite E. reflexivity. }
    intros Ha. apply A in Ha. assert (existsb (neqb a) l = true); [|congruence]. apply existsb_exists. exists a. split; [exact Ha|]. rewrite eqb_def, leb_refl; [reflexivity | apply NN; left; reflexivity].
Qed.
End Gen.

Lemma nodup_firstn {A} (l : list A) : forall n, NoDup l -> NoDup (firstn n l).
Proof.
  induction l as [|a l IH]; intros n H; [destruct n; constructor|]. destruct n as [|n]; [constructor|]. cbn [firstn]. apply NoDup_cons_iff in H as (H1 & H2). constructor; [|apply IH, H2].
  intros H. apply H1. rewrite <- (firstn_skipn n l). apply in_or_app. left. exact H.
Qed.

Lemma fpos_pos x : fpos x -> (0 < B2R x)%R.
Proof. intros (_ & H). eapply Rlt_le_trans; [apply bpow_gt_0 | exact H]. Qed.
Lemma fpos_eq x y : fpos x -> fpos y -> neqb x y = true -> x = y.
Proof.
  intros Hx Hy E. pose proof (fpos_pos x Hx). cbn [neqb F64num] in E. rewrite eqb_eq in E. apply andb_true_iff in E as (E1 & E2).
  apply leb_R in E1; [|apply Hx | apply Hy]. apply leb_R in E2; [|apply Hy | apply Hx]. apply f_eq; [apply Hx | apply Hy | lra | lra].
Qed.
Lemma fpos_gap x y : fpos x -> fpos y -> (B2R x < B2R y)%R -> (bpow radix2 (-960) <= B2R y - B2R x)%R.
Proof.
  intros (Fx & Hx) (Fy & Hy) H. pose proof (bpow_gt_0 radix2 (-900)) as P9.
  assert (S : (succ radix2 (SpecFloat.fexp prec emax) (B2R x) <= B2R y)%R).
  { apply succ_le_lt; [apply (@fexp_correct prec emax prec_gt_0) | apply generic_format_B2R | apply generic_format_B2R | exact H]. }
  rewrite succ_eq_pos in S by lra.
  pose proof (ulp_FLT_gt radix2 (3 - emax - prec) prec (B2R x)) as U. change (ulp radix2 (FLT_exp (3 - emax - prec) prec) (B2R x)) with (ulp radix2 (SpecFloat.fexp prec emax) (B2R x)) in U.
  rewrite Rabs_pos_eq in U by lra. change (- prec) with (-53) in U.
  assert (K : (bpow radix2 (-960) <= B2R x * bpow radix2 (-53))%R).
  { apply Rle_trans with (bpow radix2 (-900) * bpow radix2 (-53))%R; [rewrite <- bpow_plus; apply bpow_le; lia | apply Rmult_le_compat_r; [apply bpow_ge_0 | exact Hx]]. }
  lra.
Qed.

Lemma fpos_keep x : fpos x -> negb (neqb x n0) && negb (nisnan x) = true.
Proof.
  intros H. pose proof (fpos_pos x H). destruct H as (F & _). unfold n0. cbn [neqb nisnan nofZ F64num]. unfold fisnan. rewrite (fin_nan x F). rewrite eqb_eq, andb_true_r. apply negb_true_iff.
  replace (Bleb x (fofZ 0)) with false; [reflexivity|]. symmetry. apply leb_R_false; [exact F | reflexivity | simpl; lra].
Qed.
Lemma positive_in l x : (forall x, In x l -> recorded x) -> (In x (positive_of l) <-> In x l /\ fpos x).
Proof.
  intros R. unfold positive_of. rewrite filter_In. split.
  - intros (I & K). split; [exact I|]. destruct (R x I) as [E|[E|E]]; [rewrite E in K; discriminate | rewrite E, andb_false_r in K; discriminate | exact E].
  - intros (I & K). split; [exact I | apply fpos_keep, K].
Qed.
Lemma five_iff l : (forall x, In x l -> recorded x) -> (five_distinct fpos l <-> (5 <= distinct (positive_of l))%nat).
Proof.
  intros R. assert (P : forall x, In x (positive_of l) -> fpos x) by (intros x Hx; apply positive_in in Hx; tauto).
  destruct (distinct_set (positive_of l)) as (s & D & A & B & E); [intros; apply fpos_eq; auto | intros x Hx; apply fin_nan, P, Hx|].
  rewrite <- E. split.
  - intros (t & Dt & Lt & It). rewrite <- Lt. apply NoDup_incl_length; [exact Dt|]. intros x Hx. apply B, positive_in; [exact R | apply It, Hx].
  - intros H5. exists (firstn 5 s). split; [|split].
    + apply nodup_firstn, D.
    + rewrite firstn_length. lia.
    + intros x Hx. apply positive_in; [exact R|]. apply A. rewrite <- (firstn_skipn 5 s). apply in_or_app. left. exact Hx.
Qed.

(** The literals. *)
Lemma lit_ok m k : (m, k) = (5, 1) \/ (m, k) = (75, 2) \/ (m, k) = (9, 1) -> is_finite (ndec m k : f64) = true /\ (0 < B2R (ndec m k : f64) <= 1)%R.
Proof.
  intros H. assert (HM : 0 < m <= 10 ^ k /\ 0 < 10 ^ k <= 100 /\ 5 <= m) by (destruct H as [E|[E|E]]; injection E as -> ->; cbn; lia). destruct HM as (M & K & M5).
  unfold ndec. cbn [ndiv nofZ F64num]. destruct (fofZ_exact m ltac:(lia)) as (Fm & Bm). destruct (fofZ_exact (10 ^ k) ltac:(lia)) as (Fk & Bk).
  assert (KP : (1 <= IZR (10 ^ k) <= 100)%R) by (split; apply IZR_le; lia). assert (MP : (5 <= IZR m)%R) by (apply IZR_le; lia). assert (MK : (IZR m <= IZR (10 ^ k))%R) by (apply IZR_le; lia).
  pose proof (fdiv_V _ _ Fm Fk ltac:(rewrite Bk; lra)) as HV. rewrite Bm, Bk in HV.
  destruct (fmk_exact 1 (-6)) as (Fh & Bh); [simpl; lia | lia |]. assert (Eh : F2R (Float radix2 1 (-6)) = (1/64)%R) by (unfold F2R; simpl; lra). rewrite Eh in Bh.
  destruct (V_fin_between _ _ (fmk 1 (-6)) (fofZ 1) HV Fh fin_1) as (F & B).
  - rewrite Bh, B2R_1. set (q := IZR (10 ^ k)) in *. assert (IQ : (/ 100 <= / q <= 1)%R). { split; [apply Rinv_le_contravar; lra | rewrite <- Rinv_1; apply Rinv_le_contravar; lra]. }
    assert (QQ : (q * / q = 1)%R) by (apply Rinv_r; lra). unfold Rdiv. split; [nra|]. rewrite <- QQ. apply Rmult_le_compat_r; lra.
  - rewrite Bh, B2R_1 in B. split; [exact F | lra].
Qed.
Lemma lits_ord : nleb (nhalf : f64) (ndec 75 2) = true /\ nleb (ndec 75 2 : f64) (ndec 9 1) = true /\ nleb (ndec 9 1 : f64) n1 = true.
Proof. unfold n1, ndec, nhalf, ndec. cbn [nleb ndiv nofZ F64num]. split; [|split]; vm_compute; reflexivity. Qed.

Section Kde.
Variable kde : list f64 -> list f64 -> list f64.

Lemma percentiles_ok (td : f64) (l : list f64) : (forall x, In x l -> recorded x) -> nltb n0 td = true -> nisfin td = true ->
  five_distinct fpos l ->
  (forall grid, length grid = 1000%nat -> length (kde (positive_of l) grid) = 1000%nat /\ density (kde (positive_of l) grid)) ->
  exists e50 e75 e90 grid i50 i75 i90, chunk_percentiles kde td (Some l) = Ok [e50; e75; e90] /\
    length grid = 1000%nat /\
    (In (nth 999 grid nnan) l /\ (exists lo, In lo l /\ fpos lo /\ neqb (nth 0 grid nnan) lo = true) /\ forall x, In x l -> fpos x -> nleb (nth 0 grid nnan) x = true /\ nleb x (nth 999 grid nnan) = true) /\
    (forall i j, (i <= j)%nat -> (j < 1000)%nat -> nleb (nth i grid nnan) (nth j grid nnan) = true) /\
    (i50 <= i75 <= i90)%nat /\
    first_reaching (kde (positive_of l) grid) nhalf i50 /\ first_reaching (kde (positive_of l) grid) (ndec 75 2) i75 /\ first_reaching (kde (positive_of l) grid) (ndec 9 1) i90 /\
    e50 = ndiv (nth i50 grid nnan) td /\ e75 = ndiv (nth i75 grid nnan) td /\ e90 = ndiv (nth i90 grid nnan) td.
Proof.
  intros R TD FT F5 K. set (f := positive_of l) in *.
  assert (P : forall x, In x f -> In x l /\ fpos x) by (intros x Hx; apply (positive_in l x R), Hx).
  pose proof (proj1 (five_iff l R) F5) as D5. fold f in D5.
  assert (NE : f <> []) by (intros E; rewrite E in D5; cbn in D5; lia).
  assert (NN : forall x, In x f -> nisnan x = false) by (intros x Hx; apply fin_nan, P, Hx).
  destruct (minl_gen f NE NN) as (lo & EL & IL & ML). destruct (maxl_gen f NE NN) as (hi & EH & IH & MH).
  assert (FL : fpos lo) by (apply P, IL). assert (FH : fpos hi) by (apply P, IH). pose proof (fpos_pos _ FL) as PL.
  assert (AB : B2R lo = B2R hi \/ (bpow radix2 (-960) <= B2R hi - B2R lo)%R).
  { pose proof (ML hi IH) as Q. cbn [nleb F64num] in Q. apply leb_R in Q; [|apply FL | apply FH]. destruct (Rle_lt_or_eq_dec _ _ Q) as [Q'|Q']; [right; apply fpos_gap; assumption | left; exact Q']. }
  assert (HN : 2 <= 1000 <= 1125899906842624) by lia.
  set (grid := map (lpoint lo hi 1000) (zrange 0 1000)).
  assert (LG : length grid = 1000%nat) by (unfold grid; rewrite map_length, zrange_len; reflexivity).
  assert (GN : forall i, (i < 1000)%nat -> nth i grid nnan = lpoint lo hi 1000 (Z.of_nat i)).
  { intros i Hi. unfold grid. rewrite (nth_indep _ nnan (lpoint lo hi 1000 0)) by (rewrite map_length, zrange_len; lia). rewrite map_nth. f_equal. rewrite zrange_nth by lia. lia. }
  assert (GM : forall i j, (i <= j)%nat -> (j < 1000)%nat -> nleb (nth i grid nnan) (nth j grid nnan) = true).
  { intros i j I J. rewrite !GN by lia. apply (lpoint_mono lo hi 1000); try assumption; try (apply FL); try (apply FH); try lia. lra. }
  destruct (K grid LG) as (LK & KN & KP & KF). set (d := kde f grid) in *. rewrite LK in KP, KF. change (1000 - 1)%nat with 999%nat in KP, KF.
  set (cdf := map (fun x => ndiv x (mass d 999)) (cumsum d)).
  assert (LC : length cdf = 1000%nat) by (unfold cdf; rewrite map_length, cumsum_length; exact LK).
  assert (CN : forall i, (i < 1000)%nat -> nth i cdf nnan = share d i).
  { intros i Hi. unfold cdf, share. rewrite LK. change (1000 - 1)%nat with 999%nat. rewrite (nth_indep _ nnan (ndiv nnan (mass d 999))) by (fold cdf; lia). rewrite (map_nth (fun x => ndiv x (mass d 999))). f_equal. apply cumsum_mass. lia. }
  assert (CM : forall i j, (i <= j)%nat -> (j < length cdf)%nat -> nleb (nth i cdf nnan) (nth j cdf nnan) = true).
  { intros i j I J. rewrite LC in J. rewrite !CN by lia. unfold share. rewrite LK. change (1000 - 1)%nat with 999%nat. apply f_div_mono; [|exact KP | exact KF]. apply mass_mono; [exact KN | exact I | lia]. }
  assert (C1 : nth 999 cdf nnan = n1). { rewrite CN by lia. unfold share. rewrite LK. change (1000 - 1)%nat with 999%nat. apply div_self; assumption. }
  destruct lits_ord as (O1 & O2 & O3).
  assert (SR : forall p : f64, nisnan p = false -> nleb p n1 = true -> first_reaching d p (searchsorted cdf p) /\ percentile_from_cdf cdf grid p = Some (nth (searchsorted cdf p) grid nnan)).
  { intros p NP P1. destruct (search_first cdf p NP CM) as (A & B & C). set (r := searchsorted cdf p) in *. rewrite LC in *.
    assert (RL : (r < 1000)%nat). { destruct (Nat.lt_ge_cases r 1000) as [X|X]; [exact X|]. exfalso. specialize (B 999%nat ltac:(lia)). rewrite C1, ltb_def in B. apply andb_true_iff in B as (_ & B). rewrite P1 in B. discriminate. }
    split.
    - unfold first_reaching. rewrite LK. split; [exact RL|]. split; [rewrite <- CN by exact RL; apply C; lia|]. intros j Hj. rewrite <- CN by lia. apply B, Hj.
    - unfold percentile_from_cdf. fold r. apply nth_error_nth'. lia. }
  destruct (lit_ok 5 1 ltac:(auto)) as (L1 & _). destruct (lit_ok 75 2 ltac:(auto)) as (L2 & _). destruct (lit_ok 9 1 ltac:(auto)) as (L3 & _).
  apply fin_nan in L1. apply fin_nan in L2. apply fin_nan in L3. change (ndec 5 1) with (nhalf : f64) in L1.
  assert (O12 : nleb (nhalf : f64) n1 = true) by (eapply leb_trans; [exact O1 | eapply leb_trans; [exact O2 | exact O3]]).
  assert (O22 : nleb (ndec 75 2 : f64) n1 = true) by (eapply leb_trans; [exact O2 | exact O3]).
  destruct (SR _ L1 O12) as (R1 & E1). destruct (SR _ L2 O22) as (R2 & E2). destruct (SR _ L3 O3) as (R3 & E3).
  assert (MON : forall (p q : f64) i j, nleb p q = true -> first_reaching d p i -> first_reaching d q j -> (i <= j)%nat).
  { intros p q i j PQ (_ & _ & B) (_ & C & _). destruct (Nat.le_gt_cases i j) as [X|X]; [exact X|]. exfalso. specialize (B j X). rewrite ltb_def in B. apply andb_true_iff in B as (_ & B). rewrite (leb_trans _ _ _ PQ C) in B. discriminate. }
  exists (ndiv (nth (searchsorted cdf nhalf) grid nnan) td), (ndiv (nth (searchsorted cdf (ndec 75 2)) grid nnan) td), (ndiv (nth (searchsorted cdf (ndec 9 1)) grid nnan) td).
  exists grid, (searchsorted cdf nhalf), (searchsorted cdf (ndec 75 2)), (searchsorted cdf (ndec 9 1)).
  split.
  { unfold chunk_percentiles. destruct l as [|x0 l0]; [exfalso; apply NE; reflexivity|]. fold (positive_of (x0 :: l0)). fold f. cbv zeta.
    destruct (Nat.ltb_spec (distinct f) 5); [lia|]. rewrite EL, EH. cbn [bind]. rewrite f_linspace by exact HN. cbn [bind]. fold grid. fold d.
    rewrite (ProofNour.py_last_ok nnan) by (intros E; apply (f_equal (@length f64)) in E; rewrite cumsum_length in E; cbn [length] in E; lia). cbn [bind]. rewrite cumsum_length, LK. change (1000 - 1)%nat with 999%nat.
    rewrite cumsum_mass by lia. fold cdf. unfold percentiles. cbn [mapM bind]. rewrite E1, E2, E3. reflexivity. }
  split; [exact LG|]. split; [|].
  { assert (G0 : neqb (nth 0 grid nnan) lo = true). { rewrite GN by lia. apply (lpoint_first lo hi 1000); try assumption; try (apply FL); try (apply FH). lra. }
    assert (G9 : nth 999 grid nnan = hi) by (rewrite GN by lia; reflexivity). rewrite G9.
    split; [apply P, IH|]. split; [exists lo; split; [apply P, IL | split; [exact FL | exact G0]]|].
    intros x Hx Px. assert (Ix : In x f) by (apply (positive_in l x R); split; assumption). split; [|apply MH, Ix].
    eapply leb_trans; [|apply ML, Ix]. rewrite eqb_def in G0. apply andb_true_iff in G0. apply G0. }
  split; [exact GM|]. split; [split; [eapply MON; [exact O1 | exact R1 | exact R2] | eapply MON; [exact O2 | exact R2 | exact R3]]|].
  split; [exact R1|]. split; [exact R2|]. split; [exact R3|]. repeat split; reflexivity.
Qed.
Lemma percentiles_few (td : f64) (l : list f64) : (forall x, In x l -> recorded x) -> ~ five_distinct fpos l -> chunk_percentiles kde td (Some l) = Ok [nnan; nnan; nnan].
Proof.
  intros R F5. unfold chunk_percentiles. destruct l as [|x l]; [reflexivity|]. fold (positive_of (x :: l)). cbv zeta. rewrite (five_iff (x :: l) R) in F5. destruct (Nat.ltb_spec (distinct (positive_of (x :: l))) 5); [reflexivity | lia].
Qed.

(** ** The maps *)
Lemma raw_ok (td : f64) (pc : option (list f64) -> list f64) data L W k : 0 < k -> 0 <= L -> 0 <= W -> Z.of_nat (length data) = (L / k) * (W / k) ->
  (forall item, In item data -> chunk_percentiles kde td item = Ok (pc item)) ->
  exists a, length a = 3%nat /\ raw_thresholds kde data (L, W) td k = Ok a /\
    forall n, (n < 3)%nat -> nrow (nth n a (Arr 0 0 (fun _ _ => nnan))) = L / k /\ ncol (nth n a (Arr 0 0 (fun _ _ => nnan))) = W / k /\
      forall r c, 0 <= r < L / k -> 0 <= c < W / k -> cell (nth n a (Arr 0 0 (fun _ _ => nnan))) r c = nth n (pc (entry data W k r c)) nnan.
Proof.
  intros K HL HW LD H. assert (0 <= L / k) by (apply Z.div_pos; lia). assert (0 <= W / k) by (apply Z.div_pos; lia).
  set (g := fun n => Arr (L / k) (W / k) (fun i j => nth (Z.to_nat (i * (W / k) + j)) (map (fun p => nth n p nnan) (map pc data)) (nnan : f64))).
  assert (E : mapM (chunk_percentiles kde td) data = Ok (map pc data)) by (apply mapM_Ok; exact H).
  exists [g 0%nat; g 1%nat; g 2%nat]. split; [reflexivity|]. split.
  - unfold raw_thresholds. rewrite E. cbn [bind]. destruct (Z.eqb_spec k 0); [lia|]. cbn [mapM]. unfold reshape. cbn [fst snd]. rewrite !map_length.
    rewrite (proj2 (Z.leb_le 0 (L / k))), (proj2 (Z.leb_le 0 (W / k))), (proj2 (Z.eqb_eq _ _) LD) by assumption. reflexivity.
  - intros n Hn. assert (EN : nth n [g 0%nat; g 1%nat; g 2%nat] (Arr 0 0 (fun _ _ => nnan)) = g n) by (destruct n as [|[|[|n]]]; [reflexivity | reflexivity | reflexivity | lia]).
    rewrite EN. split; [reflexivity|]. split; [reflexivity|]. intros r c R C. unfold g. cbn [cell]. unfold entry.
    assert (BD : (Z.to_nat (r * (W / k) + c) < length data)%nat) by nia.
    rewrite map_map. rewrite (nth_indep _ nnan (nth n (pc None) nnan)) by (rewrite map_length; exact BD). rewrite (map_nth (fun x => nth n (pc x) nnan)). reflexivity.
Qed.
End Kde.
