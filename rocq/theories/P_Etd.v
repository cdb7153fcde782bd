(** Properties C63-C65: the exposure-time distribution. *)
From Coq Require Import ZArith Bool String List Reals Lra Lia Permutation Sorted.
From Flocq Require Import Core IEEE754.BinarySingleNaN.
From Verif Require Import Num NumFacts F64 F64Laws NumPost F64Lin Py Walker ParticleTrack SpecWalk PostProc Grid Routines SpecRout SpecEtd ProofStep ProofExposure ProofNour ProofPct ProofRout ProofEtd P_Rout.
Import ListNotations.
Open Scope Z_scope.
Open Scope res_scope.

(** Walk data with at least one particle, finite non-negative final travel times; at most one exposure time per particle. *)
Definition etd_input (w : walk f64) (ets : list f64) : Prop :=
  rect_walk w /\ (forall q, (q < count w)%nat -> nleb n0 (final_time w q) = true /\ nisfin (final_time w q) = true) /\ (length ets <= count w)%nat.

(** C63 The curve consists of the exposure times of the particles that left, in order, between 0 and the end time; the fractions are 0, 1/N, 2/N, ...
    up to (number that left)/N, once more at the end time. *)
Theorem C63_cdf :
  forall w ets td nbins uniform show r, etd_input w ets -> Z.of_nat (count w) <= 9007199254740992 ->
  plot_exposure_time w ets td nbins uniform show = Ok r ->
  exists e s, end_time_of uniform w e /\ Permutation (left_region ets e) s /\ e_t r = n0 :: s ++ [e] /\ nondecreasing (e_t r) /\
    e_f r = map (fun k => share k (Z.of_nat (count w))) (seq 0 (length s + 1) ++ [length s]) /\ nondecreasing (e_f r) /\
    nth 0 (e_f r) nnan = n0 /\ forall f, In f (e_f r) -> nleb n0 f = true /\ nleb f n1 = true.
Proof.
  intros w ets td nbins uniform show r (RW & FT & LE) CB H. unfold plot_exposure_time in H. fold (count w) in H. destruct (ends_val w RW) as (st & k & G & SO & TS). rewrite G in H. cbn [bind fst] in H.
  unfold unpack4 in H. destruct (st_o st) as [o|]; [|discriminate]. cbn [bind] in H. rewrite TS in H.
  destruct (Nat.eq_dec (count w) 0) as [Z0|NZ]; [rewrite Z0 in H; destruct uniform; discriminate|].
  destruct (end_of_ok w FT uniform ltac:(lia)) as (e & EO & ET & E0 & EF). rewrite EO in H. cbn [bind] in H.
  destruct (smooth_cdf _ _ _ _) as [(tt & ff)|]; [|discriminate]. cbn [bind] in H.
  destruct (if show then _ else _) as [thr|]; [|discriminate]. cbn [bind] in H. destruct (py_nth tt 1) as [q1|]; [|discriminate]. destruct (py_nth tt 0) as [q0|]; [|discriminate]. cbn [bind] in H.
  assert (HT : e_t r = cdf_times ets e) by exact (f_equal (fun x => match x with Ok y => e_t y | Err _ => cdf_times ets e end) (Logic.eq_sym H)).
  assert (HF : e_f r = cdf_fracs ets e (Z.of_nat (count w))) by exact (f_equal (fun x => match x with Ok y => e_f y | Err _ => cdf_fracs ets e (Z.of_nat (count w)) end) (Logic.eq_sym H)).
  clear H. assert (NP : 1 <= Z.of_nat (count w) <= 9007199254740992) by lia. assert (LN : Z.of_nat (length ets) <= Z.of_nat (count w)) by lia.
  exists e, (isort (left_region ets e)). split; [exact ET|]. split; [apply isort_perm|]. rewrite HT, HF. split; [apply times_eq|]. split; [apply ss_nth; [apply times_sorted; assumption | intros x Hx; eapply times_nan; eassumption]|].
  pose proof (fracs_eq ets e (Z.of_nat (count w))) as FE. split.
  - rewrite FE, map_app. cbn [map]. f_equal. unfold zrange. rewrite map_map. replace (Z.to_nat _) with (length (isort (left_region ets e)) + 1)%nat by lia. reflexivity.
  - split; [apply fracs_mono; assumption|]. split; [rewrite (fracs_nth ets e (Z.of_nat (count w)) 0 nnan ltac:(lia)); apply frac_0, NP|].
    intros f Hf. apply fracs_in in Hf as (i & Hi & ->); try assumption. pose proof (n_le ets e (Z.of_nat (count w)) LN). split; [rewrite <- (frac_0 _ NP); apply frac_mono; [exact NP | lia] | apply frac_le1; [exact NP | lia]].
Qed.
Print Assumptions C63_cdf.

(** The plot is produced whenever the walk data has a tracked variable (see C51) and 2 or more bins are asked for; its smoothed curve is, at every
    grid point, the fraction of the particles that had left by then. *)
Theorem C63_smoothed :
  forall w ets td nbins uniform show, etd_input w ets -> 1 <= Z.of_nat (count w) <= 1073741824 -> 2 <= nbins <= 1125899906842624 -> opts w <> [] ->
  (forall q, (q < count w)%nat -> neqb (final_time w q) n0 = true \/ (bpow radix2 (-960) <= B2R (final_time w q))%R) ->
  exists r e, plot_exposure_time w ets td nbins uniform show = Ok r /\ end_time_of uniform w e /\ np_linspace n0 e nbins = Ok (e_st r) /\
    e_sf r = map (fun t => share (left_by ets e t) (Z.of_nat (count w))) (e_st r) /\ nondecreasing (e_sf r).
Proof.
  intros w ets td nbins uniform show (RW & FT & LE) CB NB OP UF. assert (NP : 1 <= Z.of_nat (count w) <= 9007199254740992) by lia. assert (LN : Z.of_nat (length ets) <= Z.of_nat (count w)) by lia.
  destruct (ends_val w RW) as (st & k & G & SO & TS). destruct (end_of_ok w FT uniform ltac:(lia)) as (e & EO & ET & E0 & EF).
  assert (EU : neqb e n0 = true \/ (bpow radix2 (-960) <= B2R e)%R) by (destruct ET as ((q & Hq & ->) & _); apply UF, Hq).
  pose proof (smooth_ok ets e (Z.of_nat (count w)) E0 EF nbins NB EU) as SM. pose proof (sf_mono ets e (Z.of_nat (count w)) NP E0 EF nbins NB EU) as SF.
  assert (TH : exists thr, (if show then mapM (report ets e (Z.of_nat (count w)) td) targets else Ok []) = Ok thr).
  { destruct show; [|eexists; reflexivity]. unfold targets, nhalf. cbn [mapM].
    assert (ONE : forall m kk a b, threshold m kk a b -> exists v, report ets e (Z.of_nat (count w)) td (ndec m kk) = Ok v).
    { intros m kk a b TH. destruct (report_ok ets e (Z.of_nat (count w)) NP E0 EF LN ltac:(lia) m kk a b TH td) as (R1 & R2). destruct (Z.lt_ge_cases (b * Z.of_nat (length (isort (left_region ets e)))) (a * Z.of_nat (count w))) as [C|C]; [eexists; apply R1, C|]. destruct (R2 C) as (t & R & _). eexists; exact R. }
    destruct (ONE 5 1 1 2 ltac:(left; reflexivity)) as (v1 & R1). destruct (ONE 75 2 3 4 ltac:(right; left; reflexivity)) as (v2 & R2). destruct (ONE 9 1 9 10 ltac:(right; right; reflexivity)) as (v3 & R3).
    rewrite R1. cbn [bind]. rewrite R2. cbn [bind]. rewrite R3. cbn [bind]. eexists. reflexivity. }
  destruct TH as (thr & TH).
  assert (PN : forall i, (i < 2)%nat -> exists v, py_nth (map (lpoint n0 e nbins) (zrange 0 nbins)) (Z.of_nat i) = Ok v).
  { intros i Hi. eexists. apply (ProofExposure.py_nth_ok nnan). rewrite map_length, zrange_len. lia. }
  destruct (PN 1%nat ltac:(lia)) as (v1 & P1). destruct (PN 0%nat ltac:(lia)) as (v0 & P0). change (Z.of_nat 1) with 1 in P1. change (Z.of_nat 0) with 0 in P0.
  eexists {| e_t := cdf_times ets e; e_f := cdf_fracs ets e (Z.of_nat (count w)); e_st := map (lpoint n0 e nbins) (zrange 0 nbins); e_sf := map (fun i => frac (Z.of_nat (count w)) (Z.of_nat (left_by ets e (lpoint n0 e nbins i)))) (zrange 0 nbins); e_thr := thr |}, e.
  split.
  - unfold plot_exposure_time. fold (count w). rewrite G. cbn [bind fst]. unfold unpack4. destruct (st_o st) as [o|]; [|exfalso; apply OP, SO; reflexivity]. cbn [bind]. rewrite TS, EO. cbn [bind]. rewrite SM. cbn [bind]. rewrite TH. cbn [bind]. rewrite P1. cbn [bind]. rewrite P0. reflexivity.
  - split; [exact ET|]. cbn [e_st e_sf]. split; [apply (f_linspace n0 e nbins NB)|]. split; [rewrite map_map; reflexivity | exact SF].
Qed.
Print Assumptions C63_smoothed.

(** C64 The reported E50, E75, E90 are the smallest recorded times by which 1/2, 3/4, 9/10 of all particles have left; "not reached" is
    reported exactly if there is no such time. *)
Theorem C64_quantiles :
  forall w ets td nbins uniform r, etd_input w ets -> Z.of_nat (count w) <= 1073741824 ->
  plot_exposure_time w ets td nbins uniform true = Ok r ->
  exists e, end_time_of uniform w e /\ Forall2 (quantile_report ets e (Z.of_nat (count w)) td) half_three_quarters_nine_tenths (e_thr r).
Proof.
  intros w ets td nbins uniform r (RW & FT & LE) CB H. unfold plot_exposure_time in H. fold (count w) in H. destruct (ends_val w RW) as (st & k & G & SO & TS). rewrite G in H. cbn [bind fst] in H.
  unfold unpack4 in H. destruct (st_o st) as [o|]; [|discriminate]. cbn [bind] in H. rewrite TS in H.
  destruct (Nat.eq_dec (count w) 0) as [Z0|NZ]; [rewrite Z0 in H; destruct uniform; discriminate|].
  destruct (end_of_ok w FT uniform ltac:(lia)) as (e & EO & ET & E0 & EF). rewrite EO in H. cbn [bind] in H.
  destruct (smooth_cdf _ _ _ _) as [(tt & ff)|]; [|discriminate]. cbn [bind] in H.
  destruct (mapM _ _) as [thr|] eqn:TH; [|discriminate]. cbn [bind] in H. destruct (py_nth tt 1) as [q1|]; [|discriminate]. destruct (py_nth tt 0) as [q0|]; [|discriminate]. cbn [bind] in H.
  assert (HT : e_thr r = thr) by exact (f_equal (fun x => match x with Ok y => e_thr y | Err _ => thr end) (Logic.eq_sym H)). rewrite HT. clear H HT.
  exists e. split; [exact ET|]. assert (NP : 1 <= Z.of_nat (count w) <= 9007199254740992) by lia. assert (LN : Z.of_nat (length ets) <= Z.of_nat (count w)) by lia.
  assert (ONE : forall m kk a b, threshold m kk a b -> exists v, report ets e (Z.of_nat (count w)) td (ndec m kk) = Ok v /\ quantile_report ets e (Z.of_nat (count w)) td (a, b) v).
  { intros m kk a b THR. destruct (report_ok ets e (Z.of_nat (count w)) NP E0 EF LN CB m kk a b THR td) as (R1 & R2).
    destruct (Z.lt_ge_cases (b * Z.of_nat (length (isort (left_region ets e)))) (a * Z.of_nat (count w))) as [C|C].
    - exists None. split; [apply R1, C|]. cbn [quantile_report fst snd]. intros t RT. unfold reached in RT. pose proof (left_by_le ets e t). destruct (th_ab m kk a b THR) as (_ & BP & _). nia.
    - destruct (R2 C) as (t & R & I & RT & M). exists (Some (ndiv t td)). split; [exact R|]. exists t. auto. }
  destruct (ONE 5 1 1 2 ltac:(left; reflexivity)) as (v1 & R1 & Q1). destruct (ONE 75 2 3 4 ltac:(right; left; reflexivity)) as (v2 & R2 & Q2). destruct (ONE 9 1 9 10 ltac:(right; right; reflexivity)) as (v3 & R3 & Q3).
  unfold targets, nhalf in TH. cbn [mapM] in TH. rewrite R1 in TH. cbn [bind] in TH. rewrite R2 in TH. cbn [bind] in TH. rewrite R3 in TH. cbn [bind] in TH.
  assert (HT : thr = [v1; v2; v3]) by exact (f_equal (fun x => match x with Ok y => y | Err _ => thr end) (Logic.eq_sym TH)). rewrite HT.
  unfold half_three_quarters_nine_tenths. repeat (constructor; [assumption|]). constructor.
Qed.
Print Assumptions C64_quantiles.

(** z is the whole part of x >= 0. *)
Definition whole_part (x : f64) (z : Z) : Prop := (IZR z <= B2R x < IZR z + 1)%R.
(** The first grid point by which a/b of the particles have left, in whole units of td. *)
Definition grid_report (ets : list f64) (e : f64) (np : Z) (td : f64) (grid : list f64) (ab : Z * Z) (z : Z) : Prop :=
  exists i, (i < length grid)%nat /\ reached (fst ab) (snd ab) ets e np (nth i grid nnan) /\ (forall j, (j < i)%nat -> ~ reached (fst ab) (snd ab) ets e np (nth j grid nnan)) /\
    whole_part (ndiv (nth i grid nnan) td) z.

(** C65 What plot_exposure_time_thresholds does on walk data without tracked variables: if nine tenths of the particles left, it reports the three
    times; otherwise it ends with an IndexError. *)
Theorem C65_thresholds_partial :
  forall w ets td nbins uniform, etd_input w ets -> 1 <= Z.of_nat (count w) <= 1073741824 -> 2 <= nbins <= 1125899906842624 -> opts w = [] ->
  (forall q, (q < count w)%nat -> neqb (final_time w q) n0 = true \/ (bpow radix2 (-960) <= B2R (final_time w q))%R) ->
  nleb n1 td = true -> nisfin td = true ->
  exists e grid, end_time_of uniform w e /\ np_linspace n0 e nbins = Ok grid /\
    (9 * Z.of_nat (count w) <= 10 * Z.of_nat (length (left_region ets e)) ->
       exists zs, plot_exposure_time_thresholds w ets td nbins uniform = Ok zs /\ Forall2 (grid_report ets e (Z.of_nat (count w)) td grid) half_three_quarters_nine_tenths zs) /\
    (10 * Z.of_nat (length (left_region ets e)) < 9 * Z.of_nat (count w) -> plot_exposure_time_thresholds w ets td nbins uniform = Err IndexError).
Proof.
  intros w ets td nbins uniform (RW & FT & LE) CB NB OP UF T1 TF. assert (NP : 1 <= Z.of_nat (count w) <= 9007199254740992) by lia. assert (LN : Z.of_nat (length ets) <= Z.of_nat (count w)) by lia.
  destruct (ends_val w RW) as (st & k & G & SO & TS). destruct (end_of_ok w FT uniform ltac:(lia)) as (e & EO & ET & E0 & EF).
  assert (EU : neqb e n0 = true \/ (bpow radix2 (-960) <= B2R e)%R) by (destruct ET as ((q & Hq & ->) & _); apply UF, Hq).
  pose proof (smooth_ok ets e (Z.of_nat (count w)) E0 EF nbins NB EU) as SM.
  set (pt := lpoint n0 e nbins) in *. set (sf := map (fun i => frac (Z.of_nat (count w)) (Z.of_nat (left_by ets e (pt i)))) (zrange 0 nbins)) in *. set (grid := map pt (zrange 0 nbins)) in *.
  assert (GL : length grid = Z.to_nat nbins) by (unfold grid; rewrite map_length, zrange_len; lia).
  assert (GN : forall i, (i < Z.to_nat nbins)%nat -> nth i grid nnan = pt (Z.of_nat i)) by (intros i Hi; unfold grid, pt; apply st_nth; assumption).
  exists e, grid. split; [exact ET|]. split; [apply (f_linspace n0 e nbins NB)|].
  set (n := Z.of_nat (length (left_region ets e))). assert (NS : Z.of_nat (length (isort (left_region ets e))) = n) by (unfold n; rewrite (s_len ets e); reflexivity).
  assert (CALL : plot_exposure_time_thresholds w ets td nbins uniform = mapM (fun lv => t <- py_nth grid (Z.of_nat (searchsorted sf lv)) ;; py_int (ndiv t td)) targets).
  { unfold plot_exposure_time_thresholds. fold (count w). rewrite G. cbn [bind fst]. unfold unpack3. rewrite (proj2 SO OP). cbn [bind]. rewrite TS, EO. cbn [bind]. rewrite SM. reflexivity. }
  assert (LOW : forall m kk a b, threshold m kk a b -> b * n < a * Z.of_nat (count w) -> (t <- py_nth grid (Z.of_nat (searchsorted sf (ndec m kk))) ;; py_int (ndiv t td)) = Err IndexError).
  { intros m kk a b THR C. rewrite <- NS in C. destruct (grid_reach ets e (Z.of_nat (count w)) NP E0 EF LN nbins NB EU ltac:(lia) m kk a b THR) as (R & _). fold pt sf in R. rewrite (R C).
    unfold py_nth, norm_ix. rewrite GL, Z2Nat.id by lia. destruct (Z.leb_spec 0 nbins); [|lia]. destruct (Z.ltb_spec nbins nbins); [lia|]. cbn [andb]. destruct (Z.leb_spec (- nbins) nbins); [|lia]. destruct (Z.ltb_spec nbins 0); [lia|]. reflexivity. }
  assert (HIGH : forall m kk a b, threshold m kk a b -> a * Z.of_nat (count w) <= b * n -> exists z, (t <- py_nth grid (Z.of_nat (searchsorted sf (ndec m kk))) ;; py_int (ndiv t td)) = Ok z /\ grid_report ets e (Z.of_nat (count w)) td grid (a, b) z).
  { intros m kk a b THR C. rewrite <- NS in C. destruct (grid_reach ets e (Z.of_nat (count w)) NP E0 EF LN nbins NB EU ltac:(lia) m kk a b THR) as (_ & R). fold pt sf in R. destruct (R C) as (RB & RR & RF).
    set (i := searchsorted sf (ndec m kk)) in *. rewrite (ProofExposure.py_nth_ok nnan) by lia. cbn [bind]. rewrite GN by lia.
    destruct (pt_ok ets e E0 EF nbins NB EU (Z.of_nat i) RB) as (PA & _). destruct (e_R e E0 EF) as (FE & PE). destruct (lpoint_fin n0 e nbins n0_f FE n0_R (e_AB e E0 EF EU) NB (Z.of_nat i) ltac:(lia)) as (PF & PB).
    fold pt in PF, PB. change (B2R (n0 : f64)) with 0%R in PB. destruct (div_td (pt (Z.of_nat i)) td PF ltac:(lra) T1 TF) as (DF & DP). destruct (py_int_ok _ DF DP) as (z & PZ & WZ).
    exists z. split; [exact PZ|]. exists i. split; [lia|]. cbn [fst snd]. rewrite GN by lia. split; [exact RR|]. split; [|exact WZ]. intros j Hj. rewrite GN by lia. apply RF. lia. }
  rewrite CALL. unfold targets, nhalf. cbn [mapM]. split; intros C.
  - destruct (HIGH 5 1 1 2 ltac:(left; reflexivity) ltac:(lia)) as (z1 & R1 & Q1). destruct (HIGH 75 2 3 4 ltac:(right; left; reflexivity) ltac:(lia)) as (z2 & R2 & Q2). destruct (HIGH 9 1 9 10 ltac:(right; right; reflexivity) ltac:(lia)) as (z3 & R3 & Q3).
    exists [z1; z2; z3]. rewrite R1. cbn [bind]. rewrite R2. cbn [bind]. rewrite R3. cbn [bind]. split; [reflexivity|]. unfold half_three_quarters_nine_tenths. repeat (constructor; [assumption|]). constructor.
  - destruct (Z.lt_ge_cases (2 * n) (1 * Z.of_nat (count w))) as [C1|C1]; [rewrite (LOW 5 1 1 2 ltac:(left; reflexivity) C1); reflexivity|].
    destruct (HIGH 5 1 1 2 ltac:(left; reflexivity) ltac:(lia)) as (z1 & R1 & Q1). rewrite R1. cbn [bind].
    destruct (Z.lt_ge_cases (4 * n) (3 * Z.of_nat (count w))) as [C2|C2]; [rewrite (LOW 75 2 3 4 ltac:(right; left; reflexivity) C2); reflexivity|].
    destruct (HIGH 75 2 3 4 ltac:(right; left; reflexivity) ltac:(lia)) as (z2 & R2 & Q2). rewrite R2. cbn [bind]. rewrite (LOW 9 1 9 10 ltac:(right; right; reflexivity) C). reflexivity.
Qed.
Print Assumptions C65_thresholds_partial.
(** Hence it does not complete for every exposure list: here two of three particles left. *)
Theorem C65_refuted :
  ~ forall w ets td nbins uniform, etd_input w ets -> 1 <= Z.of_nat (count w) -> 2 <= nbins -> opts w = [] -> nleb n1 td = true -> nisfin td = true ->
      exists zs, plot_exposure_time_thresholds w ets td nbins uniform = Ok zs.
Proof.
  intros H. destruct (H rw_plain [fofZ 10; fofZ 5; fofZ 0] (fofZ 1) 5 true) as (zs & E); try reflexivity; try (cbn; lia).
  - split; [exact rw_plain_rect|]. split; [|cbn; lia]. intros q Hq. do 3 (destruct q as [|q]; [split; vm_compute; reflexivity|]). cbn in Hq. lia.
  - assert (B : match plot_exposure_time_thresholds rw_plain [fofZ 10; fofZ 5; fofZ 0] (fofZ 1) 5 true with Err IndexError => true | _ => false end = true) by (vm_compute; reflexivity).
    rewrite E in B. discriminate.
Qed.
Print Assumptions C65_refuted.

(** ** Hypotheses met *)
Definition etd_ets : list f64 := [fofZ 10; fofZ 5; fofZ 0].
Lemma etd_in : etd_input rw_w etd_ets.
Proof. split; [exact rw_rect|]. split; [|cbn; lia]. intros q Hq. do 3 (destruct q as [|q]; [split; vm_compute; reflexivity|]). cbn in Hq. lia. Qed.
Definition same (l l' : list f64) : bool := (length l =? length l')%nat && forallb (fun p => neqb (fst p) (snd p)) (combine l l').
Example C63_cdf_ex : etd_input rw_w etd_ets /\ match plot_exposure_time rw_w etd_ets (fofZ 1) 6 true true with
  | Ok r => same (e_t r) [fofZ 0; fofZ 5; fofZ 10; fofZ 25] && same (e_f r) (map (fun k => share k 3) [0; 1; 2; 2]%nat)
  | Err _ => false end = true.
Proof. split; [exact etd_in | vm_compute; reflexivity]. Qed.
Lemma etd_times q : (q < count rw_w)%nat -> (1 <= B2R (final_time rw_w q))%R.
Proof.
  intros Hq. destruct q as [|[|[|q]]]; [| | |cbn in Hq; lia]; unfold final_time; cbn [tat record_of row r_t r_x rw_w xinds times nth length Nat.sub];
    match goal with |- (1 <= B2R (fofZ ?z))%R => destruct (fofZ_exact z ltac:(lia)) as (_ & ->) end; apply IZR_le; lia.
Qed.
Lemma etd_normal q : (q < count rw_w)%nat -> neqb (final_time rw_w q) n0 = true \/ (bpow radix2 (-960) <= B2R (final_time rw_w q))%R.
Proof. intros Hq. right. apply Rle_trans with 1%R; [change 1%R with (bpow radix2 0); apply bpow_le; lia | apply etd_times, Hq]. Qed.
Example C63_smoothed_ex : etd_input rw_w etd_ets /\ opts rw_w <> [] /\ (forall q, (q < count rw_w)%nat -> neqb (final_time rw_w q) n0 = true \/ (bpow radix2 (-960) <= B2R (final_time rw_w q))%R) /\
  match plot_exposure_time rw_w etd_ets (fofZ 1) 6 true true with
  | Ok r => same (e_st r) [fofZ 0; fofZ 5; fofZ 10; fofZ 15; fofZ 20; fofZ 25] && same (e_sf r) (map (fun k => share k 3) [0; 1; 2; 2; 2; 2]%nat)
  | Err _ => false end = true.
Proof. split; [exact etd_in|]. split; [discriminate|]. split; [exact etd_normal | vm_compute; reflexivity]. Qed.
Example C64_quantiles_ex : etd_input rw_w etd_ets /\ match plot_exposure_time rw_w etd_ets (fofZ 2) 6 true true with
  | Ok r => match e_thr r with [Some v; None; None] => neqb v (fofZ 5) | _ => false end
  | Err _ => false end = true.
Proof. split; [exact etd_in | vm_compute; reflexivity]. Qed.
Example C65_thresholds_ex : etd_input rw_plain [fofZ 10; fofZ 5; fofZ 8] /\ opts rw_plain = [] /\
  match plot_exposure_time_thresholds rw_plain [fofZ 10; fofZ 5; fofZ 8] (fofZ 1) 6 true with Ok [10; 10; 10] => true | _ => false end = true.
Proof.
  split; [|split; [reflexivity | vm_compute; reflexivity]]. split; [exact rw_plain_rect|]. split; [|cbn; lia]. intros q Hq. do 3 (destruct q as [|q]; [split; vm_compute; reflexivity|]). cbn in Hq. lia.
Qed.
