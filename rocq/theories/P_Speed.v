(** Property C104: particles do not outrun the flow (exact arithmetic). *)
From Coq Require Import ZArith Bool String List Lia QArith Qcanon.
From Verif Require Import Num XQ XQLaws XQFacts Py NumFacts NumMore Walker ParticleTrack SpecWeights SpecPick SpecWalk SpecHist SpecInit
  SpecMotion SpecExact SpecApi SpecPost ProofInit ProofApi2 ProofPost ProofTimeExact Examples ExamplesReach ExamplesExact ExamplesQ P_Motion P_Time.
Import ListNotations.
Open Scope Z_scope.

(** The water flows in the direction (a, b) everywhere: for every step of the table, its length times the cosine of its angle to the flow is the component of the step
    along (a, b), in cells. *)
Definition flow_towards (lm : Libm xq) (P : pobj xq) (a b : Qc) : Prop :=
  forall k i j, (k < 9)%nat -> k <> 4%nat -> in_grid P i j ->
    exists d c, nth k (o_dist P) n0 = XFin d /\ m_cos lm (nsub (nth k (o_angles P) n0) (cell (o_vang P) i j)) = XFin c /\ (0 < d)%Qc /\
      (d * c = a * Qcofz (nth k (o_jwalk P) 0%Z) + b * Qcofz (nth k (o_iwalk P) 0%Z))%Qc.
(** The way from record i to record j, along (a, b), in cells. *)
Definition along (a b : Qc) (r : prow xq) (i j : nat) : Qc := (a * Qcofz (xat r j - xat r i) + b * Qcofz (yat r j - yat r i))%Qc.
Definition speeds_within (P : pobj xq) (lo hi : Qc) : Prop :=
  (0 < lo)%Qc /\ forall i j, in_grid P i j -> exists v, cell (o_vel P) i j = XFin v /\ (lo <= v)%Qc /\ (v <= hi)%Qc.

Lemma qinv_le a b : (0 < a)%Qc -> (a <= b)%Qc -> (1 / b <= 1 / a)%Qc.
Proof.
  intros A B. assert (B0 : (0 < b)%Qc) by (exact (Qclt_le_trans _ _ _ A B)).
  assert (NA : a <> 0%Qc) by (intros ->; exact (Qclt_not_eq _ _ A eq_refl)). assert (NB : b <> 0%Qc) by (intros ->; exact (Qclt_not_eq _ _ B0 eq_refl)).
  replace (1 / b)%Qc with (a * (1 / a * (1 / b)))%Qc by (field; auto). replace (1 / a)%Qc with (b * (1 / a * (1 / b)))%Qc at 2 by (field; auto).
  apply Qcmult_le_compat_r; [exact B|]. apply Qclt_le_weak, qmul_pos; apply qinv_pos; assumption.
Qed.
Lemma qmul_le a b c d : (0 <= a)%Qc -> (a <= b)%Qc -> (0 <= c)%Qc -> (c <= d)%Qc -> (a * c <= b * d)%Qc.
Proof.
  intros A B C D. apply (Qcle_trans _ (b * c)); [apply Qcmult_le_compat_r; assumption|]. rewrite (Qcmult_comm b c), (Qcmult_comm b d).
  apply Qcmult_le_compat_r; [exact D | exact (Qcle_trans _ _ _ A B)].
Qed.
Lemma qmul_nn a b : (0 <= a)%Qc -> (0 <= b)%Qc -> (0 <= a * b)%Qc.
Proof. intros A B. replace 0%Qc with (0 * 0)%Qc by ring. apply qmul_le; try assumption; apply Qcle_refl. Qed.
Lemma qpos_le c : (c <= qpos c)%Qc /\ (0 <= qpos c)%Qc.
Proof. unfold qpos. destruct (Qclt_le_dec 0 c) as [H|H]; split; try apply Qcle_refl; try assumption. apply Qclt_le_weak, H. Qed.
Lemma qpos_mul d c : (0 < d)%Qc -> (d * qpos c)%Qc = qpos (d * c).
Proof.
  intros D. unfold qpos. destruct (Qclt_le_dec 0 c) as [H|H], (Qclt_le_dec 0 (d * c)) as [K|K]; try reflexivity.
  - exfalso. exact (Qclt_not_le _ _ (qmul_pos _ _ D H) K).
  - exfalso. apply (Qclt_not_le _ _ K). replace 0%Qc with (0 * d)%Qc by ring. rewrite (Qcmult_comm d c). apply Qcmult_le_compat_r; [exact H | apply Qclt_le_weak, D].
  - ring.
Qed.
Lemma qabs_bounds a b : (qabs a <= b)%Qc -> (- b <= a)%Qc /\ (a <= b)%Qc.
Proof.
  unfold qabs. destruct (Qclt_le_dec a 0) as [H|H]; intros B; split.
  - replace a with (- - a)%Qc by ring. apply Qcopp_le_compat, B.
  - apply (Qcle_trans _ 0); [apply Qclt_le_weak, H|]. apply (Qcle_trans _ (- a)); [|exact B]. replace 0%Qc with (- 0)%Qc by ring. apply Qcopp_le_compat, Qclt_le_weak, H.
  - apply (Qcle_trans _ 0); [|exact H]. replace 0%Qc with (- 0)%Qc by ring. apply Qcopp_le_compat. exact (Qcle_trans _ _ _ H B).
  - exact B.
Qed.
Lemma qmean_bounds lo hi v v' : (0 < lo)%Qc -> (lo <= v)%Qc -> (v <= hi)%Qc -> (lo <= v')%Qc -> (v' <= hi)%Qc ->
  (1 / hi <= (1 / v + 1 / v') * qhalf)%Qc /\ ((1 / v + 1 / v') * qhalf <= 1 / lo)%Qc.
Proof.
  intros L A B C D. pose proof (Qclt_le_trans _ _ _ L A) as V. pose proof (Qclt_le_trans _ _ _ L C) as V'.
  assert (H : forall x, ((x + x) * qhalf = x)%Qc). { intros x. replace ((x + x) * qhalf)%Qc with (x * ((1 + 1) * qhalf))%Qc by ring. replace ((1 + 1) * qhalf)%Qc with 1%Qc by (apply Qc_is_canon; vm_compute; reflexivity). ring. }
  split.
  - rewrite <- (H (1 / hi)%Qc). apply Qcmult_le_compat_r; [|apply Qclt_le_weak, qhalf_pos]. apply Qcplus_le_compat; apply qinv_le; assumption.
  - rewrite <- (H (1 / lo)%Qc). apply Qcmult_le_compat_r; [|apply Qclt_le_weak, qhalf_pos]. apply Qcplus_le_compat; apply qinv_le; assumption.
Qed.
Lemma Qcofz_add a b : Qcofz (a + b) = (Qcofz a + Qcofz b)%Qc.
Proof. apply Qc_is_canon. unfold Qcofz, Qcplus. cbn [this Q2Qc]. rewrite !Qred_correct. unfold inject_Z, Qeq, Qplus. cbn. lia. Qed.
Lemma along_step a b r i j k : along a b r i k = (along a b r i j + along a b r j k)%Qc.
Proof.
  unfold along. replace (xat r k - xat r i)%Z with ((xat r j - xat r i) + (xat r k - xat r j))%Z by lia.
  replace (yat r k - yat r i)%Z with ((yat r j - yat r i) + (yat r k - yat r j))%Z by lia. rewrite !Qcofz_add. ring.
Qed.

(** One step: dt = dx * max(0, component) * mean of the inverse velocities * (1 + diff). *)
Lemma step_along G lm L W (p : params xq) P draws s w q i a b :
  session G lm L W p P draws s -> finite_field lm P -> s_walk s = Some w -> (q < count w)%nat ->
  nisfin (tat (hist P w q) 0) = true -> (S i < length (r_x (hist P w q)))%nat -> flow_towards lm P a b ->
  let r := hist P w q in
  exists dx v v' dc diff t t', o_dx P = XFin dx /\ o_diff P = XFin dc /\ (qabs diff <= dc * qhalf)%Qc /\
    in_grid P (xat r i) (yat r i) /\ in_grid P (xat r (S i)) (yat r (S i)) /\
    cell (o_vel P) (xat r i) (yat r i) = XFin v /\ cell (o_vel P) (xat r (S i)) (yat r (S i)) = XFin v' /\ tat r i = XFin t /\ tat r (S i) = XFin t' /\
    (t' - t = dx * qpos (along a b r i (S i)) * ((1 / v + 1 / v') * qhalf) * (1 + diff))%Qc.
Proof.
  intros SS FF SW Hq F Hi FT r.
  destruct (C18_travel_time_formula G lm L W p P draws s w q i SS FF SW Hq F Hi) as (k & d & dx & c & v & v' & dc & diff & t & t' & K & HX & HY & HD & HDX & HC & HV & HV' & HDC & B & T & T' & E).
  assert (GI : forall n, (n < length (r_x (hist P w q)))%nat -> in_grid P (xat (hist P w q) n) (yat (hist P w q) n)).
  { intros n Hn. destruct (session_walk_on G lm L W p P draws s w SS SW) as (_ & ON). destruct (ON q Hq) as (_ & PP). destruct (PP n Hn) as (A1 & A2).
    destruct (session_field lm L W p P draws s SS) as (_ & _ & _ & _ & EL & EW). unfold in_grid. rewrite EL, EW. split; assumption. }
  assert (K4 : k <> 4%nat).
  { intros ->. apply (session_moves lm L W p P draws s w q i SS SW Hq Hi). rewrite HX, HY.
    destruct SS as ((_ & _ & _ & DT & _) & (p' & EI) & _). destruct (init_ok lm p P p' EI) as (? & ? & ? & ? & ? & ? & HH).
    decompose [and] HH. destruct DT as (_ & _ & _ & D1 & D2 & _). rewrite D1 in *. rewrite D2 in *. cbn [dflt] in *.
    repeat match goal with H : o_iwalk P = _ |- _ => rewrite H end. repeat match goal with H : o_jwalk P = _ |- _ => rewrite H end. cbn. f_equal; lia. }
  destruct (FT k _ _ K K4 (GI i ltac:(lia))) as (d' & c' & HD' & HC' & D0 & PR). fold r in HX, HY, HC, HV, HV', T, T', HC'.
  rewrite HD in HD'. injection HD' as <-. rewrite HC in HC'. injection HC' as <-.
  exists dx, v, v', dc, diff, t, t'. split; [exact HDX|]. split; [exact HDC|]. split; [exact B|]. split; [apply GI; lia|]. split; [apply GI, Hi|].
  split; [exact HV|]. split; [exact HV'|]. split; [exact T|]. split; [exact T'|].
  assert (EA : along a b r i (S i) = (d * c)%Qc).
  { unfold along. rewrite PR, HX, HY. f_equal; f_equal; f_equal; lia. }
  rewrite EA, <- qpos_mul by exact D0. rewrite E. ring.
Qed.

(** C104 In a field that flows in the direction (a, b) with speeds of at most hi, a particle gets no further along (a, b) in the time between two records than the
    fastest water would, up to the random factor of the diffusion (at most diff_coeff / 2 of the time). *)
Theorem C104_no_faster_than_the_flow_partial :
  forall G lm L W (p : params xq) P draws s w q i j a b lo hi dx dc,
    session G lm L W p P draws s -> finite_field lm P -> s_walk s = Some w -> (q < count w)%nat ->
    let r := hist P w q in
    nisfin (tat r 0) = true -> (i <= j)%nat -> (j < length (r_x r))%nat ->
    flow_towards lm P a b -> speeds_within P lo hi -> o_dx P = XFin dx -> (0 <= dx)%Qc -> o_diff P = XFin dc -> (dc <= 1 + 1)%Qc ->
    exists t t', tat r i = XFin t /\ tat r j = XFin t' /\
      (dx * along a b r i j * (1 - dc * qhalf) <= hi * (t' - t))%Qc.
Proof.
  intros G lm L W p P draws s w q i j a b lo hi dx dc SS FF SW Hq r F IJ HJ FT (L0 & SP) HDX DX HDC DC.
  assert (H0 : (0 <= 1 - dc * qhalf)%Qc).
  { replace 1%Qc with ((1 + 1) * qhalf)%Qc at 1 by (apply Qc_is_canon; vm_compute; reflexivity). apply -> Qcle_minus_iff. apply Qcmult_le_compat_r; [exact DC | apply Qclt_le_weak, qhalf_pos]. }
  induction IJ as [|j IJ IH].
  - destruct (Nat.eq_dec (S i) (length (r_x r))) as [Q|Q].
    + destruct i as [|i].
      * destruct (xfin_ex _ F) as (t & E). exists t, t. split; [exact E|]. split; [exact E|]. unfold along. rewrite !Z.sub_diag. change (Qcofz 0) with 0%Qc.
        replace (dx * (a * 0 + b * 0) * (1 - dc * qhalf))%Qc with 0%Qc by ring. replace (hi * (t - t))%Qc with 0%Qc by ring. apply Qcle_refl.
      * destruct (step_along _ _ _ _ _ _ _ _ _ _ i a b SS FF SW Hq F ltac:(fold r; lia) FT) as (? & ? & ? & ? & ? & t & t' & _ & _ & _ & _ & _ & _ & _ & _ & E & _).
        exists t', t'. split; [exact E|]. split; [exact E|]. unfold along. rewrite !Z.sub_diag. change (Qcofz 0) with 0%Qc.
        replace (dx * (a * 0 + b * 0) * (1 - dc * qhalf))%Qc with 0%Qc by ring. replace (hi * (t' - t'))%Qc with 0%Qc by ring. apply Qcle_refl.
    + destruct (step_along _ _ _ _ _ _ _ _ _ _ i a b SS FF SW Hq F ltac:(fold r; lia) FT) as (? & ? & ? & ? & ? & t & t' & _ & _ & _ & _ & _ & _ & _ & E & _).
      exists t, t. split; [exact E|]. split; [exact E|]. unfold along. rewrite !Z.sub_diag. change (Qcofz 0) with 0%Qc.
      replace (dx * (a * 0 + b * 0) * (1 - dc * qhalf))%Qc with 0%Qc by ring. replace (hi * (t - t))%Qc with 0%Qc by ring. apply Qcle_refl.
  - destruct IH as (t & t1 & E1 & E2 & B); [lia|].
    destruct (step_along _ _ _ _ _ _ _ _ _ _ j a b SS FF SW Hq F HJ FT) as (dx' & v & v' & dc' & diff & t1' & t2 & X1 & X2 & BD & G1 & G2 & V1 & V2 & T1 & T2 & E).
    fold r in T1, T2, V1, V2, G1, G2, E. rewrite HDX in X1. injection X1 as <-. rewrite HDC in X2. injection X2 as <-. rewrite E2 in T1. injection T1 as <-.
    exists t, t2. split; [exact E1|]. split; [exact T2|].
    destruct (SP _ _ G1) as (x & Y & A1 & A2). rewrite V1 in Y. injection Y as <-. destruct (SP _ _ G2) as (x & Y & A3 & A4). rewrite V2 in Y. injection Y as <-.
    destruct (qmean_bounds lo hi v v' L0 A1 A2 A3 A4) as (M1 & _). destruct (qabs_bounds _ _ BD) as (D1 & _).
    rewrite (along_step a b r i j (S j)).
    replace (dx * (along a b r i j + along a b r j (S j)) * (1 - dc * qhalf))%Qc with (dx * along a b r i j * (1 - dc * qhalf) + dx * along a b r j (S j) * (1 - dc * qhalf))%Qc by ring.
    replace (hi * (t2 - t))%Qc with (hi * (t1 - t) + hi * (t2 - t1))%Qc by ring. apply Qcplus_le_compat; [exact B|]. rewrite E.
    destruct (qpos_le (along a b r j (S j))) as (Q1 & Q2). set (al := along a b r j (S j)) in *.
    assert (HI : (0 < hi)%Qc) by (eapply Qclt_le_trans; [exact L0|]; eapply Qcle_trans; [exact A1 | exact A2]).
    assert (NH : hi <> 0%Qc) by (intros ->; exact (Qclt_not_eq _ _ HI eq_refl)).
    apply (Qcle_trans _ (dx * qpos al * (1 - dc * qhalf))).
    { apply Qcmult_le_compat_r; [|exact H0]. rewrite (Qcmult_comm dx al), (Qcmult_comm dx (qpos al)). apply Qcmult_le_compat_r; assumption. }
    replace (dx * qpos al * (1 - dc * qhalf))%Qc with ((dx * qpos al) * (hi * (1 / hi)) * (1 - dc * qhalf))%Qc by (field; exact NH).
    match goal with |- (_ <= hi * (dx * qpos al * ?m * (1 + diff)))%Qc => replace (hi * (dx * qpos al * m * (1 + diff)))%Qc with ((dx * qpos al) * (hi * m) * (1 + diff))%Qc by ring end.
    assert (DQ : (0 <= dx * qpos al)%Qc) by (apply qmul_nn; assumption).
    assert (HH : (0 <= hi * (1 / hi))%Qc) by (apply qmul_nn; apply Qclt_le_weak; [exact HI | apply qinv_pos, HI]).
    apply qmul_le; [apply qmul_nn; assumption | | exact H0 | ].
    + rewrite !(Qcmult_comm (dx * qpos al)). apply Qcmult_le_compat_r; [|exact DQ]. rewrite !(Qcmult_comm hi). apply Qcmult_le_compat_r; [exact M1 | apply Qclt_le_weak, HI].
    + unfold Qcminus. apply Qcplus_le_compat; [apply Qcle_refl | exact D1].
Qed.
Print Assumptions C104_no_faster_than_the_flow_partial.

(** ... and if no step of the way goes against the flow, the particle is no slower than the slowest water. *)
Theorem C104_no_slower_than_the_flow_partial :
  forall G lm L W (p : params xq) P draws s w q i j a b lo hi dx dc,
    session G lm L W p P draws s -> finite_field lm P -> s_walk s = Some w -> (q < count w)%nat ->
    let r := hist P w q in
    nisfin (tat r 0) = true -> (i < j)%nat -> (j < length (r_x r))%nat ->
    flow_towards lm P a b -> speeds_within P lo hi -> o_dx P = XFin dx -> (0 <= dx)%Qc -> o_diff P = XFin dc ->
    (forall n, (i <= n < j)%nat -> (0 <= along a b r n (S n))%Qc) ->
    exists t t', tat r i = XFin t /\ tat r j = XFin t' /\
      (lo * (t' - t) <= dx * along a b r i j * (1 + dc * qhalf))%Qc.
Proof.
  intros G lm L W p P draws s w q i j a b lo hi dx dc SS FF SW Hq r F IJ HJ FT (L0 & SP) HDX DX HDC FW.
  assert (ONE : forall n, (S n < length (r_x r))%nat -> (0 <= along a b r n (S n))%Qc ->
    exists t t', tat r n = XFin t /\ tat r (S n) = XFin t' /\ (lo * (t' - t) <= dx * along a b r n (S n) * (1 + dc * qhalf))%Qc).
  { intros n Hn AN. destruct (step_along _ _ _ _ _ _ _ _ _ _ n a b SS FF SW Hq F Hn FT) as (dx' & v & v' & dc' & diff & t1 & t2 & X1 & X2 & BD & G1 & G2 & V1 & V2 & T1 & T2 & E).
    fold r in T1, T2, V1, V2, G1, G2, E. rewrite HDX in X1. injection X1 as <-. rewrite HDC in X2. injection X2 as <-. exists t1, t2. split; [exact T1|]. split; [exact T2|].
    destruct (SP _ _ G1) as (x & Y & A1 & A2). rewrite V1 in Y. injection Y as <-. destruct (SP _ _ G2) as (x & Y & A3 & A4). rewrite V2 in Y. injection Y as <-.
    destruct (qmean_bounds lo hi v v' L0 A1 A2 A3 A4) as (_ & M1). destruct (qabs_bounds _ _ BD) as (_ & D1).
    assert (QP : qpos (along a b r n (S n)) = along a b r n (S n)) by (unfold qpos; destruct (Qclt_le_dec 0 (along a b r n (S n))) as [Y|Y]; [reflexivity|apply Qcle_antisym; [exact AN | exact Y]]).
    rewrite QP in E. set (al := along a b r n (S n)) in *. rewrite E.
    assert (NL : lo <> 0%Qc) by (intros ->; exact (Qclt_not_eq _ _ L0 eq_refl)).
    assert (DQ : (0 <= dx * al)%Qc) by (apply qmul_nn; assumption).
    assert (MM : (lo * ((1 / v + 1 / v') * qhalf) <= 1)%Qc).
    { apply (Qcle_trans _ (lo * (1 / lo))); [rewrite !(Qcmult_comm lo); apply Qcmult_le_compat_r; [exact M1 | apply Qclt_le_weak, L0]|].
      replace (lo * (1 / lo))%Qc with 1%Qc by (field; exact NL). apply Qcle_refl. }
    assert (PD : (0 <= 1 + dc * qhalf)%Qc).
    { apply (Qcle_trans _ (1 + 0)); [apply Qclt_le_weak; vm_compute; reflexivity|]. apply Qcplus_le_compat; [apply Qcle_refl|]. apply (Qcle_trans _ (qabs diff)); [|exact BD].
      unfold qabs. destruct (Qclt_le_dec diff 0) as [Y|Y]; [|exact Y]. replace 0%Qc with (- 0)%Qc by ring. apply Qcopp_le_compat, Qclt_le_weak, Y. }
    match goal with |- (lo * (dx * al * ?m * (1 + diff)) <= _)%Qc => replace (lo * (dx * al * m * (1 + diff)))%Qc with ((dx * al) * (lo * m) * (1 + diff))%Qc by ring;
      assert (MN : (0 <= lo * m)%Qc) by (apply qmul_nn; [apply Qclt_le_weak, L0|]; apply qmul_nn; [|apply Qclt_le_weak, qhalf_pos];
        apply Qclt_le_weak, qadd_pos; apply qinv_pos; eapply Qclt_le_trans; [exact L0 | eassumption | exact L0 | eassumption]) end.
    apply (Qcle_trans _ ((dx * al) * (lo * ((1 / v + 1 / v') * qhalf)) * (1 + dc * qhalf))).
    + rewrite !(Qcmult_comm (dx * al * _)). apply Qcmult_le_compat_r; [apply Qcplus_le_compat; [apply Qcle_refl | exact D1] | apply qmul_nn; assumption].
    + apply Qcmult_le_compat_r; [|exact PD]. replace (dx * al)%Qc with ((dx * al) * 1)%Qc at 2 by ring. rewrite !(Qcmult_comm (dx * al)). apply Qcmult_le_compat_r; assumption. }
  induction IJ as [|j IJ IH].
  - apply ONE; [lia | apply FW; lia].
  - destruct IH as (t & t1 & E1 & E2 & B); [lia | intros n Hn; apply FW; lia |]. destruct (ONE j HJ (FW j ltac:(lia))) as (t1' & t2 & T1 & T2 & E).
    rewrite E2 in T1. injection T1 as <-. exists t, t2. split; [exact E1|]. split; [exact T2|]. rewrite (along_step a b r i j (S j)).
    replace (dx * (along a b r i j + along a b r j (S j)) * (1 + dc * qhalf))%Qc with (dx * along a b r i j * (1 + dc * qhalf) + dx * along a b r j (S j) * (1 + dc * qhalf))%Qc by ring.
    replace (lo * (t2 - t))%Qc with (lo * (t1 - t) + lo * (t2 - t1))%Qc by ring. apply Qcplus_le_compat; [exact B | exact E].
Qed.
Print Assumptions C104_no_slower_than_the_flow_partial.

(** The uniform field: discharge towards growing row numbers everywhere.  The cosine is exact on the multiples of pi/4 that occur, with 3/2 for the square root of 2. *)
Definition sp_quarter (m : Z) : xq := ndiv (nmul (nofZ m) npi) (nofZ 4).
Definition sp_table : list xq := [n1; XFin (Q2Qc (2 # 3)); n0; XFin (Q2Qc (- 2 # 3)); nofZ (-1); XFin (Q2Qc (- 2 # 3)); n0; XFin (Q2Qc (2 # 3))].
Definition sp_cos (x : xq) : xq :=
  match find (fun m => neqb x (sp_quarter m)) [0; 1; 2; 3; 4; 5; 6; 7; 8; 9] with Some m => nth (Z.to_nat (m mod 8)) sp_table n0 | None => n0 end.
Definition sp_lm : Libm xq := {| m_sqrt := fun _ => XFin (Q2Qc (3 # 2)); m_cos := sp_cos; m_atan2 := fun y x => if nltb y n0 then nneg (sp_quarter 2) else n0; m_pow := fun d _ => d |}.
Definition sp_params : params xq := with_flow (gx_params_gamma ntenth) (Some "DeltaRCM"%string) (Some (Arr 10 9 (fun i _ => nofZ 2))) (Some (Arr 10 9 (fun _ _ => n0))) None None.
Definition sp_P : pobj xq := fst (unerr (gx_none, sp_params) (init sp_lm sp_params)).
Lemma sp_init : exists p', init sp_lm sp_params = Ok (sp_P, p').
Proof.
  exists (snd (unerr (gx_none, sp_params) (init sp_lm sp_params))). unfold sp_P. rewrite <- surjective_pairing.
  apply is_ok_unerr. vm_compute. reflexivity.
Qed.
Lemma sp_standard : standard sp_lm 10 9 sp_params.
Proof.
  split. { repeat split; try lia; try (intros; discriminate);
    match goal with |- nrow ?a = _ => idtac | |- ncol ?a = _ => idtac end;
    match goal with H : _ = Some ?a |- _ => injection H as <-; reflexivity end. }
  split; [lia|]. split; [lia|]. split; [repeat split|]. split; [intros ct Hc; discriminate|].
  split; [intros g Hg; injection Hg as <-; split; vm_compute; reflexivity|].
  split.
  { intros d H. cbn [sp_lm m_pow]. destruct (nltb d n0) eqn:E; [|reflexivity].
    assert (C : nleb d (dflt (p_dry sp_params) ntenth) = true).
    { apply (leb_trans d n0); [apply lt_le, E | apply lt_le, tenth_ok]. }
    congruence. }
  split; [split; [vm_compute; reflexivity | split; [vm_compute; reflexivity | intros x _; reflexivity]]|].
  intros dx Hd. injection Hd as <-. vm_compute. reflexivity.
Qed.
Lemma sp_cells f : cells_10_9 f = true -> forall i j, in_grid sp_P i j -> f i j = true.
Proof.
  intros H i j (Hi & Hj). change (nrow (o_depth sp_P)) with 10 in Hi. change (ncol (o_depth sp_P)) with 9 in Hj.
  unfold cells_10_9 in H. rewrite forallb_forall in H. specialize (H i (in_zrange _ _ _ Hi)).
  rewrite forallb_forall in H. exact (H j (in_zrange _ _ _ Hj)).
Qed.
Definition sp_flow_check (lm : Libm xq) (P : pobj xq) : bool := forallb (fun k => Nat.eqb k 4 || cells_10_9 (fun i j =>
  let d := nth k (o_dist P) n0 in let c := m_cos lm (nsub (nth k (o_angles P) n0) (cell (o_vang P) i j)) in
  nisfin d && nisfin c && nltb n0 d && neqb (nmul d c) (XFin (1 * Qcofz (nth k (o_jwalk P) 0%Z) + 0 * Qcofz (nth k (o_iwalk P) 0%Z))%Qc))) (seq 0 9).
Lemma sp_flow_ok lm P : (forall f, cells_10_9 f = true -> forall i j, in_grid P i j -> f i j = true) -> sp_flow_check lm P = true -> flow_towards lm P 1 0.
Proof.
  intros CE C k i j Hk K4 Hg. unfold sp_flow_check in C.
  pose proof (forall9 _ C k Hk) as D. cbv beta in D. apply orb_true_iff in D as [D|D]; [apply Nat.eqb_eq in D; contradiction|].
  pose proof (CE _ D i j Hg) as E. cbv beta zeta in E. apply andb_true_iff in E as (E & E4). apply andb_true_iff in E as (E & E3). apply andb_true_iff in E as (E1 & E2).
  destruct (xfin_ex _ E1) as (d & Ed). destruct (xfin_ex _ E2) as (c & Ec). exists d, c. split; [exact Ed|]. split; [exact Ec|]. rewrite Ed, Ec in E4. rewrite Ed, n0_xq in E3.
  split; [apply xq_ltb, E3|]. rewrite xq_mul in E4. apply xq_eqb in E4. exact E4.
Qed.
Lemma sp_flow : flow_towards sp_lm sp_P 1 0.
Proof. apply sp_flow_ok; [exact sp_cells | vm_compute; reflexivity]. Qed.
Lemma sp_cos_fin x : nisfin (sp_cos x) = true.
Proof.
  unfold sp_cos. destruct (find _ _) as [m|]; [|reflexivity]. set (n := Z.to_nat (m mod 8)). clearbody n.
  do 8 (destruct n as [|n]; [vm_compute; reflexivity|]). destruct n; vm_compute; reflexivity.
Qed.
Lemma sp_finite : finite_field sp_lm sp_P.
Proof.
  split; [vm_compute; reflexivity|]. split; [vm_compute; reflexivity|]. split; [vm_compute; reflexivity|].
  split. { apply (forall9 (fun k => nisfin (nth k (o_dist sp_P) n0))). vm_compute. reflexivity. }
  split.
  { intros i j Hg. apply andb_true_iff. revert i j Hg.
    apply (sp_cells (fun i j => nisfin (cell (o_vel sp_P) i j) && nltb n0 (cell (o_vel sp_P) i j))). vm_compute. reflexivity. }
  intros k i j Hk Hg. apply sp_cos_fin.
Qed.
Definition sp_lo : Qc := Q2Qc (1 # 100000000).
Definition sp_hi : Qc := Q2Qc (2 # 1).
Lemma sp_speeds : speeds_within sp_P sp_lo sp_hi.
Proof.
  split; [vm_compute; reflexivity|]. intros i j Hg.
  assert (C : cells_10_9 (fun i j => nisfin (cell (o_vel sp_P) i j) && nleb (XFin sp_lo) (cell (o_vel sp_P) i j) && nleb (cell (o_vel sp_P) i j) (XFin sp_hi)) = true) by (vm_compute; reflexivity).
  pose proof (sp_cells _ C i j Hg) as D. cbv beta in D. apply andb_true_iff in D as (D & D3). apply andb_true_iff in D as (D1 & D2).
  destruct (xfin_ex _ D1) as (v & E). rewrite E in D2, D3. exists v. split; [exact E|]. split; [apply xq_leb, D2 | apply xq_leb, D3].
Qed.
Definition sp_ops : list (op xq) := [OpGen 3 [2; 3] [3; 5] n0 Random None; OpRun; OpRun; OpRun; OpRun].
Definition sp_s : psim xq := unerr (init_sim sp_lm sp_P 0) (do_ops sp_lm sp_P eq_draws sp_ops (init_sim sp_lm sp_P 0)).
Definition sp_w : walk xq := dflt (s_walk sp_s) {| xinds := []; yinds := []; times := []; opts := [] |}.
Definition sp_check : bool := match do_ops sp_lm sp_P eq_draws sp_ops (init_sim sp_lm sp_P 0) with
  | Ok s => match s_walk s with
            | Some w => let r := hist sp_P w 0 in Nat.eqb (count w) 3 && Nat.eqb (length (r_x r)) 5 && nisfin (tat r 0) && (xat r 4 - xat r 0 =? 4) && neqb (tat r 4) (nofZ 27)
            | None => false end
  | Err _ => false end.
Lemma sp_facts : do_ops sp_lm sp_P eq_draws sp_ops (init_sim sp_lm sp_P 0) = Ok sp_s /\ s_walk sp_s = Some sp_w /\ count sp_w = 3%nat /\
  (let r := hist sp_P sp_w 0 in length (r_x r) = 5%nat /\ nisfin (tat r 0) = true /\ xat r 4 - xat r 0 = 4 /\ neqb (tat r 4) (nofZ 27) = true).
Proof.
  assert (C : sp_check = true) by (vm_compute; reflexivity). revert C. unfold sp_check, sp_w, sp_s.
  destruct (do_ops sp_lm sp_P eq_draws sp_ops (init_sim sp_lm sp_P 0)) as [s|e]; [|discriminate]. cbn [unerr].
  destruct (s_walk s) as [w|]; [|discriminate]. cbn [dflt]. cbv zeta. rewrite !andb_true_iff, !Nat.eqb_eq, Z.eqb_eq. tauto.
Qed.
Lemma sp_session : session (fun _ => True) sp_lm 10 9 sp_params sp_P eq_draws sp_s.
Proof.
  split; [exact sp_standard|]. split; [exact sp_init|]. split; [exact eq_stream|]. exists 0%nat, sp_ops. split; [|apply sp_facts].
  constructor; [split; [|exact I]|repeat (constructor; [split; exact I|]); constructor].
  split; [lia|]. intros x y; cbn [In]; intros. right. change (nrow (o_depth sp_P)) with 10. change (ncol (o_depth sp_P)) with 9. lia.
Qed.
(** Particle 0 goes four rows of 10 metres down the flow in 27 seconds; the speeds are between 1e-8 (the floor) and 2. *)
Example C104_example : session (fun _ => True) sp_lm 10 9 sp_params sp_P eq_draws sp_s /\ finite_field sp_lm sp_P /\ s_walk sp_s = Some sp_w /\ count sp_w = 3%nat /\
  (let r := hist sp_P sp_w 0 in nisfin (tat r 0) = true /\ length (r_x r) = 5%nat /\ xat r 4 - xat r 0 = 4 /\ neqb (tat r 4) (nofZ 27) = true) /\
  flow_towards sp_lm sp_P 1 0 /\ speeds_within sp_P sp_lo sp_hi /\ o_dx sp_P = XFin (Qcofz 10) /\ o_diff sp_P = XFin (Q2Qc (2 # 10)).
Proof.
  split; [exact sp_session|]. split; [exact sp_finite|]. destruct sp_facts as (_ & F1 & F2 & F3 & F4 & F5 & F6).
  split; [exact F1|]. split; [exact F2|]. split; [split; [exact F4|]; split; [exact F3|]; split; [exact F5 | exact F6]|].
  split; [exact sp_flow|]. split; [exact sp_speeds|]. split; [vm_compute; reflexivity|].
  match goal with |- ?a = ?b => assert (E : match a with XFin x => Qc_eq_bool x (Q2Qc (2 # 10)) | _ => false end = true) by (vm_compute; reflexivity); destruct a; try discriminate E end.
  f_equal. apply Qc_eq_bool_correct, E.
Qed.

(** The corresponding bound without a direction, that a particle gets no further than the fastest water in any direction, is false: steps against or across the flow take
    no time (the field of C93_example: the particle moves a row against the flow between two records with the same time). *)
Definition zt_lo : Qc := Q2Qc (1 # 100000000).
Definition zt_hi : Qc := Q2Qc (100 # 1).
Lemma zt_speeds : speeds_within zt_P zt_lo zt_hi.
Proof.
  split; [vm_compute; reflexivity|]. intros i j Hg.
  assert (C : cells_10_9 (fun i j => nisfin (cell (o_vel zt_P) i j) && nleb (XFin zt_lo) (cell (o_vel zt_P) i j) && nleb (cell (o_vel zt_P) i j) (XFin zt_hi)) = true) by (vm_compute; reflexivity).
  pose proof (zt_cells _ C i j Hg) as D. cbv beta in D. apply andb_true_iff in D as (D & D3). apply andb_true_iff in D as (D1 & D2).
  destruct (xfin_ex _ D1) as (v & E). rewrite E in D2, D3. exists v. split; [exact E|]. split; [apply xq_leb, D2 | apply xq_leb, D3].
Qed.
Definition zt_check2 : bool := match do_ops eq_lm zt_P eq_draws zt_ops (init_sim eq_lm zt_P 0) with
  | Ok s => match s_walk s with Some w => let r := hist zt_P w 1 in Z.abs (xat r 1 - xat r 0) =? 1 | None => false end
  | Err _ => false end.
Lemma zt_moved : Z.abs (xat (hist zt_P zt_w 1) 1 - xat (hist zt_P zt_w 1) 0) = 1.
Proof.
  assert (C : zt_check2 = true) by (vm_compute; reflexivity). revert C. unfold zt_check2, zt_w, zt_s.
  destruct (do_ops eq_lm zt_P eq_draws zt_ops (init_sim eq_lm zt_P 0)) as [s|e]; [|discriminate]. cbn [unerr].
  destruct (s_walk s) as [w|]; [|discriminate]. cbn [dflt]. cbv zeta. rewrite Z.eqb_eq. tauto.
Qed.
Theorem C104_any_direction_refuted :
  ~ (forall G lm L W (p : params xq) P draws s w q i j lo hi dx dc,
       session G lm L W p P draws s -> finite_field lm P -> s_walk s = Some w -> (q < count w)%nat ->
       let r := hist P w q in
       nisfin (tat r 0) = true -> (i <= j)%nat -> (j < length (r_x r))%nat ->
       speeds_within P lo hi -> o_dx P = XFin dx -> (0 <= dx)%Qc -> o_diff P = XFin dc -> (dc <= 1 + 1)%Qc ->
       exists t t', tat r i = XFin t /\ tat r j = XFin t' /\
         (dx * Qcofz (Z.abs (xat r j - xat r i)) * (1 - dc * qhalf) <= hi * (t' - t))%Qc).
Proof.
  intros H. pose proof zt_facts as (_ & SW & CW & LR & F0 & EQ & _).
  destruct (H (fun _ => True) eq_lm 10 9 zt_params zt_P eq_draws zt_s zt_w 1%nat 0%nat 1%nat zt_lo zt_hi (Qcofz 10) (Q2Qc (2 # 10))) as (t & t' & T & T' & B); clear H.
  - exact zt_session.
  - exact zt_finite.
  - exact SW.
  - rewrite CW. lia.
  - exact F0.
  - lia.
  - rewrite LR. lia.
  - exact zt_speeds.
  - vm_compute. reflexivity.
  - apply Qclt_le_weak. vm_compute. reflexivity.
  - match goal with |- ?a = ?b => assert (E : match a with XFin x => Qc_eq_bool x (Q2Qc (2 # 10)) | _ => false end = true) by (vm_compute; reflexivity); destruct a; try discriminate E end.
    f_equal. apply Qc_eq_bool_correct, E.
  - apply Qclt_le_weak. vm_compute. reflexivity.
  - rewrite T, T' in EQ. apply xq_eqb in EQ. subst t'. rewrite zt_moved in B. replace (zt_hi * (t - t))%Qc with 0%Qc in B by ring.
    revert B. vm_compute. intros C. apply C. reflexivity.
Qed.
Print Assumptions C104_any_direction_refuted.
