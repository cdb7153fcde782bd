(** Exact step times along a history, and the exact form of the target-time stopping rule. *)
From Coq Require Import ZArith Bool String List Lia QArith Qcanon Lqa.
From Verif Require Import Num XQ XQLaws XQFacts Py NumFacts NumMore Walker ParticleTrack Gen SpecWeights SpecPick SpecWalk SpecHist SpecInit SpecMotion SpecExact SpecApi
  ProofInit ProofStep ProofStepper ProofRun ProofRunTo ProofGen ProofHist ProofMotion ProofTimeExact ProofApi ProofApi2.
Import ListNotations.
Open Scope Z_scope.

Section S.
Context {G : xq -> Prop}.
Lemma session_time_exact lm L W (p : params xq) P draws s w q i : session G lm L W p P draws s -> finite_field lm P ->
  s_walk s = Some w -> (q < count w)%nat -> nisfin (tat (hist P w q) 0) = true -> (S i < length (r_x (hist P w q)))%nat ->
  exists k d dx c v v' dc diff t t', let r := hist P w q in
    (k < 9)%nat /\ xat r (S i) = xat r i + nth k (o_jwalk P) 0 /\ yat r (S i) = yat r i + nth k (o_iwalk P) 0 /\
    nth k (o_dist P) n0 = XFin d /\ o_dx P = XFin dx /\
    m_cos lm (nsub (nth k (o_angles P) n0) (cell (o_vang P) (xat r i) (yat r i))) = XFin c /\
    cell (o_vel P) (xat r i) (yat r i) = XFin v /\ cell (o_vel P) (xat r (S i)) (yat r (S i)) = XFin v' /\ o_diff P = XFin dc /\
    (qabs diff <= dc * qhalf)%Qc /\ tat r i = XFin t /\ tat r (S i) = XFin t' /\
    t' = (t + d * dx * qpos c * ((1 / v + 1 / v') * qhalf) * (1 + diff))%Qc.
Proof.
  intros SS FF EW Hq F0. set (r := hist P w q) in *.
  destruct (session_field lm L W p P draws s SS) as (FO & _ & U & R & EL & EW2).
  pose proof (session_hist lm L W p P draws s w q SS EW Hq) as HO. fold r in HO.
  assert (ING : forall j, (j < length (r_x r))%nat -> in_grid P (xat r j) (yat r j)).
  { intros j Hj. pose proof (session_positions lm L W p P draws s w q j SS EW Hq Hj) as Q. fold r in Q. unfold in_grid. rewrite EL, EW2. exact Q. }
  assert (ST : forall j t, (S j < length (r_x r))%nat -> tat r j = XFin t ->
     exists k d dx c v v' dc diff, (k < 9)%nat /\ xat r (S j) = xat r j + nth k (o_jwalk P) 0 /\ yat r (S j) = yat r j + nth k (o_iwalk P) 0 /\
    nth k (o_dist P) n0 = XFin d /\ o_dx P = XFin dx /\
    m_cos lm (nsub (nth k (o_angles P) n0) (cell (o_vang P) (xat r j) (yat r j))) = XFin c /\
    cell (o_vel P) (xat r j) (yat r j) = XFin v /\ cell (o_vel P) (xat r (S j)) (yat r (S j)) = XFin v' /\ o_diff P = XFin dc /\
    (qabs diff <= dc * qhalf)%Qc /\ tat r (S j) = XFin (t + d * dx * qpos c * ((1 / v + 1 / v') * qhalf) * (1 + diff))%Qc).
  { intros j t Hj Et. destruct HO as (_ & _ & D & _). specialize (D j Hj). rewrite Et in D.
    exact (step_time_exact G lm P _ _ t _ _ _ FF (ING j ltac:(lia)) (ING (S j) Hj) D). }
  assert (TF : forall j, (j < length (r_x r))%nat -> exists t, tat r j = XFin t).
  { induction j as [|j IH]; intros Hj; [apply xfin_ex; exact F0|]. destruct (IH ltac:(lia)) as (t & Et).
    destruct (ST j t Hj Et) as (k & d & dx & c & v & v' & dc & diff & H). eexists. apply H. }
  intros Hi. destruct (TF i ltac:(lia)) as (t & Et). destruct (ST i t Hi Et) as (k & d & dx & c & v & v' & dc & diff & H).
  destruct H as (H1 & H2 & H3 & H4 & H5 & H6 & H7 & H8 & H9 & H10 & H11).
  exists k, d, dx, c, v, v', dc, diff, t, (t + d * dx * qpos c * ((1 / v + 1 / v') * qhalf) * (1 + diff))%Qc. cbv zeta.
  repeat (split; [assumption|]). reflexivity.
Qed.

(** If going on is estimated to be farther from the target than stopping, the time is less than half an estimated step
    short of the target. *)
Lemma stop_close (t d g : Qc) : (0 < d)%Qc -> (qabs (t - g) < qabs (t + d - g))%Qc -> (g - d * qhalf < t)%Qc.
Proof.
  intros D H. 
  assert (A : forall a, (this (qabs a) == Qabs.Qabs (this a))%Q).
  { intros a. unfold qabs. destruct (Qclt_le_dec a 0) as [C|C].
    - rewrite Qabs.Qabs_neg by (apply Qlt_le_weak; exact C). apply Qred_correct.
    - rewrite Qabs.Qabs_pos by exact C. reflexivity. }
  unfold Qclt in *. rewrite !A in H. change (this 0%Qc) with 0%Q in D.
  assert (QA : forall a b, (this (a + b)%Qc == this a + this b)%Q) by (intros; apply Qred_correct).
  assert (QM : forall a b, (this (a * b)%Qc == this a * this b)%Q) by (intros; apply Qred_correct).
  assert (QO : forall a, (this (- a)%Qc == - this a)%Q) by (intros; apply Qred_correct).
  assert (E1 : (this (t - g)%Qc == this t - this g)%Q) by (unfold Qcminus; rewrite QA, QO; reflexivity).
  assert (E2 : (this (t + d - g)%Qc == this t + this d - this g)%Q) by (unfold Qcminus; rewrite !QA, QO; reflexivity).
  assert (E3 : (this (g - d * qhalf)%Qc == this g - this d * (1 # 2))%Q) by (unfold Qcminus; rewrite QA, QO, QM, qhalf_q; reflexivity).
  rewrite E1, E2 in H. rewrite E3. revert H. apply Qabs.Qabs_case; apply Qabs.Qabs_case; intros; lra.
Qed.
End S.
