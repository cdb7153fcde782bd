(** The travel time of a step in exact arithmetic. *)
From Coq Require Import ZArith Bool String List QArith Qcanon Lia Lqa.
From Verif Require Import Num XQ XQLaws XQFacts Py NumFacts Walker ParticleTrack SpecWeights SpecPick SpecWalk SpecExact.
Import ListNotations.
Open Scope Z_scope.

Lemma qhalf_q : (this qhalf == 1 # 2)%Q.
Proof. vm_compute. reflexivity. Qed.
Lemma diffusion_exact (P : pobj xq) (dc : Qc) w : o_diff P = XFin dc -> (0 <= dc)%Qc -> unit_draw w ->
  exists d, diffusion P w = XFin d /\ (qabs d <= dc * qhalf)%Qc.
Proof.
  intros E D (U0 & U1).
  assert (FW : exists q, w = XFin q).
  { apply xfin_ex. destruct w as [|[|]|q]; cbn in U0, U1; try discriminate. reflexivity. }
  destruct FW as (q & ->). rewrite n0_xq in U0. rewrite n1_xq in U1. apply xq_leb in U0. apply xq_ltb in U1.
  unfold diffusion. rewrite E, n0_xq. destruct (nltb (XFin 0) (XFin dc)) eqn:C.
  - rewrite xq_half, xq_sub, xq_mul. eexists. split; [reflexivity|]. fold qhalf. apply xq_ltb in C.
    unfold qabs, Qcle, Qclt in *. pose proof qhalf_q as Hq.
    destruct (Qclt_le_dec ((qhalf - q) * dc) 0); unfold Qclt, Qcle in *;
    unfold Qcminus, Qcmult, Qcplus, Qcopp in *; cbn [this Q2Qc] in *; repeat rewrite Qred_correct in *;
    change (this 0%Qc) with 0%Q in *; change (this 1%Qc) with 1%Q in *; rewrite ?Hq in *; nra.
  - apply xq_ltb_f in C. exists 0%Qc. split; [reflexivity|]. 
    assert (dc = 0%Qc) as -> by (apply Qcle_antisym; assumption). 
    unfold qabs. destruct (Qclt_le_dec 0 0) as [L|L]; [exfalso; unfold Qclt in L; lra|].
    rewrite Qcmult_0_l. apply Qcle_refl.
Qed.

(** C18 *)
Lemma travel_time_exact lm (P : pobj xq) k x y x' y' w dx d c v v' dc :
  o_dx P = XFin dx -> nth k (o_dist P) n0 = XFin d ->
  m_cos lm (nsub (nth k (o_angles P) n0) (cell (o_vang P) x y)) = XFin c ->
  cell (o_vel P) x y = XFin v -> cell (o_vel P) x' y' = XFin v' -> (0 < v)%Qc -> (0 < v')%Qc ->
  o_diff P = XFin dc -> (0 <= dc)%Qc -> unit_draw w ->
  exists diff, (qabs diff <= dc * qhalf)%Qc /\
    travel_time lm P k x y x' y' w = XFin (d * dx * qpos c * ((1 / v + 1 / v') * qhalf) * (1 + diff))%Qc.
Proof.
  intros Edx Ed Ec Ev Ev' Hv Hv' Edc Hdc U. destruct (diffusion_exact P dc w Edc Hdc U) as (df & Ef & Hf).
  exists df. split; [exact Hf|]. unfold travel_time, projected. cbv zeta. rewrite Ef, Edx, Ed, Ec, Ev, Ev', n0_xq, n1_xq, xq_half.
  fold qhalf. rewrite !xq_div by (apply qc_pos_nz; assumption).
  assert (Eq : (if nltb (XFin 0) (XFin c) then XFin c else XFin 0) = XFin (qpos c)).
  { unfold qpos. destruct (nltb (XFin 0) (XFin c)) eqn:C; destruct (Qclt_le_dec 0 c) as [D|D]; try reflexivity.
    - apply xq_ltb in C. exfalso. unfold Qclt, Qcle in *. lra.
    - apply xq_ltb_f in C. exfalso. unfold Qclt, Qcle in *. lra. }
  rewrite Eq, !xq_mul, !xq_add, !xq_mul. f_equal. ring.
Qed.

Lemma step_time_exact GV lm (P : pobj xq) x y t x' y' t' : finite_field lm P -> in_grid P x y -> in_grid P x' y' ->
  documented_step GV lm P x y (XFin t) x' y' t' ->
  exists k d dx c v v' dc diff,
    (k < 9)%nat /\ x' = x + nth k (o_jwalk P) 0 /\ y' = y + nth k (o_iwalk P) 0 /\
    nth k (o_dist P) n0 = XFin d /\ o_dx P = XFin dx /\
    m_cos lm (nsub (nth k (o_angles P) n0) (cell (o_vang P) x y)) = XFin c /\
    cell (o_vel P) x y = XFin v /\ cell (o_vel P) x' y' = XFin v' /\ o_diff P = XFin dc /\
    (qabs diff <= dc * qhalf)%Qc /\
    t' = XFin (t + d * dx * qpos c * ((1 / v + 1 / v') * qhalf) * (1 + diff))%Qc.
Proof.
  intros (Fdx & Fdc & Hdc & Fd & Fv & Fc) G1 G2 (k & u & w & Hk & K4 & Uu & Uw & NE & N0 & SE & EX & EY & ND & ET & Gu & Gw).
  destruct (xfin_ex _ Fdx) as (dx & Edx). destruct (xfin_ex _ Fdc) as (dc & Edc). destruct (xfin_ex _ (Fd k Hk)) as (d & Ed).
  destruct (Fv x y G1) as (Fv1 & Pv1). destruct (Fv x' y' G2) as (Fv2 & Pv2).
  destruct (xfin_ex _ Fv1) as (v & Ev). destruct (xfin_ex _ Fv2) as (v' & Ev').
  destruct (xfin_ex _ (Fc k x y Hk G1)) as (c & Ec).
  rewrite Ev, n0_xq in Pv1. rewrite Ev', n0_xq in Pv2. apply xq_ltb in Pv1, Pv2.
  unfold nn in Hdc. rewrite Edc, n0_xq in Hdc. apply xq_leb in Hdc.
  destruct (travel_time_exact lm P k x y x' y' w dx d c v v' dc Edx Ed Ec Ev Ev' Pv1 Pv2 Edc Hdc Uw) as (df & H1 & H2).
  exists k, d, dx, c, v, v', dc, df. rewrite ET, H2, xq_add.
  split; [exact Hk|]. split; [exact EX|]. split; [exact EY|]. split; [exact Ed|]. split; [exact Edx|]. split; [exact Ec|].
  split; [exact Ev|]. split; [exact Ev'|]. split; [exact Edc|]. split; [exact H1|]. reflexivity.
Qed.
(** With diff_coeff = 0 the factor is 1. *)
Lemma no_diffusion (d : Qc) : (qabs d <= 0 * qhalf)%Qc -> d = 0%Qc.
Proof.
  rewrite Qcmult_0_l. unfold qabs. intros H. destruct (Qclt_le_dec d 0) as [L|L].
  - exfalso. unfold Qclt, Qcle in *. change (this 0%Qc) with 0%Q in *.
    assert (E : (this (- d)%Qc == - this d)%Q) by apply Qred_correct. rewrite E in H. lra.
  - apply Qcle_antisym; assumption.
Qed.
