(** np.linspace and division by a positive number are monotone in binary64. *)
From Coq Require Import ZArith Bool List Reals Lra Lia Psatz.
From Flocq Require Import Core IEEE754.BinarySingleNaN Relative.
From Verif Require Import Num NumFacts F64 F64Laws NumPost Py Grid ProofExposure.
Import ListNotations.
Open Scope Z_scope.

Local Existing Instance prec_gt_0.
Local Existing Instance prec_lt_emax.

(** Division by a positive number keeps the order. *)
Lemma f_div_mono (x y z : f64) : nleb x y = true -> nltb n0 z = true -> nisfin z = true -> nleb (ndiv x z) (ndiv y z) = true.
Proof.
  unfold n0. cbn [nleb nltb ndiv nofZ nisfin F64num]. unfold fisfin. intros H Z0 FZ.
  rewrite ltb_eq in Z0. apply andb_true_iff in Z0 as (_ & Z0). apply negb_true_iff in Z0. apply leb_R_false in Z0; [|exact FZ|reflexivity]. simpl in Z0.
  assert (SZ : Bsign z = false). { destruct (Bsign z) eqn:E; [|reflexivity]. apply sign_nonpos in E; [lra | exact FZ]. }
  assert (INF : forall s, fdiv (B754_infinity s) z = B754_infinity s). { intros s. unfold fdiv. destruct z as [s'|s'| |s' m e Hb]; try discriminate; simpl in SZ; subst s'; destruct s; reflexivity. }
  destruct (fv x) as [|s|x Fx]; [rewrite leb_nan_1 in H; discriminate| |]; destruct (fv y) as [|t|y Fy].
  - rewrite leb_nan_2 in H; discriminate.
  - rewrite !INF. exact H.
  - rewrite leb_inf_fin in H by exact Fy. subst s. rewrite INF. apply leb_inf_l. eapply V_nan. apply fdiv_V; auto. lra.
  - rewrite leb_nan_2 in H; discriminate.
  - rewrite leb_fin_inf in H by exact Fx. apply negb_true_iff in H. subst t. rewrite INF. apply leb_inf_r. eapply V_nan. apply fdiv_V; auto. lra.
  - apply leb_R in H; auto. eapply V_mono; [apply fdiv_V; auto; lra | apply fdiv_V; auto; lra |].
    unfold Rdiv. apply Rmult_le_compat_r; [|exact H]. left. apply Rinv_0_lt_compat. exact Z0.
Qed.

Lemma f_half_le (x : f64) : nn x -> nleb (nmul nhalf x) x = true.
Proof.
  unfold nn, n0. cbn [nleb nmul nofZ F64num]. destruct f_half as (Bh & Fh). intros H.
  destruct (fv x) as [|[|]|x Fx]; try discriminate.
  - reflexivity.
  - apply leb_0 in H; [|exact Fx]. eapply V_leb_l; [apply fmul_V; assumption | exact Fx|]. rewrite Bh. lra.
Qed.

(** Relative error of rounding a number that is not tiny. *)
Lemma rnd_up r : (bpow radix2 (-1022) <= r)%R -> (rnd r <= r * (1 + / 9007199254740992))%R.
Proof.
  intros H. assert (P : (0 < r)%R) by (eapply Rlt_le_trans; [apply bpow_gt_0 | exact H]).
  pose proof (relative_error_N_FLT radix2 (3 - emax - prec) prec prec_gt_0 (fun x => negb (Z.even x)) r) as E.
  change (3 - emax - prec + prec - 1) with (-1022) in E. rewrite Rabs_pos_eq in E by lra. specialize (E H).
  change (round radix2 (FLT_exp (3 - emax - prec) prec) ZnearestE r) with (rnd r) in E.
  assert (B : (/ 2 * bpow radix2 (- prec + 1) = / 9007199254740992)%R) by (change (- prec + 1) with (-52); simpl; lra).
  change (Znearest (fun x => negb (Z.even x))) with ZnearestE in E.
  change (round radix2 (FLT_exp (3 - emax - prec) prec) ZnearestE r) with (rnd r) in E. rewrite B in E. apply Rabs_le_inv in E. lra.
Qed.
Lemma rnd_down r : (bpow radix2 (-1022) <= r)%R -> (r * (1 - / 9007199254740992) <= rnd r)%R.
Proof.
  intros H. assert (P : (0 < r)%R) by (eapply Rlt_le_trans; [apply bpow_gt_0 | exact H]).
  pose proof (relative_error_N_FLT radix2 (3 - emax - prec) prec prec_gt_0 (fun x => negb (Z.even x)) r) as E.
  change (3 - emax - prec + prec - 1) with (-1022) in E. rewrite Rabs_pos_eq in E by lra. specialize (E H).
  assert (B : (/ 2 * bpow radix2 (- prec + 1) = / 9007199254740992)%R) by (change (- prec + 1) with (-52); simpl; lra).
  change (Znearest (fun x => negb (Z.even x))) with ZnearestE in E.
  change (round radix2 (FLT_exp (3 - emax - prec) prec) ZnearestE r) with (rnd r) in E. rewrite B in E. apply Rabs_le_inv in E. lra.
Qed.

(** The points of np.linspace(a, b, n). *)
Section Lin.
Variables a b : f64.
Variable n : Z.
Hypothesis Fa : is_finite a = true.
Hypothesis Fb : is_finite b = true.
Hypothesis A0 : (0 <= B2R a)%R.
Hypothesis AB : B2R a = B2R b \/ (bpow radix2 (-960) <= B2R b - B2R a)%R.
Hypothesis Hn : 2 <= n <= 1125899906842624.

Definition lstep : f64 := fdiv (fsub b a) (fofZ (n - 1)).
Definition lpoint (i : Z) : f64 := if i =? n - 1 then b else fadd (fmul (fofZ i) lstep) a.

Lemma ab_le : (B2R a <= B2R b)%R.
Proof. destruct AB as [E|L]; [lra|]. pose proof (bpow_gt_0 radix2 (-960)). lra. Qed.
Lemma fn1 : is_finite (fofZ (n - 1)) = true /\ B2R (fofZ (n - 1)) = IZR (n - 1).
Proof. apply fofZ_exact. lia. Qed.
Lemma n1_pos : (1 <= IZR (n - 1))%R.
Proof. apply IZR_le. lia. Qed.
Lemma n1_le : (IZR (n - 1) <= 1125899906842624)%R.
Proof. apply IZR_le. lia. Qed.
Lemma diff_fin : is_finite (fsub b a) = true /\ (0 <= B2R (fsub b a))%R /\ B2R (fsub b a) = rnd (B2R b - B2R a).
Proof.
  pose proof ab_le. pose proof (fsub_V b a Fb Fa) as HV.
  destruct (V_fin_between _ _ (fofZ 0) b HV eq_refl Fb) as (F & B); [simpl; lra|]. simpl in B. split; [exact F|]. split; [lra|].
  destruct HV as [(_ & _ & E)|[(_ & E)|(_ & E)]]; [exact E | rewrite E in F; discriminate | rewrite E in F; discriminate].
Qed.
Lemma step_fin : is_finite lstep = true /\ (0 <= B2R lstep)%R /\ B2R lstep = rnd (B2R (fsub b a) / IZR (n - 1)).
Proof.
  destruct diff_fin as (F & P & _). destruct fn1 as (Fn & Bn). pose proof n1_pos. pose proof (fdiv_V (fsub b a) (fofZ (n - 1)) F Fn ltac:(rewrite Bn; lra)) as HV. rewrite Bn in HV.
  assert (Q : (0 <= B2R (fsub b a) / IZR (n - 1) <= B2R (fsub b a))%R).
  { unfold Rdiv. split; [apply Rmult_le_pos; [exact P | left; apply Rinv_0_lt_compat; lra]|].
    rewrite <- (Rmult_1_r (B2R (fsub b a))) at 2. apply Rmult_le_compat_l; [exact P|]. rewrite <- Rinv_1. apply Rinv_le_contravar; lra. }
  fold lstep in HV. destruct (V_fin_between _ _ (fofZ 0) (fsub b a) HV eq_refl F) as (Fs & B); [simpl; lra|]. simpl in B. split; [exact Fs|]. split; [lra|].
  destruct HV as [(_ & _ & E)|[(_ & E)|(_ & E)]]; [exact E | rewrite E in Fs; discriminate | rewrite E in Fs; discriminate].
Qed.
(** Before the last point the offset does not exceed b - a. *)
Lemma offset_le i : 0 <= i <= n - 2 -> (0 <= IZR i * B2R lstep)%R /\ (rnd (IZR i * B2R lstep) <= B2R b - B2R a)%R.
Proof.
  intros Hi. destruct step_fin as (Fs & Ps & Es). destruct diff_fin as (Fd & Pd & Ed). pose proof n1_pos as N1. pose proof n1_le as N2.
  assert (I0 : (0 <= IZR i)%R) by (apply IZR_le; lia). assert (I1 : (IZR i <= IZR (n - 1) - 1)%R) by (rewrite <- minus_IZR; apply IZR_le; lia).
  split; [nra|]. destruct AB as [E|L].
  { replace (B2R b - B2R a)%R with 0%R in Ed by lra. rewrite rnd_0 in Ed. rewrite Ed in Es. unfold Rdiv in Es. rewrite Rmult_0_l, rnd_0 in Es. rewrite Es, Rmult_0_r, rnd_0. lra. }
  set (D := (B2R b - B2R a)%R) in *. assert (DP : (0 < D)%R) by (eapply Rlt_le_trans; [apply bpow_gt_0 | exact L]).
  assert (B1 : (bpow radix2 (-1022) <= D)%R) by (eapply Rle_trans; [apply bpow_le|exact L]; lia).
  pose proof (rnd_up D B1) as U1. pose proof (rnd_down D B1) as W1. rewrite <- Ed in U1, W1. set (d := B2R (fsub b a)) in *.
  set (m := IZR (n - 1)) in *. assert (W2 : (bpow radix2 (-1020) <= d / m)%R).
  { apply Rle_trans with (bpow radix2 (-960) / 2 / 1125899906842624)%R.
    - replace (bpow radix2 (-960)) with (bpow radix2 (-1020) * bpow radix2 60)%R by (rewrite <- bpow_plus; reflexivity).
      replace (bpow radix2 60) with 1152921504606846976%R by (simpl; lra). pose proof (bpow_gt_0 radix2 (-1020)). lra.
    - assert (H2 : (bpow radix2 (-960) / 2 <= d)%R) by lra. unfold Rdiv in *. apply Rmult_le_compat; [pose proof (bpow_gt_0 radix2 (-960)); lra | lra | exact H2 | apply Rinv_le_contravar; lra]. }
  assert (B2 : (bpow radix2 (-1022) <= d / m)%R) by (eapply Rle_trans; [apply bpow_le|exact W2]; lia).
  pose proof (rnd_up _ B2) as U2. pose proof (rnd_down _ B2) as W3. rewrite <- Es in U2, W3. set (s := B2R lstep) in *.
  destruct (Z.eq_dec i 0) as [->|NZ]; [rewrite Rmult_0_l, rnd_0; lra|].
  assert (I2 : (1 <= IZR i)%R) by (apply IZR_le; lia).
  assert (B3 : (bpow radix2 (-1022) <= s)%R).
  { apply Rle_trans with (bpow radix2 (-1020) * / 4)%R; [|pose proof (bpow_gt_0 radix2 (-1020)); lra].
    replace (bpow radix2 (-1020)) with (bpow radix2 (-1022) * bpow radix2 2)%R by (rewrite <- bpow_plus; reflexivity). simpl (bpow radix2 2). pose proof (bpow_gt_0 radix2 (-1022)). lra. }
  assert (B4 : (bpow radix2 (-1022) <= IZR i * s)%R) by nra.
  eapply Rle_trans; [apply rnd_up, B4|]. set (u := (/ 9007199254740992)%R) in *. assert (UP : (0 < u)%R) by (unfold u; lra).
  assert (DM : (d / m * m = d)%R) by (field; lra). set (q := (d / m)%R) in *.
  assert (MU : (m * u <= / 8)%R) by (unfold u; lra).
  apply Rle_trans with ((m - 1) * (q * (1 + u)) * (1 + u))%R.
  { apply Rmult_le_compat_r; [lra|]. apply Rmult_le_compat; lra. }
  replace ((m - 1) * (q * (1 + u)) * (1 + u))%R with ((q * m - q) * (1 + 2 * u + u * u))%R by ring. rewrite DM.
  assert (QB : (d * (8 * u) <= q)%R). { rewrite <- DM. assert (0 < q)%R by (eapply Rlt_le_trans; [apply bpow_gt_0 | exact W2]). nra. }
  assert (d >= 0)%R by lra.
  apply Rle_trans with (d * (1 - 8 * u) * (1 + 2 * u + u * u))%R; [apply Rmult_le_compat_r; nra|].
  apply Rle_trans with (D * (1 + u) * ((1 - 8 * u) * (1 + 2 * u + u * u)))%R.
  { rewrite Rmult_assoc. apply Rmult_le_compat_r; [|lra]. unfold u. lra. }
  rewrite Rmult_assoc. rewrite <- (Rmult_1_r D) at 2. apply Rmult_le_compat_l; [lra|]. unfold u. lra.
Qed.
Lemma mul_fin i : 0 <= i <= n - 2 -> is_finite (fmul (fofZ i) lstep) = true /\ (0 <= B2R (fmul (fofZ i) lstep) <= B2R b - B2R a)%R /\ B2R (fmul (fofZ i) lstep) = rnd (IZR i * B2R lstep).
Proof.
  intros Hi. destruct (offset_le i Hi) as (P & Q). destruct step_fin as (Fs & Ps & _). destruct (fofZ_exact i ltac:(lia)) as (Fi & Bi).
  pose proof (fmul_V (fofZ i) lstep Fi Fs) as HV. rewrite Bi in HV. assert (R0 : (0 <= rnd (IZR i * B2R lstep))%R) by (rewrite <- rnd_0; apply rnd_mono, P).
  pose proof (abs_B2R_lt_emax _ _ b) as Ab. fold big in Ab. apply Rabs_lt_inv in Ab.
  destruct HV as [(_ & F & E)|[(K & _)|(K & _)]]; [|exfalso; lra|exfalso; lra]. rewrite E. split; [exact F|]. split; [lra | reflexivity].
Qed.
Lemma lpoint_fin i : 0 <= i <= n - 1 -> is_finite (lpoint i) = true /\ (B2R a <= B2R (lpoint i) <= B2R b)%R.
Proof.
  intros Hi. unfold lpoint. pose proof ab_le. destruct (Z.eqb_spec i (n - 1)) as [E|E]; [split; [exact Fb | lra]|].
  destruct (mul_fin i ltac:(lia)) as (F & (P & Q) & _). pose proof (fadd_V _ _ F Fa) as HV.
  apply (V_fin_between _ _ a b HV Fa Fb). lra.
Qed.
Lemma lpoint_mono i j : 0 <= i <= j -> j <= n - 1 -> Bleb (lpoint i) (lpoint j) = true.
Proof.
  intros Hi Hj. destruct (Z.eq_dec j (n - 1)) as [->|NJ].
  - destruct (lpoint_fin i ltac:(lia)) as (F & B). apply leb_R; [exact F | apply lpoint_fin; lia|]. unfold lpoint at 2. rewrite Z.eqb_refl. lra.
  - unfold lpoint. destruct (Z.eqb_spec i (n - 1)); [lia|]. destruct (Z.eqb_spec j (n - 1)); [lia|].
    destruct (mul_fin i ltac:(lia)) as (F & _ & E). destruct (mul_fin j ltac:(lia)) as (F' & _ & E').
    eapply V_mono; [apply fadd_V; [exact F | exact Fa] | apply fadd_V; [exact F' | exact Fa] |]. rewrite E, E'. apply Rplus_le_compat_r, rnd_mono.
    apply Rmult_le_compat_r; [apply step_fin | apply IZR_le; lia].
Qed.
Lemma lpoint_first : neqb (lpoint 0) a = true.
Proof.
  unfold lpoint. destruct (Z.eqb_spec 0 (n - 1)); [lia|]. destruct (mul_fin 0 ltac:(lia)) as (F & _ & E). rewrite Rmult_0_l, rnd_0 in E.
  pose proof (fadd_V _ _ F Fa) as HV. rewrite E, Rplus_0_l in HV. destruct (V_fin_between _ _ a a HV Fa Fa) as (F' & B); [lra|].
  cbn [neqb F64num]. rewrite eqb_eq. rewrite (proj2 (leb_R _ _ F' Fa)), (proj2 (leb_R _ _ Fa F')) by lra. reflexivity.
Qed.
Lemma f_linspace : np_linspace a b n = Ok (map lpoint (zrange 0 n)).
Proof. unfold np_linspace. destruct (Z.ltb_spec n 0); [lia|]. destruct (Z.eqb_spec n 1); [lia|]. reflexivity. Qed.
End Lin.
