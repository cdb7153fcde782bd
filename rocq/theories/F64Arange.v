(** numpy's arange(t, t*(n+1), t) has at least n entries in binary64, for t not too small. *)
From Coq Require Import ZArith Bool List Lia.
From Flocq Require Import Core.
From Flocq Require Import IEEE754.BinarySingleNaN.
From Coq Require Import Reals Lra.
From Verif Require Import Num F64 F64Laws F64Lin Py Unsteady ProofCoord.
Import ListNotations.
Open Scope Z_scope.

Section A.
Variables (t : f64) (n : Z).
Hypothesis Ft : is_finite t = true.
Hypothesis Lt : (bpow radix2 (-900) <= B2R t)%R.
Hypothesis N1 : 1 <= n <= 562949953421312.
Hypothesis FM : is_finite (fmul t (fofZ (n + 1))) = true.
Let t0 : (0 < B2R t)%R.
Proof. eapply Rlt_le_trans; [apply bpow_gt_0 | exact Lt]. Qed.
Lemma small_900 : (bpow radix2 (-1022) <= bpow radix2 (-900) / 2)%R.
Proof. replace (bpow radix2 (-900)) with (bpow radix2 (-899) / 2)%R by (replace (-899) with (-900 + 1) by lia; rewrite bpow_plus; simpl (bpow radix2 1); lra).
  apply Rle_trans with (bpow radix2 (-901)); [apply bpow_le; lia|]. replace (-899) with (-901 + 2) by lia. rewrite bpow_plus. simpl (bpow radix2 2). lra. Qed.
Lemma stop_val : (IZR n * B2R t + B2R t * (7/8) <= B2R (fmul t (fofZ (n + 1))))%R /\ (B2R (fmul t (fofZ (n + 1))) <= 2 * (IZR n + 1) * B2R t)%R.
Proof.
  destruct (fofZ_exact (n + 1) ltac:(lia)) as (Fn & Bn). pose proof (fmul_V t (fofZ (n + 1)) Ft Fn) as HV. rewrite Bn in HV.
  assert (E : B2R (fmul t (fofZ (n + 1))) = rnd (B2R t * IZR (n + 1))).
  { destruct HV as [(_ & _ & E) | [(_ & E) | (_ & E)]]; [exact E | rewrite E in FM; discriminate | rewrite E in FM; discriminate]. }
  rewrite E, plus_IZR. assert (A1 : (1 <= IZR n)%R) by (apply IZR_le; lia). assert (A2 : (IZR n <= 562949953421312)%R) by (apply IZR_le; lia). pose proof small_900.
  assert (B : (bpow radix2 (-1022) <= B2R t * (IZR n + 1))%R).
  { apply Rle_trans with (B2R t * 1)%R; [pose proof t0; lra|]. apply Rmult_le_compat_l; [pose proof t0; lra | lra]. }
  pose proof (rnd_down _ B) as D. pose proof (rnd_up _ B) as U. simpl (IZR 1) in *. pose proof t0 as TP. 
  assert (K : (B2R t * (IZR n + 1) * / 9007199254740992 <= B2R t * (1/8))%R).
  { rewrite Rmult_assoc. apply Rmult_le_compat_l; [lra|]. apply Rmult_le_reg_r with 9007199254740992%R; [lra|]. rewrite Rmult_assoc, Rinv_l by lra. lra. }
  split; [lra|]. apply Rle_trans with (1 := U). assert (K2 : (0 <= B2R t * (IZR n + 1))%R) by (apply Rmult_le_pos; lra). lra.
Qed.
Lemma diff_val : is_finite (fsub (fmul t (fofZ (n + 1))) t) = true /\ (B2R t * (IZR n - 1/4) <= B2R (fsub (fmul t (fofZ (n + 1))) t))%R /\ (B2R (fsub (fmul t (fofZ (n + 1))) t) <= 2 * (IZR n + 1) * B2R t)%R.
Proof.
  destruct stop_val as (L & U). pose proof (fsub_V (fmul t (fofZ (n + 1))) t FM Ft) as HV. set (M := fmul t (fofZ (n + 1))) in *. pose proof t0 as TP.
  assert (A1 : (1 <= IZR n)%R) by (apply IZR_le; lia). assert (A2 : (IZR n <= 562949953421312)%R) by (apply IZR_le; lia).
  assert (TN : (B2R t <= IZR n * B2R t)%R) by nra.
  destruct (V_fin_between _ _ (fofZ 0) M HV eq_refl FM) as (F & B); [simpl; lra|]. simpl in B. split; [exact F|].
  assert (E : B2R (fsub M t) = rnd (B2R M - B2R t)).
  { destruct HV as [(_ & _ & E) | [(_ & E) | (_ & E)]]; [exact E | rewrite E in F; discriminate | rewrite E in F; discriminate]. }
  split; [|lra]. rewrite E. pose proof small_900.
  assert (B' : (bpow radix2 (-1022) <= B2R t * (IZR n - 1/8))%R).
  { apply Rle_trans with (B2R t * (1/2))%R; [lra|]. apply Rmult_le_compat_l; lra. }
  apply Rle_trans with (rnd (B2R t * (IZR n - 1/8))); [|apply rnd_mono; lra]. eapply Rle_trans; [|apply rnd_down, B'].
  assert (K : (B2R t * (IZR n - 1/8) * / 9007199254740992 <= B2R t * (1/8))%R).
  { rewrite Rmult_assoc. apply Rmult_le_compat_l; [lra|]. apply Rmult_le_reg_r with 9007199254740992%R; [lra|]. rewrite Rmult_assoc, Rinv_l by lra. lra. }
  lra.
Qed.
Lemma quot_val : is_finite (fdiv (fsub (fmul t (fofZ (n + 1))) t) t) = true /\ (IZR n - 1/2 <= B2R (fdiv (fsub (fmul t (fofZ (n + 1))) t) t))%R.
Proof.
  destruct diff_val as (FD & L & U). set (D := fsub _ _) in *. pose proof t0 as TP. pose proof (fdiv_V D t FD Ft ltac:(lra)) as HV.
  assert (A1 : (1 <= IZR n)%R) by (apply IZR_le; lia). 
  assert (Q1 : (IZR n - 1/2 <= B2R D / B2R t)%R). { apply Rmult_le_reg_r with (B2R t); [exact TP|]. unfold Rdiv. rewrite Rmult_assoc, Rinv_l by lra. lra. }
  assert (Q2 : (B2R D / B2R t <= IZR (2 * (n + 1)))%R). { rewrite mult_IZR, plus_IZR. apply Rmult_le_reg_r with (B2R t); [exact TP|]. unfold Rdiv. rewrite Rmult_assoc, Rinv_l by lra. lra. }
  destruct (fofZ_exact (2 * (n + 1)) ltac:(lia)) as (F2 & B2). destruct (fmk_exact (2 * n - 1) (-1) ltac:(lia) ltac:(lia)) as (F1 & B1).
  assert (B1' : B2R (fmk (2 * n - 1) (-1)) = (IZR n - 1/2)%R). { rewrite B1. unfold F2R. cbn [Fnum Fexp]. rewrite minus_IZR, mult_IZR. simpl (bpow radix2 (-1)). lra. }
  destruct (V_fin_between _ _ (fmk (2 * n - 1) (-1)) (fofZ (2 * (n + 1))) HV F1 F2) as (F & B); [rewrite B1', B2; split; assumption|]. split; [exact F|]. rewrite B1' in B. lra.
Qed.
Lemma arange_len : exists tt, np_arange t (fmul t (fofZ (n + 1))) t = Ok tt /\ n <= Z.of_nat (length tt).
Proof.
  destruct quot_val as (F & L). destruct (ffrac_value _ F) as (a & d & E & B). unfold np_arange. cbn [nfrac ndiv nsub F64num] in *. rewrite E. eexists. split; [reflexivity|].
  rewrite map_length. unfold zrange. rewrite map_length, seq_length. unfold zceil. rewrite B in L.
  assert (D0 : (0 < IZR (Zpos d))%R) by (apply IZR_lt; lia).
  assert (H : ((2 * IZR n - 1) * IZR (Zpos d) <= 2 * IZR a)%R).
  { apply Rmult_le_compat_r with (r := IZR (Zpos d)) in L; [|lra]. unfold Rdiv in L. rewrite (Rmult_assoc (IZR a)), Rinv_l in L by lra. lra. }
  replace ((2 * IZR n - 1) * IZR (Zpos d))%R with (IZR ((2 * n - 1) * Zpos d)) in H by (rewrite mult_IZR, minus_IZR, mult_IZR; reflexivity).
  replace (2 * IZR a)%R with (IZR (2 * a)) in H by (rewrite mult_IZR; reflexivity). apply le_IZR in H. cbn [fst snd]. 
  assert (G : n <= - (- a / Zpos d)). { assert (- a / Zpos d <= - n); [|lia]. assert (- a / Z.pos d < - n + 1); [|lia]. apply Z.div_lt_upper_bound; [lia|]. nia. }
  lia.
Qed.
End A.
Lemma leb_real (t : f64) : is_finite t = true -> nleb (fmk 1 (-900)) t = true -> (bpow radix2 (-900) <= B2R t)%R.
Proof.
  intros F H. destruct (fmk_exact 1 (-900) ltac:(lia) ltac:(lia)) as (F1 & B1). cbn [nleb F64num] in H.
  destruct (Rle_or_lt (bpow radix2 (-900)) (B2R t)) as [C|C]; [exact C|]. exfalso. unfold Bleb, SpecFloat.SFleb in H.
  assert (L : Bleb (fmk 1 (-900)) t = true) by exact H. rewrite (Bleb_correct _ _ _ _ F1 F) in L. destruct (Rle_bool_spec (B2R (fmk 1 (-900))) (B2R t)) as [K|K]; [|discriminate].
  rewrite B1 in K. unfold F2R in K. cbn [Fnum Fexp] in K. lra.
Qed.
