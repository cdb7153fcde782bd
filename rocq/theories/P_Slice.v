(** Properties C107, C108: how the slices of get_time_state depend on the target time. *)
From Coq Require Import ZArith Bool String List Lia QArith Qcanon Lqa.
From Flocq Require Import IEEE754.BinarySingleNaN.
From Verif Require Import Num NumFacts NumMore F64 F64Laws F64Sub XQ XQLaws XQFacts Py Walker ParticleTrack SpecWeights SpecPick SpecWalk SpecHist SpecInit SpecExact SpecApi SpecRout SpecSplit Routines
  ProofSim ProofApi ProofHist ProofRout ProofRout2 ProofApi2 Examples ExamplesReach ExamplesExact ExamplesQ P_Motion P_Rout P_Time P_Split.
Import ListNotations.
Open Scope Z_scope.

(** C107 For a later target time get_time_state returns, for every particle, the same or a later record (exact arithmetic). *)
Lemma nearer_order (x y a b : Qc) : (x <= y)%Qc -> (a <= b)%Qc -> (qabs (y - a) < qabs (x - a))%Qc -> (qabs (x - b) <= qabs (y - b))%Qc -> False.
Proof.
  unfold qabs, Qcminus. intros XY AB H1 H2.
  destruct (Qclt_le_dec (y + - a) 0) as [C1|C1], (Qclt_le_dec (x + - a) 0) as [C2|C2], (Qclt_le_dec (y + - b) 0) as [C3|C3], (Qclt_le_dec (x + - b) 0) as [C4|C4];
    unfold Qcle, Qclt in *; rewrite ?this_opp, ?this_plus, ?this_opp in *; change (this 0%Qc) with 0%Q in *; lra.
Qed.
Lemma ordered_le (r : prow xq) : times_in_order r -> forall i j, (i <= j)%nat -> (j < length (r_x r))%nat -> nleb (tat r i) (tat r j) = true.
Proof.
  intros (F & M) i j IJ. induction IJ as [|j IJ IH]; intros HJ.
  - destruct (xfin_ex _ (F i HJ)) as (q & ->). apply xq_leb, Qcle_refl.
  - specialize (IH ltac:(lia)). specialize (M j HJ). destruct (xfin_ex _ (F i ltac:(lia))) as (a & EA). destruct (xfin_ex _ (F j ltac:(lia))) as (b & EB). destruct (xfin_ex _ (F (S j) HJ)) as (c & EC).
    rewrite EA, EB, EC in *. apply xq_leb in IH, M. apply xq_leb. exact (Qcle_trans _ _ _ IH M).
Qed.
Theorem C107_later_target_partial :
  forall (w : walk xq) t1 t2, rect_walk w -> (forall q, (q < count w)%nat -> times_in_order (record_of w q)) ->
    nisfin t1 = true -> nisfin t2 = true -> nleb t1 t2 = true ->
    exists ix1 s1 late1 ix2 s2 late2, get_time_state w t1 = Ok (s1, late1) /\ get_time_state w t2 = Ok (s2, late2) /\
      slice_at w ix1 (st_x s1) (st_y s1) (st_t s1) (st_o s1) /\ slice_at w ix2 (st_x s2) (st_y s2) (st_t s2) (st_o s2) /\
      (forall q, (q < count w)%nat -> (ix1 q <= ix2 q)%nat /\ nleb (nth q (st_t s1) n0) (nth q (st_t s2) n0) = true) /\ (forall q, In q late1 -> In q late2).
Proof.
  intros w t1 t2 RW TO F1 F2 LE.
  assert (FI : forall q t, (q < count w)%nat -> In t (r_t (record_of w q)) -> nisfin t = true).
  { intros q t Hq Ht. destruct (In_nth _ _ n0 Ht) as (i & Hi & <-). destruct RW as (_ & _ & RR). destruct (RR q Hq) as (_ & _ & C & _). apply (proj1 (TO q Hq)). lia. }
  destruct (C50_nearest_exact w t1 RW F1 FI) as (ix1 & s1 & l1 & E1 & SL1 & M1 & L1). destruct (C50_nearest_exact w t2 RW F2 FI) as (ix2 & s2 & l2 & E2 & SL2 & M2 & L2).
  exists ix1, s1, l1, ix2, s2, l2. split; [exact E1|]. split; [exact E2|]. split; [exact SL1|]. split; [exact SL2|].
  destruct (xfin_ex _ F1) as (a & ->). destruct (xfin_ex _ F2) as (b & ->). apply xq_leb in LE.
  assert (ORD : forall q, (q < count w)%nat -> (ix1 q <= ix2 q)%nat).
  { intros q Hq. destruct (Nat.le_gt_cases (ix1 q) (ix2 q)) as [H|H]; [exact H|exfalso].
    destruct (M1 q Hq) as (A1 & _ & B1). destruct (M2 q Hq) as (A2 & C2 & _). specialize (B1 (ix2 q) H). rewrite map_length in *. specialize (C2 (ix1 q) A1).
    rewrite !(nth_map_in _ _ _ n0 n0) in B1 by lia. rewrite !(nth_map_in _ _ _ n0 n0) in C2 by lia.
    destruct RW as (_ & _ & RR). destruct (RR q Hq) as (_ & _ & LT & _). pose proof (ordered_le _ (TO q Hq) (ix2 q) (ix1 q) ltac:(lia) ltac:(lia)) as OR. unfold tat in OR.
    destruct (xfin_ex _ (FI q _ Hq (nth_In _ n0 A1))) as (y & EY). destruct (xfin_ex _ (FI q _ Hq (nth_In _ n0 A2))) as (x & EX). rewrite EX, EY in *.
    rewrite !xq_sub, !xq_abs in B1, C2. apply xq_leb in OR, C2. apply xq_ltb in B1. exact (nearer_order x y a b OR LE B1 C2). }
  split.
  - intros q Hq. split; [apply ORD, Hq|]. destruct SL1 as (_ & _ & _ & SL1 & _). destruct SL2 as (_ & _ & _ & SL2 & _). destruct (SL1 q Hq) as (_ & _ & _ & ->). destruct (SL2 q Hq) as (I2 & _ & _ & ->).
    exact (ordered_le _ (TO q Hq) _ _ (ORD q Hq) I2).
  - intros q Hq. subst l1 l2. apply in_map_iff in Hq as (n & <- & Hn). apply in_map_iff. exists n. split; [reflexivity|]. apply filter_In in Hn as (Hn & LT). apply filter_In. split; [exact Hn|].
    assert (HN : (n < count w)%nat) by (apply in_seq in Hn; lia). destruct RW as (_ & _ & RR). destruct (RR n HN) as (LP & _ & C & _). assert (NE : r_t (record_of w n) <> []) by (intros Q; rewrite Q in C; cbn [length] in C; lia).
    assert (IN : In (last (r_t (record_of w n)) n0) (r_t (record_of w n))) by (destruct (exists_last NE) as (l' & z & ->); rewrite last_last; apply in_or_app; right; left; reflexivity).
    destruct (xfin_ex _ (FI n _ HN IN)) as (z & EZ). rewrite EZ in *. apply xq_ltb in LT. apply xq_ltb. exact (Qclt_le_trans _ _ _ LT LE).
Qed.
Print Assumptions C107_later_target_partial.
(** Every session qualifies if its first times are finite (see C17). *)

(** With doubles it is false: records at 0 s and 2^-60 s, target times 2^-60 s and 1 s. *)
Definition tiny : f64 := fmk 1 (-60).
Definition ti_w : walk f64 := {| xinds := [[3; 4]]; yinds := [[5; 5]]; times := [[fofZ 0; tiny]]; opts := [] |}.
Lemma ti_rect : rect_walk ti_w.
Proof.
  split; [constructor|]. split.
  - split; [reflexivity|]. split; [reflexivity|]. intros v [].
  - intros q Hq. destruct q as [|q]; [split; [cbn; lia|]; split; [reflexivity|]; split; [reflexivity|]; intros kv []|]. cbn in Hq. lia.
Qed.
Definition ti_check : bool := match get_time_state ti_w tiny, get_time_state ti_w (fofZ 1) with
  | Ok (s1, _), Ok (s2, _) => zl_eqb (st_x s1) [4] && zl_eqb (st_x s2) [3] | _, _ => false end.
Theorem C107_rounding_refuted :
  ~ (forall (w : walk f64) t1 t2 s1 s2 late1 late2, rect_walk w -> (forall q, (q < count w)%nat -> times_in_order (record_of w q)) ->
    nisfin t1 = true -> nisfin t2 = true -> nleb t1 t2 = true -> get_time_state w t1 = Ok (s1, late1) -> get_time_state w t2 = Ok (s2, late2) ->
    exists ix1 ix2, slice_at w ix1 (st_x s1) (st_y s1) (st_t s1) (st_o s1) /\ slice_at w ix2 (st_x s2) (st_y s2) (st_t s2) (st_o s2) /\
      (forall q, (q < count w)%nat -> (ix1 q <= ix2 q)%nat)).
Proof.
  intros H. assert (C : ti_check = true) by (vm_compute; reflexivity). unfold ti_check in C.
  destruct (get_time_state ti_w tiny) as [[s1 l1]|] eqn:E1; [|discriminate]. destruct (get_time_state ti_w (fofZ 1)) as [[s2 l2]|] eqn:E2; [|discriminate].
  apply andb_true_iff in C as (C1 & C2).
  destruct (H ti_w tiny (fofZ 1) s1 s2 l1 l2 ti_rect) as (ix1 & ix2 & S1 & S2 & O); try assumption; [ | vm_compute; reflexivity | vm_compute; reflexivity | vm_compute; reflexivity | ].
  { intros q Hq. destruct q as [|q]; [|cbn in Hq; lia]. split; intros i Hi; cbn in Hi.
    - do 2 (destruct i as [|i]; [vm_compute; reflexivity|]). lia.
    - destruct i as [|i]; [vm_compute; reflexivity | lia]. }
  destruct S1 as (_ & _ & _ & S1 & _). destruct S2 as (_ & _ & _ & S2 & _). specialize (S1 0%nat ltac:(cbn; lia)). specialize (S2 0%nat ltac:(cbn; lia)). specialize (O 0%nat ltac:(cbn; lia)).
  destruct S1 as (A1 & X1 & _). destruct S2 as (A2 & X2 & _). apply zl_eqb_ok in C1, C2. rewrite C1 in X1. rewrite C2 in X2. cbn [nth] in X1, X2.
  cbn in A1, A2. destruct (ix1 0%nat) as [|[|]]; [cbn in X1; discriminate| |lia]. destruct (ix2 0%nat) as [|[|]]; [lia | cbn in X2; discriminate | lia].
Qed.
Print Assumptions C107_rounding_refuted.
(** The three particles of C93's session (P_Time), target times 0 s and 20 s: the first slice shows the seeds, the second later records. *)
Definition sl_check (w : walk xq) : bool :=
  Nat.eqb (count w) 3 && forallb (fun q => order_check (record_of w q)) (seq 0 (count w)) &&
  match get_time_state w n0, get_time_state w (nofZ 20) with
  | Ok (s1, l1), Ok (s2, l2) => zl_eqb (st_x s1) (map (fun q => xat (record_of w q) 0) (seq 0 (count w))) && negb (zl_eqb (st_x s1) (st_x s2)) && zl_eqb l1 [] | _, _ => false end.
Lemma zt_rect : rect_walk zt_w.
Proof.
  destruct (session_field eq_lm 10 9 zt_params zt_P eq_draws zt_s zt_session) as (FO & _ & U & R & _). apply (SInv_rect (GV := fun _ => True) eq_lm zt_P zt_s zt_w FO); [exact (reached_inv eq_lm zt_P eq_draws zt_s FO U R) | apply zt_facts].
Qed.
Lemma sl_check_ok w : sl_check w = true -> count w = 3%nat /\ (forall q, (q < count w)%nat -> times_in_order (record_of w q)) /\
  exists s1 s2 l2, get_time_state w n0 = Ok (s1, []) /\ get_time_state w (nofZ 20) = Ok (s2, l2) /\ st_x s1 <> st_x s2.
Proof.
  unfold sl_check. intros C. apply andb_true_iff in C as (C & C3). apply andb_true_iff in C as (C1 & C2). apply Nat.eqb_eq in C1. rewrite forallb_forall in C2.
  split; [exact C1|]. split; [intros q Hq; apply order_check_ok, C2, in_seq; lia|].
  destruct (get_time_state w n0) as [[s1 l1]|]; [|discriminate]. destruct (get_time_state w (nofZ 20)) as [[s2 l2]|]; [|discriminate].
  apply andb_true_iff in C3 as (C3 & C5). apply andb_true_iff in C3 as (_ & C4). apply zl_eqb_ok in C5. subst l1. exists s1, s2, l2. split; [reflexivity|]. split; [reflexivity|].
  intros Q. rewrite Q in C4. assert (R : forall l, zl_eqb l l = true) by (induction l as [|a l IH]; [reflexivity|]; cbn [zl_eqb]; rewrite Z.eqb_refl; exact IH). rewrite R in C4. discriminate.
Qed.
Example C107_example : rect_walk zt_w /\ count zt_w = 3%nat /\ (forall q, (q < count zt_w)%nat -> times_in_order (record_of zt_w q)) /\ nisfin (n0 : xq) = true /\ nisfin (nofZ 20 : xq) = true /\ nleb (n0 : xq) (nofZ 20) = true /\
  exists s1 s2 l2, get_time_state zt_w n0 = Ok (s1, []) /\ get_time_state zt_w (nofZ 20) = Ok (s2, l2) /\ st_x s1 <> st_x s2.
Proof.
  assert (C : sl_check zt_w = true) by (vm_compute; reflexivity).
  apply sl_check_ok in C. destruct C as (C1 & C2 & C3). split; [exact zt_rect|]. split; [exact C1|]. split; [exact C2|]. do 3 (split; [vm_compute; reflexivity|]). exact C3.
Qed.

(** C108 For the time of a recorded position get_time_state returns the first record with that time: for the particle in question the returned time is the one asked for, and if no
    earlier record has the same time, the returned position is the recorded one. *)
Theorem C108_recorded_time_partial :
  forall (w : walk f64) q i, rect_walk w -> (forall q t, (q < count w)%nat -> In t (r_t (record_of w q)) -> nisfin t = true) ->
    (q < count w)%nat -> let r := record_of w q in (i < length (r_x r))%nat ->
    exists k s late, get_time_state w (tat r i) = Ok (s, late) /\
      neqb (nth q (st_t s) n0) (tat r i) = true /\ (k <= i)%nat /\ nth q (st_x s) 0 = xat r k /\ nth q (st_y s) 0 = yat r k /\ nth q (st_t s) n0 = tat r k /\
      (forall j, (j < k)%nat -> neqb (tat r j) (tat r i) = false) /\
      ((forall j, (j < i)%nat -> neqb (tat r j) (tat r i) = false) -> nth q (st_x s) 0 = xat r i /\ nth q (st_y s) 0 = yat r i).
Proof.
  intros w q i RW FI Hq r Hi. assert (LT : length (r_t r) = length (r_x r)) by (destruct RW as (_ & _ & RR); destruct (RR q Hq) as (_ & _ & C & _); exact C).
  assert (FJ : forall j, (j < length (r_x r))%nat -> nisfin (tat r j) = true) by (intros j Hj; apply (FI q _ Hq), nth_In; fold r; lia).
  destruct (C50_nearest w (tat r i) RW (FJ i Hi) FI) as (ix & s & late & E & SL & M & _). destruct SL as (_ & _ & _ & SL & _). destruct (SL q Hq) as (A & X & Y & T0). fold r in A, X, Y, T0.
  destruct (M q Hq) as (_ & B & C). rewrite map_length in B. fold r in B, C. specialize (B i ltac:(lia)).
  assert (RF : neqb (tat r i) (tat r i) = true).
  { pose proof (FJ i Hi) as F. change (Beqb (tat r i) (tat r i) = true). rewrite eqb_eq. assert (L : Bleb (tat r i) (tat r i) = true) by (apply (leb_R _ _ F F); apply RIneq.Rle_refl). rewrite L. reflexivity. }
  rewrite !(nth_map_in _ _ _ n0 n0) in B by lia. fold (tat r i) in B. fold (tat r (ix q)) in B.
  assert (EQ : neqb (tat r (ix q)) (tat r i) = true).
  { apply f_sub_zero; [apply FJ, A | apply FJ, Hi|]. eapply leb_trans; [exact B|]. apply f_sub_self; [apply FJ, Hi | apply FJ, Hi | exact RF]. }
  assert (BEF : forall j, (j < ix q)%nat -> neqb (tat r j) (tat r i) = false).
  { intros j Hj. destruct (neqb (tat r j) (tat r i)) eqn:Q; [exfalso|reflexivity]. specialize (C j Hj). rewrite !(nth_map_in _ _ _ n0 n0) in C by lia. fold (tat r j) in C. fold (tat r (ix q)) in C.
    assert (Z0 : nleb (nabs (nsub (tat r j) (tat r i))) n0 = true) by (apply f_sub_self; [apply FJ; lia | apply FJ, Hi | exact Q]).
    assert (Z1 : nleb n0 (nabs (nsub (tat r (ix q)) (tat r i))) = true).
    { pose proof (V_nan _ _ (fsub_V _ _ (FJ _ A) (FJ _ Hi))) as NN. change (nsub (tat r (ix q)) (tat r i)) with (fsub (tat r (ix q)) (tat r i)).
      destruct (fsub (tat r (ix q)) (tat r i)); [reflexivity | reflexivity | discriminate | reflexivity]. }
    rewrite ltb_def in C. apply andb_true_iff in C as (_ & C). apply negb_true_iff in C. rewrite (leb_trans _ _ _ Z0 Z1) in C. discriminate. }
  exists (ix q), s, late. split; [exact E|]. split; [rewrite T0; exact EQ|].
  assert (K : (ix q <= i)%nat) by (destruct (Nat.le_gt_cases (ix q) i) as [H|H]; [exact H|]; rewrite (BEF i H) in RF; discriminate).
  split; [exact K|]. split; [exact X|]. split; [exact Y|]. split; [exact T0|]. split; [exact BEF|].
  intros U. assert (I : ix q = i) by (destruct (Nat.eq_dec (ix q) i) as [H|H]; [exact H|]; rewrite (U (ix q) ltac:(lia)) in EQ; discriminate). rewrite <- I. split; assumption.
Qed.
Print Assumptions C108_recorded_time_partial.
Example C108_example : rect_walk rw_w /\ (forall q t, (q < count rw_w)%nat -> In t (r_t (record_of rw_w q)) -> nisfin t = true) /\
  (2 < length (r_x (record_of rw_w 0)))%nat /\ (forall j, (j < 2)%nat -> neqb (tat (record_of rw_w 0) j) (tat (record_of rw_w 0) 2) = false) /\
  match get_time_state rw_w (tat (record_of rw_w 0) 2) with Ok (s, _) => zl_eqb (st_x s) [3; 4; 6] | Err _ => false end = true.
Proof.
  split; [exact rw_rect|]. split; [exact rw_finite|]. split; [cbn; lia|]. split; [|vm_compute; reflexivity].
  intros j Hj. do 2 (destruct j as [|j]; [vm_compute; reflexivity|]). lia.
Qed.
(** If the last step took no time, the state at a particle's final time is not its final position. *)
Definition fp_check (s : psim xq) : bool := match s_walk s with
  | Some w => let r := hist zt_P w 1 in Nat.ltb 1 (count w) && nisfin (tat r (last_ix r)) &&
      match get_time_state w (tat r (last_ix r)) with Ok (st, _) => negb ((nth 1 (st_x st) 0 =? last_x r) && (nth 1 (st_y st) 0 =? last_y r)) | Err _ => false end
  | None => false end.
Lemma fp_check_ok s : fp_check s = true -> exists w st late, s_walk s = Some w /\ (1 < count w)%nat /\ let r := hist zt_P w 1 in nisfin (tat r (last_ix r)) = true /\
  get_time_state w (tat r (last_ix r)) = Ok (st, late) /\ ~ (nth 1 (st_x st) 0 = last_x r /\ nth 1 (st_y st) 0 = last_y r).
Proof.
  unfold fp_check. destruct (s_walk s) as [w|]; [|discriminate]. cbv zeta. intros C. apply andb_true_iff in C as (C & C3). apply andb_true_iff in C as (C1 & C2). apply Nat.ltb_lt in C1.
  destruct (get_time_state w (tat (hist zt_P w 1) (last_ix (hist zt_P w 1)))) as [[st late]|] eqn:E; [|discriminate]. exists w, st, late. repeat (split; [assumption || reflexivity|]).
  intros (X & Y). rewrite X, Y, !Z.eqb_refl in C3. discriminate.
Qed.
Lemma fp_true : fp_check pa_s = true.
Proof. vm_compute. reflexivity. Qed.
Theorem C108_final_position_refuted :
  ~ (forall G lm L W (p : params xq) P draws s w q st late, session G lm L W p P draws s -> s_walk s = Some w -> (q < count w)%nat ->
       let r := hist P w q in nisfin (tat r (last_ix r)) = true -> get_time_state w (tat r (last_ix r)) = Ok (st, late) ->
       nth q (st_x st) 0 = last_x r /\ nth q (st_y st) 0 = last_y r).
Proof.
  intros H. destruct (fp_check_ok _ fp_true) as (w & st & late & SW & C1 & C2 & E & NE). exact (NE (H _ _ _ _ _ _ _ _ w 1%nat st late pa_session SW C1 C2 E)).
Qed.
Print Assumptions C108_final_position_refuted.
