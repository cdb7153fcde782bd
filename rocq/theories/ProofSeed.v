(** Seeding: admissible requests are accepted, exact seeding is balanced, random seeding is uniform. *)
From Coq Require Import ZArith Bool String List Lia QArith Qcanon Lqa.
From Verif Require Import Num XQ XQLaws XQFacts Py NumFacts NumMore Walker ParticleTrack Gen SpecWeights SpecPick SpecWalk SpecHist SpecInit SpecApi
  ProofPick ProofPickExact ProofInit ProofStep ProofStepper ProofRun ProofRunTo ProofGen ProofHist ProofApi ProofApi2 ProofStuck.
Import ListNotations.
Open Scope Z_scope.

Section S.
Context {T : Type} {N : Num T} {NL : NumLaws T} {NM : NumMore T} {G : T -> Prop}.

Lemma search_sorted (a : list T) x : a <> [] -> nisnan x = false ->
  (forall i j, (i <= j < length a)%nat -> nleb (nth i a nnan) (nth j a nnan) = true) ->
  nleb x (nth (length a - 1) a nnan) = true ->
  let r := searchsorted a x in
  (r < length a)%nat /\ nleb x (nth r a nnan) = true /\ (forall i, (i < r)%nat -> nltb (nth i a nnan) x = true).
Proof.
  intros NE Nx M Top r. assert (LN : (0 < length a)%nat) by (destruct a; [congruence | simpl; lia]).
  assert (NN : forall i, (i < length a)%nat -> nisnan (nth i a nnan) = false) by (intros i Hi; eapply leb_nan_l, (M i i); lia).
  destruct (bsearch_spec a x (length a) 0 (length a)) as (A & B & C); try lia.
  - intros i j Hij Hj. rewrite !np_lt_notnan by (first [exact Nx | apply NN; lia]).
    intros Q. eapply le_lt_trans; [|exact Q]. apply M. lia.
  - fold (searchsorted a x) in A, B, C. fold r in A, B, C.
    assert (R : (r < length a)%nat).
    { destruct (Nat.lt_ge_cases r (length a)) as [|Q]; [assumption|]. exfalso.
      assert (E : np_lt (nth (length a - 1) a nnan) x = true) by (apply B; lia).
      rewrite np_lt_notnan in E by (first [exact Nx | apply NN; lia]).
      apply lt_split in E. destruct E. congruence. }
    split; [exact R|]. split.
    + assert (E : np_lt (nth r a nnan) x = false) by (apply C; lia).
      rewrite np_lt_notnan in E by (first [exact Nx | apply NN; lia]). apply not_lt_le; [apply NN; lia | exact Nx | exact E].
    + intros i Hi. assert (E : np_lt (nth i a nnan) x = true) by (apply B; lia).
      rewrite np_lt_notnan in E by (first [exact Nx | apply NN; lia]). exact E.
Qed.

Definition cuts (n : nat) : list T := map (fun k => nofZ (Z.of_nat k)) (seq 1 n).
Lemma cuts_nth n k : (k < n)%nat -> nth k (cuts n) nnan = nofZ (Z.of_nat (S k)).
Proof.
  intros H. unfold cuts. rewrite (nth_indep _ nnan (nofZ (Z.of_nat 0))) by (rewrite map_length, seq_length; exact H).
  rewrite (map_nth (fun k => nofZ (Z.of_nat k))), seq_nth by exact H. reflexivity.
Qed.
Lemma cuts_length n : length (cuts n) = n.
Proof. unfold cuts. rewrite map_length, seq_length. reflexivity. Qed.
Lemma seed_pick_spec {A} (c : list A) (u : T) (d : A) : c <> [] -> Z.of_nat (length c) <= 9007199254740992 -> unit_draw u ->
  exists k x, random_pick_seed c u = Ok (nth k c d) /\ (k < length c)%nat /\
    x = nadd n0 (nmul (nsub (nofZ (Z.of_nat (length c))) n0) u) /\ nleb x (nofZ (Z.of_nat (S k))) = true /\
    (forall i, (i < k)%nat -> nltb (nofZ (Z.of_nat (S i))) x = true).
Proof.
  intros NE B U. unfold random_pick_seed. change (map _ (seq 1 (length c))) with (cuts (length c)). cbv zeta.
  assert (LN : (0 < length c)%nat) by (destruct c; [congruence | simpl; lia]).
  assert (NC : cuts (length c) <> []) by (intros E; apply (f_equal (@length T)) in E; rewrite cuts_length in E; simpl in E; lia).
  rewrite (py_last_ok _ nnan NC), cuts_length. cbn [bind]. rewrite cuts_nth by lia. replace (S (length c - 1)) with (length c) by lia.
  set (top := nofZ (Z.of_nat (length c))).
  assert (FT : nisfin (nsub top n0) = true) by (apply sub_fin_z, ofZ_fin; lia).
  assert (HT : nn top) by (apply ofZ_le; lia).
  assert (EU : np_uniform0 top u = Ok (nadd n0 (nmul (nsub top n0) u))) by (unfold np_uniform0; rewrite FT; reflexivity).
  rewrite EU. cbn [bind]. destruct (uniform_range top u _ HT U EU) as (_ & _ & XN & XL).
  destruct (search_sorted (cuts (length c)) (nadd n0 (nmul (nsub top n0) u)) NC (nn_notnan _ XN)) as (R1 & R2 & R3).
  - intros i j Hij. rewrite cuts_length in Hij. rewrite !cuts_nth by lia. apply ofZ_le. lia.
  - rewrite cuts_length, cuts_nth by lia. replace (S (length c - 1)) with (length c) by lia. exact XL.
  - rewrite cuts_length in R1. exists (searchsorted (cuts (length c)) (nadd n0 (nmul (nsub top n0) u))), (nadd n0 (nmul (nsub top n0) u)).
    split; [apply py_nth_ok; exact R1|]. split; [exact R1|]. split; [reflexivity|]. rewrite cuts_nth in R2 by exact R1. split; [exact R2|].
    intros i Hi. specialize (R3 i Hi). rewrite cuts_nth in R3 by lia. exact R3.
Qed.
Lemma pick_seeds_total draws c n : c <> [] -> Z.of_nat (length c) <= 9007199254740992 -> (forall i, unit_draw (draws i)) ->
  forall pos, exists xs, pick_seeds draws c n pos = Ok (xs, (pos + n)%nat).
Proof.
  intros NE B U. induction n as [|n IH]; intros pos; cbn [pick_seeds]; [rewrite Nat.add_0_r; eauto|].
  destruct (seed_pick_spec c (draws pos) 0 NE B (U pos)) as (k & x & -> & _). cbn [bind].
  destruct (IH (S pos)) as (xs & ->). cbn [bind]. eexists. f_equal. f_equal. lia.
Qed.

(** What a request must look like to be accepted: known variables, non-empty lists. *)
Lemma generate_total lm (P : pobj T) draws s np xl yl t0 m prev : field_ok lm P -> unit_stream G draws ->
  op_ok G lm P (OpGen np xl yl t0 m prev) -> vars_ok P -> xl <> [] -> yl <> [] ->
  Z.of_nat (length xl) <= 9007199254740992 -> Z.of_nat (length yl) <= 9007199254740992 ->
  exists s', generate_particles P draws np xl yl t0 m prev s = Ok s'.
Proof.
  intros FO U (SO & _) VO NX NY BX BY.
  assert (NP : 0 <= np) by (destruct m; apply SO).
  assert (SD : exists xs ys pos', match m with
    | Random => '(xs, p1) <- pick_seeds draws xl (Z.to_nat np) (w_pos (s_wst s)) ;;
                '(ys, p2) <- pick_seeds draws yl (Z.to_nat np) p1 ;; Ok (xs, ys, p2)
    | Exact => '(xs, ys) <- exact_seeds np xl yl ;; Ok (xs, ys, w_pos (s_wst s)) end = Ok (xs, ys, pos') /\ seeded m np xl yl xs ys).
  { destruct m.
    - destruct (pick_seeds_total draws xl (Z.to_nat np) NX BX (fun i => proj1 (U i)) (w_pos (s_wst s))) as (xs & EX). rewrite EX. cbn [bind].
      match goal with |- context[pick_seeds draws yl _ ?q] => destruct (pick_seeds_total draws yl (Z.to_nat np) NY BY (fun i => proj1 (U i)) q) as (ys & EY) end.
      rewrite EY. cbn [bind]. exists xs, ys. eexists. split; [reflexivity|].
      destruct (pick_seeds_spec _ _ _ _ _ _ EX) as (A1 & A2 & _). destruct (pick_seeds_spec _ _ _ _ _ _ EY) as (B1 & B2 & _). repeat split; assumption.
    - destruct SO as (_ & HL & _). destruct (exact_seeds_spec np xl yl NP NX HL) as (xs & ys & E & L1 & L2 & K). rewrite E. cbn [bind].
      exists xs, ys. eexists. split; [reflexivity|]. repeat split; try assumption; apply K; assumption. }
  destruct SD as (xs & ys & pos' & E & SD). unfold generate_particles. cbv zeta. rewrite E. cbn [bind].
  destruct SD as (LX & LY & SD'). 
  assert (MK : forall l : list Z, length l = Z.to_nat np -> exists r, mapM (fun i => x <- py_nth l i ;; Ok [x]) (zrange 0 np) = Ok r).
  { intros l Ll. apply mapM_total. intros i I. apply zrange_In in I. rewrite <- (Z2Nat.id i) by lia. rewrite (py_nth_ok l _ 0) by lia. cbn [bind]. eauto. }
  destruct (MK xs LX) as (nx & ->). cbn [bind]. destruct (MK ys LY) as (ny & ->). cbn [bind].
  destruct (start_vars_total P (combine xs ys) (proj1 FO)) with (vs := o_vars P) (acc := @nil (string * list (list (option T)))) as (ov & ->).
  - intros q Iq. apply safe_in_grid; [apply FO | apply FO | eapply seeded_safe; [exact SO | split; [exact LX | split; [exact LY | exact SD']] | intros; exact NX | exact Iq]].
  - intros v Iv Bv. apply VO, tvars_in. split; assumption.
  - cbn [bind]. eexists. reflexivity.
Qed.
Lemma generate_accepts lm L W p (P : pobj T) draws s np xl yl t0 m prev : session G lm L W p P draws s ->
  op_ok G lm P (OpGen np xl yl t0 m prev) -> vars_ok P -> xl <> [] -> yl <> [] ->
  Z.of_nat (length xl) <= 9007199254740992 -> Z.of_nat (length yl) <= 9007199254740992 ->
  exists s', generate_particles P draws np xl yl t0 m prev s = Ok s'.
Proof. intros SS. destruct (session_field lm L W p P draws s SS) as (FO & _ & U & _). exact (generate_total lm P draws s np xl yl t0 m prev FO U). Qed.

(** After seeding, every tracked variable lists as many particles as xinds, if previous_walk_data did. *)
Lemma generate_aligned lm L W p (P : pobj T) draws s np xl yl t0 m prev s' : session G lm L W p P draws s ->
  seeds_ok P (OpGen np xl yl t0 m prev) -> (forall w, prev = Some w -> shaped (tvars P) w) ->
  generate_particles P draws np xl yl t0 m prev s = Ok s' ->
  exists w', s_walk s' = Some w' /\ forall v, In v (tvars P) -> exists l, dget v (opts w') = Some l /\ length l = length (xinds w').
Proof.
  intros SS SO SH H. destruct (session_field lm L W p P draws s SS) as (FO & _ & U & R & _). destruct (reached_inv lm P draws s FO U R) as (_ & IN).
  destruct (generate_spec lm P draws np xl yl t0 m prev s s' FO SO) as (_ & _ & w' & xs & ys & EW & _ & _ & _ & _ & (_ & _ & S3) & _); try exact H.
  - destruct (s_walk s); [apply IN | exact I].
  - destruct prev; [apply SH; reflexivity | exact I].
  - exists w'. split; [exact EW | exact S3].
Qed.
End S.

(** round-robin is balanced *)
Lemma balanced n m j : (0 < m)%nat -> (j < m)%nat ->
  length (filter (fun i => (i mod m =? j)%nat) (seq 0 n)) = (n / m + (if (j <? n mod m)%nat then 1 else 0))%nat.
Proof.
  intros Hm Hj. induction n as [|n IH].
  - cbn [seq filter length]. rewrite Nat.div_0_l, Nat.mod_0_l by lia. destruct (Nat.ltb_spec j 0); lia.
  - rewrite seq_S, filter_app, app_length, IH. cbn [filter Nat.add length].
    pose proof (Nat.div_mod n m ltac:(lia)) as D. pose proof (Nat.mod_upper_bound n m ltac:(lia)) as U.
    set (q := (n / m)%nat) in *. set (r := (n mod m)%nat) in *.
    assert (DS : (S n / m)%nat = (if S r =? m then S q else q)%nat /\ (S n mod m)%nat = (if S r =? m then 0 else S r)%nat).
    { destruct (Nat.eqb_spec (S r) m) as [E|E].
      - split; [symmetry; apply (Nat.div_unique (S n) m (S q) 0); lia | symmetry; apply (Nat.mod_unique (S n) m (S q) 0); lia].
      - split; [symmetry; apply (Nat.div_unique (S n) m q (S r)); lia | symmetry; apply (Nat.mod_unique (S n) m q (S r)); lia]. }
    destruct DS as (-> & ->). destruct (Nat.eqb_spec (S r) m); destruct (Nat.eqb_spec r j); cbn [length];
      repeat match goal with |- context[(?a <? ?b)%nat] => destruct (Nat.ltb_spec a b) end; lia.
Qed.

(** uniform random choice, exact arithmetic *)
Lemma uniform_choice {A} (c : list A) (u : Qc) (d : A) : c <> [] -> Z.of_nat (length c) <= 9007199254740992 -> (0 <= u)%Qc -> (u < 1)%Qc ->
  exists k, random_pick_seed c (XFin u) = Ok (nth k c d) /\ (k < length c)%nat /\
    (k = 0%nat \/ inject_Z (Z.of_nat k) / inject_Z (Z.of_nat (length c)) < this u)%Q /\
    (this u <= inject_Z (Z.of_nat (S k)) / inject_Z (Z.of_nat (length c)))%Q.
Proof.
  intros NE B U0 U1.
  assert (UD : unit_draw (XFin u)) by (split; rewrite ?n0_xq, ?n1_xq; [apply xq_leb, U0 | apply xq_ltb, U1]).
  destruct (seed_pick_spec c (XFin u) d NE B UD) as (k & x & E & Hk & Ex & Hx & Hi). exists k. split; [exact E|]. split; [exact Hk|].
  assert (LN : (0 < length c)%nat) by lia.
  assert (OZ : forall z, (nofZ z : xq) = XFin (Q2Qc (inject_Z z))) by reflexivity.
  rewrite OZ, n0_xq, xq_sub, xq_mul, xq_add in Ex.
  assert (EX : exists q : Qc, x = XFin q /\ (this q == inject_Z (Z.of_nat (length c)) * this u)%Q).
  { eexists. split; [exact Ex|].
    assert (QA : forall a b, (this (a + b)%Qc == this a + this b)%Q) by (intros; apply Qred_correct).
    assert (QM : forall a b, (this (a * b)%Qc == this a * this b)%Q) by (intros; apply Qred_correct).
    assert (QO : forall a, (this (- a)%Qc == - this a)%Q) by (intros; apply Qred_correct).
    assert (QZ : (this (Q2Qc (inject_Z (Z.of_nat (length c)))) == inject_Z (Z.of_nat (length c)))%Q) by apply Qred_correct.
    unfold Qcminus. rewrite !QA, QM, QA, QO, QZ. change (this 0%Qc) with 0%Q. ring. }
  destruct EX as (q & -> & EQ).
  assert (LQ : (0 < inject_Z (Z.of_nat (length c)))%Q) by (unfold Qlt; simpl; lia).
  assert (QZ : forall z, (this (Q2Qc (inject_Z z)) == inject_Z z)%Q) by (intros; apply Qred_correct).
  split.
  - destruct k as [|k]; [left; reflexivity|]. right. specialize (Hi k ltac:(lia)). rewrite OZ in Hi. apply xq_ltb in Hi. unfold Qclt in Hi.
    rewrite QZ, EQ in Hi. apply Qlt_shift_div_r; [exact LQ|]. rewrite Qmult_comm. exact Hi.
  - rewrite OZ in Hx. apply xq_leb in Hx. unfold Qcle in Hx. rewrite QZ, EQ in Hx. apply Qle_shift_div_l; [exact LQ|]. rewrite Qmult_comm. exact Hx.
Qed.
