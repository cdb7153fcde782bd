(** flux_proportional_seeding in exact arithmetic. *)
From Coq Require Import ZArith Bool String List Lia Permutation QArith Qcanon Qround Lqa.
From Verif Require Import Num NumFacts XQ XQLaws XQFacts Py Walker ParticleTrack PostProc SpecPost SpecGrid Grid ProofExposure ProofCoord ProofNour ProofNourQ.
Import ListNotations.
Open Scope Z_scope.
Open Scope res_scope.

Lemma abs_xq (q : Qc) : (nabs (XFin q) : xq) = XFin (qabs q).
Proof.
  unfold qabs. cbn [nabs XQnum xabs]. destruct (Qclt_le_dec q 0) as [L|L].
  - destruct (Qcleb qc0 q) eqn:E; [|reflexivity]. apply Qcleb_true in E. exfalso. rewrite qc0_eq in E. unfold Qclt, Qcle in *. Lqa.lra.
  - destruct (Qcleb qc0 q) eqn:E; [reflexivity|]. apply Qcleb_false in E. exfalso. rewrite qc0_eq in E. unfold Qclt, Qcle in *. Lqa.lra.
Qed.
Lemma qabs_nn q : (0 <= qabs q)%Qc.
Proof. unfold qabs. destruct (Qclt_le_dec q 0) as [L|L]; [|exact L]. unfold Qcle, Qclt in *. change (this (- q)%Qc) with (Qred (- this q)). rewrite Qred_correct. change (this 0%Qc) with 0%Q in *. Lqa.lra. Qed.

Definition csum (l : list Qc) : Qc := fold_right Qcplus 0%Qc l.
Lemma fold_add_xq l a : fold_left nadd (map XFin l) (XFin a) = XFin (a + csum l)%Qc.
Proof.
  revert a. induction l as [|q l IH]; intros a; cbn [map fold_left csum fold_right]; [f_equal; ring|].
  rewrite xq_add, IH. f_equal. change (fold_right Qcplus 0%Qc l) with (csum l). ring.
Qed.
Lemma csum_nn l : (forall q, In q l -> (0 <= q)%Qc) -> (0 <= csum l)%Qc.
Proof.
  induction l as [|q l IH]; intros H; cbn [csum fold_right]; [apply Qcle_refl|]. change (fold_right Qcplus 0%Qc l) with (csum l).
  specialize (IH (fun r Hr => H r (or_intror Hr))). pose proof (H q (or_introl eq_refl)). unfold Qcle in *. rewrite this_add. change (this 0%Qc) with 0%Q in *. Lqa.lra.
Qed.
Definition inj (z : Z) : Qc := Q2Qc (inject_Z z).
Lemma csum_map_mul (f : Qc -> Qc) c l : (forall q, f q = q * c)%Qc -> csum (map f l) = (csum l * c)%Qc.
Proof. intros H. induction l as [|q l IH]; cbn [map csum fold_right]; [ring|]. change (fold_right Qcplus 0%Qc (map f l)) with (csum (map f l)). rewrite IH, H. change (fold_right Qcplus 0%Qc l) with (csum l). ring. Qed.

(** Shares as a list. *)
Definition shares (D : list Qc) (n : Z) : list Qc := map (fun q => qabs q / total D * inj n)%Qc D.
Lemma shares_nth D n i : (i < length D)%nat -> nth i (shares D n) 0%Qc = share D n i.
Proof.
  intros H. unfold shares, share. rewrite (nth_indep _ _ ((fun q => qabs q / total D * inj n)%Qc 0%Qc)) by (rewrite map_length; exact H). rewrite (map_nth (fun q => qabs q / total D * inj n)%Qc). reflexivity.
Qed.
Lemma total_eq D : total D = csum (map qabs D). Proof. reflexivity. Qed.
Lemma shares_sum D n : total D <> 0%Qc -> csum (shares D n) = inj n.
Proof.
  intros H. unfold shares. rewrite <- (map_map qabs (fun a => a / total D * inj n)%Qc). rewrite (csum_map_mul _ (/ total D * inj n)%Qc) by (intros q; unfold Qcdiv; ring).
  rewrite <- total_eq. field. exact H.
Qed.
Lemma shares_nn D n : 0 <= n -> total D <> 0%Qc -> forall s, In s (shares D n) -> (0 <= s)%Qc.
Proof.
  intros Hn HT s Hs. apply in_map_iff in Hs as (q & <- & _). pose proof (qabs_nn q) as A.
  assert (T0 : (0 <= total D)%Qc) by (rewrite total_eq; apply csum_nn; intros x Hx; apply in_map_iff in Hx as (y & <- & _); apply qabs_nn).
  assert (TP : (0 < this (total D))%Q). { destruct (Qcle_lt_or_eq _ _ T0) as [L|E]; [exact L | congruence]. }
  unfold Qcle in *. rewrite this_mul, this_div. change (this 0%Qc) with 0%Q in *. unfold inj. rewrite (Qred_correct (inject_Z n)).
  assert (0 <= inject_Z n)%Q by (change 0%Q with (inject_Z 0); rewrite <- Zle_Qle; exact Hn).
  assert (0 <= this (qabs q) / this (total D))%Q by (apply Qle_shift_div_l; [exact TP | Lqa.lra]). Lqa.nra.
Qed.

Definition flo (q : Qc) : Z := Qfloor (this q).
Lemma floor_int_xq q : floor_int (XFin q) = flo q.
Proof. unfold floor_int, flo. cbn [nfrac XQnum xfrac]. unfold zfloor. cbn [fst snd]. destruct (this q). reflexivity. Qed.
Lemma flo_le q : (inject_Z (flo q) <= this q)%Q. Proof. apply Qfloor_le. Qed.
Lemma flo_lt q : (this q < inject_Z (flo q) + 1)%Q.
Proof. pose proof (Qlt_floor (this q)) as H. rewrite inject_Z_plus in H. exact H. Qed.
Lemma inj_this z : (this (inj z) == inject_Z z)%Q. Proof. unfold inj. apply Qred_correct. Qed.

(** Sum of floors. *)
Lemma floor_sum l : l <> [] -> (inject_Z (zsuml (map flo l)) <= this (csum l))%Q /\ (this (csum l) < inject_Z (zsuml (map flo l) + Z.of_nat (length l)))%Q.
Proof.
  assert (K : forall l, (inject_Z (zsuml (map flo l)) <= this (csum l))%Q /\ (this (csum l) <= inject_Z (zsuml (map flo l) + Z.of_nat (length l)))%Q /\ (l <> [] -> (this (csum l) < inject_Z (zsuml (map flo l) + Z.of_nat (length l)))%Q)).
  { clear. induction l as [|q l (A & B & C)]; cbn [map zsuml fold_right csum length]; [split; [apply Qle_refl|]; split; [apply Qle_refl | congruence]|].
    change (fold_right Z.add 0 (map flo l)) with (zsuml (map flo l)). change (fold_right Qcplus 0%Qc l) with (csum l).
    pose proof (flo_le q). pose proof (flo_lt q). rewrite this_add.
    assert (E1 : (inject_Z (flo q + zsuml (map flo l)) == inject_Z (flo q) + inject_Z (zsuml (map flo l)))%Q) by (rewrite inject_Z_plus; reflexivity).
    assert (E2 : (inject_Z (flo q + zsuml (map flo l) + Z.of_nat (S (length l))) == inject_Z (flo q) + 1 + inject_Z (zsuml (map flo l) + Z.of_nat (length l)))%Q).
    { replace (flo q + zsuml (map flo l) + Z.of_nat (S (length l))) with (flo q + 1 + (zsuml (map flo l) + Z.of_nat (length l))) by lia. rewrite (inject_Z_plus (flo q + 1)), (inject_Z_plus (flo q)). reflexivity. }
    rewrite E1, E2. split; [Lqa.lra|]. split; [Lqa.lra | intros _; Lqa.lra]. }
  intros H. destruct (K l) as (A & _ & C). split; [exact A | exact (C H)].
Qed.

(** ** Incrementing *)
Lemma inc_at_nth idx l i : (i < length l)%nat -> nth i (inc_at idx l) 0 = nth i l 0 + (if existsb (Nat.eqb i) idx then 1 else 0).
Proof.
  intros H. unfold inc_at.
  assert (E : combine (seq 0 (length l)) l = map (fun q => (q, nth q l 0)) (seq 0 (length l))).
  { assert (K : forall s, combine (seq s (length l)) l = map (fun q => (q, nth (q - s) l 0)) (seq s (length l))).
    { clear. induction l as [|a l IH]; intros s; [reflexivity|]. cbn [length seq combine map]. f_equal; [replace (s - s)%nat with 0%nat by lia; reflexivity|].
      rewrite (IH (S s)). apply map_ext_in. intros q Hq. apply in_seq in Hq. replace (q - s)%nat with (S (q - S s)) by lia. reflexivity. }
    rewrite K. apply map_ext. intros q. replace (q - 0)%nat with q by lia. reflexivity. }
  rewrite E, map_map. cbn [fst snd].
  rewrite (nth_indep _ 0 ((fun q => if existsb (Nat.eqb q) idx then nth q l 0 + 1 else nth q l 0) 0%nat)) by (rewrite map_length, seq_length; exact H).
  rewrite (map_nth (fun q => if existsb (Nat.eqb q) idx then nth q l 0 + 1 else nth q l 0)), seq_nth by exact H. cbn [Nat.add]. destruct (existsb (Nat.eqb i) idx); lia.
Qed.
Lemma inc_at_len idx l : length (inc_at idx l) = length l.
Proof. unfold inc_at. rewrite map_length, combine_length, seq_length. lia. Qed.
Lemma zsuml_nth l : zsuml l = zsuml (map (fun i => nth i l 0) (seq 0 (length l))).
Proof. f_equal. symmetry. apply ProofCoord.map_nth_seq. Qed.
Lemma zsuml_plus {A} (f g : A -> Z) l : zsuml (map (fun i => f i + g i) l) = zsuml (map f l) + zsuml (map g l).
Proof. exact (zsum_add f g l). Qed.
Lemma zsuml_0 {A} (f : A -> Z) l : (forall i, In i l -> f i = 0) -> zsuml (map f l) = 0.
Proof. exact (zsum_0 f l). Qed.
Lemma existsb_In i idx : existsb (Nat.eqb i) idx = true <-> In i idx.
Proof. rewrite existsb_exists. split; [intros (x & I & E); apply Nat.eqb_eq in E; subst; exact I | intros I; exists i; split; [exact I | apply Nat.eqb_refl]]. Qed.
Lemma count_idx idx n : NoDup idx -> (forall i, In i idx -> (i < n)%nat) -> zsuml (map (fun i => if existsb (Nat.eqb i) idx then 1 else 0) (seq 0 n)) = Z.of_nat (length idx).
Proof.
  intros ND. induction ND as [|k idx NI ND IH]; intros H.
  - apply (zsum_0 (fun _ => 0)). reflexivity.
  - rewrite (map_ext_in _ (fun i => (if Nat.eqb i k then 1 else 0) + (if existsb (Nat.eqb i) idx then 1 else 0))).
    + rewrite zsuml_plus, IH by (intros; apply H; right; assumption). cbn [length].
      assert (Z1 : zsuml (map (fun i => if Nat.eqb i k then 1 else 0) (seq 0 n)) = 1).
      { pose proof (H k (or_introl eq_refl)) as Hk. replace n with (k + (1 + (n - k - 1)))%nat by lia. rewrite !seq_app, !map_app.
        assert (SA : forall a b, zsuml (a ++ b) = zsuml a + zsuml b) by (clear; induction a as [|x a IHa]; intros b; cbn [app zsuml fold_right]; [reflexivity|]; change (fold_right Z.add 0) with zsuml; rewrite IHa; lia).
        rewrite !SA. cbn [seq map Nat.add]. rewrite Nat.eqb_refl.
        rewrite (zsuml_0 (fun i => if Nat.eqb i k then 1 else 0) (seq 0 k)), (zsuml_0 (fun i => if Nat.eqb i k then 1 else 0) (seq (k + 1) (n - k - 1))); [reflexivity | |];
          intros i Hi; apply in_seq in Hi; destruct (Nat.eqb_spec i k); [lia | reflexivity | lia | reflexivity]. }
      lia.
    + intros i _. cbn [existsb]. destruct (Nat.eqb_spec i k) as [->|]; cbn [orb]; [|lia].
      destruct (existsb (Nat.eqb k) idx) eqn:E; [apply existsb_In in E; contradiction | lia].
Qed.
Lemma inc_at_sum idx l : NoDup idx -> (forall i, In i idx -> (i < length l)%nat) -> zsuml (inc_at idx l) = zsuml l + Z.of_nat (length idx).
Proof.
  intros ND H. rewrite (zsuml_nth (inc_at idx l)), inc_at_len, (map_ext_in _ (fun i => nth i l 0 + (if existsb (Nat.eqb i) idx then 1 else 0))).
  - rewrite zsuml_plus, count_idx by assumption. rewrite <- zsuml_nth. reflexivity.
  - intros i Hi. apply in_seq in Hi. apply inc_at_nth. lia.
Qed.
Lemma last_n_len {A} k (l : list A) : 0 <= k <= Z.of_nat (length l) -> Z.of_nat (length (last_n k l)) = k.
Proof. intros H. unfold last_n. rewrite skipn_length. lia. Qed.
Lemma nodup_skipn {A} k (l : list A) : NoDup l -> NoDup (skipn k l).
Proof. revert l. induction k as [|k IH]; intros l H; [exact H|]. destruct l; [exact H|]. cbn [skipn]. apply IH. inversion H; assumption. Qed.

(** ** The main result *)
Lemma combine_map2 {A B C} (f : A -> B) (g : A * B -> C) l : map g (combine l (map f l)) = map (fun a => g (a, f a)) l.
Proof. induction l as [|a l IH]; cbn [map combine]; [reflexivity|]. rewrite IH. reflexivity. Qed.
Lemma model_ideal D n : total D <> 0%Qc -> ideal_counts (map XFin D) n = map XFin (shares D n).
Proof.
  intros H. unfold ideal_counts, shares. rewrite !map_map. rewrite (map_ext (fun x => nabs (XFin x)) (fun x => XFin (qabs x)) abs_xq).
  rewrite <- (map_map qabs XFin). rewrite n0_xq, fold_add_xq. apply map_ext. intros q. rewrite abs_xq. replace (0 + csum (map qabs D))%Qc with (total D) by (rewrite total_eq; ring).
  rewrite xq_div by exact H. change (nofZ n : xq) with (XFin (Qcofz n)). rewrite xq_mul. reflexivity.
Qed.
Lemma rem_list D n : map (fun p => nsub (fst p) (nofZ (snd p))) (combine (map XFin (shares D n)) (map floor_int (map XFin (shares D n)))) = map XFin (map (fun s => s - inj (flo s))%Qc (shares D n)).
Proof.
  rewrite (combine_map2 floor_int (fun p => nsub (fst p) (nofZ (snd p)))), !map_map. apply map_ext. intros s. cbn [fst snd]. rewrite floor_int_xq.
  change (nofZ (flo s) : xq) with (XFin (Qcofz (flo s))). rewrite xq_sub. reflexivity.
Qed.
Lemma map_floor l : map floor_int (map XFin l) = map flo l.
Proof. rewrite map_map. apply map_ext. intros. apply floor_int_xq. Qed.
Lemma left_bounds D n : total D <> 0%Qc -> D <> [] -> 0 <= n - zsuml (map flo (shares D n)) < Z.of_nat (length D).
Proof.
  intros HT NE. assert (SN : shares D n <> []) by (destruct D; [congruence | discriminate]). destruct (floor_sum _ SN) as (A & B). rewrite shares_sum, inj_this in A, B by exact HT.
  rewrite <- Zle_Qle in A. rewrite <- Zlt_Qlt in B. replace (length (shares D n)) with (length D) in B by (unfold shares; rewrite map_length; reflexivity). lia.
Qed.
Lemma nonzero_ne D : total D <> 0%Qc -> D <> []. Proof. intros H ->. apply H. reflexivity. Qed.
Lemma sum_nz D : total D <> 0%Qc -> neqb (fold_left nadd (map nabs (map XFin D)) n0) (n0 : xq) = false.
Proof.
  intros H. rewrite map_map, (map_ext (fun x => nabs (XFin x)) (fun x => XFin (qabs x)) abs_xq), <- (map_map qabs XFin), n0_xq, fold_add_xq.
  destruct (neqb (XFin (0 + csum (map qabs D))%Qc) (XFin 0%Qc)) eqn:E; [|reflexivity]. apply xq_eqb in E. exfalso. apply H. rewrite total_eq, <- E. ring.
Qed.

Lemma seeding_ok argsort D n steps : sorts argsort -> total D <> 0%Qc -> 0 <= n -> steps <= Z.of_nat (length D) ->
  exists out, flux_proportional_seeding argsort (map XFin D) n steps = Ok out /\ length out = length D /\ zsuml out = n /\
    (forall i, (i < length D)%nat -> 0 <= nth i out 0 /\
       (nth i out 0 = Qfloor (this (share D n i)) \/ (nth i out 0 = Qfloor (this (share D n i)) + 1 /\ forall j, (j < length D)%nat -> nth j out 0 = Qfloor (this (share D n j)) -> (remainder_of D n j <= remainder_of D n i)%Q))).
Proof.
  intros ST HT Hn Hs. pose proof (nonzero_ne D HT) as NE. unfold flux_proportional_seeding. rewrite map_length, map_length.
  destruct (Z.ltb_spec (Z.of_nat (length D)) steps); [lia|]. rewrite sum_nz by exact HT. rewrite model_ideal, rem_list, map_floor by exact HT.
  set (sh := shares D n). set (ni := map flo sh). set (rl := map (fun s => s - inj (flo s))%Qc sh).
  pose proof (left_bounds D n HT NE) as LB. fold sh ni in LB. set (left := n - zsuml ni) in *.
  assert (Lsh : length sh = length D) by (unfold sh, shares; apply map_length). assert (Lni : length ni = length D) by (unfold ni; rewrite map_length; exact Lsh).
  assert (Lrl : length rl = length D) by (unfold rl; rewrite map_length; exact Lsh).
  destruct (ST rl) as (PM & SO). set (p := argsort (map XFin rl)) in *. rewrite Lrl in PM, SO.
  assert (Lp : length p = length D) by (rewrite (Permutation_length PM), seq_length; reflexivity).
  assert (NDp : NoDup p) by (apply (Permutation_NoDup (Permutation_sym PM)), seq_NoDup).
  assert (INp : forall i, In i p <-> (i < length D)%nat).
  { intros i. split; intros I; [apply (Permutation_in _ PM) in I; apply in_seq in I; lia | apply (Permutation_in _ (Permutation_sym PM)), in_seq; lia]. }
  set (sel := if 0 <? left then last_n left p else []).
  assert (OUT : (if 0 <? left then inc_at (last_n left p) ni else ni) = inc_at sel ni).
  { unfold sel. destruct (0 <? left); [reflexivity|]. apply (nth_ext _ _ 0 0); [rewrite inc_at_len; reflexivity|]. intros i Hi. rewrite inc_at_nth by exact Hi. cbn [existsb]. lia. }
  rewrite OUT.
  assert (NDs : NoDup sel) by (unfold sel; destruct (0 <? left); [apply nodup_skipn; exact NDp | constructor]).
  assert (Ls : Z.of_nat (length sel) = left) by (unfold sel; destruct (Z.ltb_spec 0 left); [apply last_n_len; lia | cbn; lia]).
  assert (INs : forall i, In i sel -> (i < length ni)%nat).
  { intros i I. rewrite Lni. apply INp. unfold sel in I. destruct (0 <? left); [|contradiction]. unfold last_n in I. rewrite <- (firstn_skipn (length p - Z.to_nat left) p). apply in_or_app. right. exact I. }
  assert (SUM : zsuml (inc_at sel ni) = n) by (rewrite inc_at_sum by assumption; lia).
  rewrite SUM, Z.eqb_refl. exists (inc_at sel ni). split; [reflexivity|]. split; [rewrite inc_at_len; exact Lni|]. split; [exact SUM|].
  assert (NI : forall i, (i < length D)%nat -> nth i ni 0 = Qfloor (this (share D n i))).
  { intros i Hi. unfold ni. rewrite (nth_indep _ 0 (flo 0%Qc)) by (rewrite map_length, Lsh; exact Hi). rewrite map_nth. unfold flo, sh. rewrite shares_nth by exact Hi. reflexivity. }
  assert (RL : forall i, (i < length D)%nat -> (this (nth i rl 0%Qc) == remainder_of D n i)%Q).
  { intros i Hi. unfold rl. rewrite (nth_indep _ 0%Qc ((fun s => s - inj (flo s))%Qc 0%Qc)) by (rewrite map_length, Lsh; exact Hi).
    rewrite (map_nth (fun s => s - inj (flo s))%Qc). unfold sh. rewrite shares_nth by exact Hi. rewrite this_sub, inj_this. reflexivity. }
  intros i Hi. rewrite inc_at_nth by lia. rewrite (NI i Hi).
  assert (F0 : 0 <= Qfloor (this (share D n i))).
  { assert (S0 : (0 <= share D n i)%Qc) by (rewrite <- (shares_nth D n i Hi); apply (shares_nn D n Hn HT), nth_In; rewrite <- Lsh in Hi; exact Hi).
    unfold Qcle in S0. change (this 0%Qc) with (inject_Z 0) in S0. apply Qfloor_resp_le in S0. rewrite Qfloor_Z in S0. exact S0. }
  destruct (existsb (Nat.eqb i) sel) eqn:EI; [|split; [lia | left; lia]]. split; [lia|]. right. split; [lia|].
  intros j Hj. rewrite inc_at_nth by lia. rewrite (NI j Hj). destruct (existsb (Nat.eqb j) sel) eqn:EJ; [lia|]. intros _.
  apply existsb_In in EI. assert (NJ : ~ In j sel) by (intros I; apply existsb_In in I; congruence).
  unfold sel in EI, NJ. destruct (Z.ltb_spec 0 left); [|contradiction]. unfold last_n in EI, NJ.
  apply (In_nth _ _ 0%nat) in EI as (b & Hb & Eb). rewrite skipn_length in Hb.
  assert (NS : forall k b, nth b (skipn k p) 0%nat = nth (k + b) p 0%nat).
  { clear. intros k b. revert k. induction p as [|x p IH]; intros k; [rewrite skipn_nil; destruct b, (k + _)%nat; reflexivity|]. destruct k as [|k]; [reflexivity|]. cbn [skipn Nat.add nth]. apply IH. }
  rewrite NS in Eb. assert (IJ : In j p) by (apply INp; exact Hj). apply (In_nth _ _ 0%nat) in IJ as (a & Ha & Ea).
  destruct (Nat.lt_ge_cases a (length p - Z.to_nat left)) as [La|Ga].
  - rewrite <- (RL j Hj), <- (RL i Hi). rewrite <- Ea, <- Eb. apply SO. lia.
  - exfalso. apply NJ. rewrite <- Ea. replace a with (length p - Z.to_nat left + (a - (length p - Z.to_nat left)))%nat by lia. rewrite <- NS. apply nth_In. rewrite skipn_length. lia.
Qed.

(** The column layout. *)
Lemma column_ok D n steps : total D <> 0%Qc -> 0 <= n -> steps <= Z.of_nat (length D) ->
  let fl := map (fun i => Qfloor (this (share D n i))) (seq 0 (length D)) in
  let left := n - zsuml fl in
  0 <= left < Z.of_nat (length D) /\
  flux_proportional_seeding_column (map XFin D) n steps =
    if left =? 0 then Ok fl else if left =? 1 then Ok (inc_at [0%nat] fl) else Err AssertionError.
Proof.
  intros HT Hn Hs. pose proof (nonzero_ne D HT) as NE. unfold flux_proportional_seeding_column. rewrite map_length, map_length.
  destruct (Z.ltb_spec (Z.of_nat (length D)) steps); [lia|]. rewrite sum_nz by exact HT. rewrite model_ideal, map_floor by exact HT.
  assert (FL : map flo (shares D n) = map (fun i => Qfloor (this (share D n i))) (seq 0 (length D))).
  { apply (nth_ext _ _ 0 0); [unfold shares; rewrite !map_length, seq_length; reflexivity|]. intros i Hi. unfold shares in Hi. rewrite !map_length in Hi.
    rewrite (nth_indep _ 0 (flo 0%Qc)) by (unfold shares; rewrite !map_length; exact Hi). rewrite map_nth, shares_nth by exact Hi.
    rewrite (nth_indep _ 0 ((fun i => Qfloor (this (share D n i))) 0%nat)) by (rewrite map_length, seq_length; exact Hi). rewrite (map_nth (fun i => Qfloor (this (share D n i)))), seq_nth by exact Hi. reflexivity. }
  pose proof (left_bounds D n HT NE) as LB. rewrite FL in *. set (fl := map (fun i => Qfloor (this (share D n i))) (seq 0 (length D))) in *. cbv zeta. split; [exact LB|].
  set (left := n - zsuml fl) in *. destruct (Z.ltb_spec 0 left).
  - rewrite inc_at_sum; [| repeat constructor; intros [] |].
    + cbn [length]. destruct (Z.eqb_spec left 0); [lia|]. destruct (Z.eqb_spec left 1), (Z.eqb_spec (zsuml fl + Z.of_nat 1) n); try lia; reflexivity.
    + intros i [<-|[]]. unfold fl. rewrite map_length, seq_length. destruct D; [congruence | cbn; lia].
  - destruct (Z.eqb_spec left 0); [|lia]. destruct (Z.eqb_spec (zsuml fl) n); [reflexivity | lia].
Qed.

(** ** A concrete argsort (insertion sort), to show that [sorts] can be met *)
From Coq Require Import Sorting.Sorted.
Fixpoint ins_ix (l : list xq) (i : nat) (p : list nat) : list nat :=
  match p with [] => [i] | j :: r => if nleb (nth i l XNaN) (nth j l XNaN) then i :: p else j :: ins_ix l i r end.
Definition argsort_ins (l : list xq) : list nat := fold_right (ins_ix l) [] (seq 0 (length l)).
Lemma ins_ix_perm l i p : Permutation (ins_ix l i p) (i :: p).
Proof. induction p as [|j r IH]; cbn [ins_ix]; [reflexivity|]. destruct (nleb _ _); [reflexivity|]. rewrite IH. apply perm_swap. Qed.
Lemma argsort_perm l : Permutation (argsort_ins l) (seq 0 (length l)).
Proof. unfold argsort_ins. induction (seq 0 (length l)) as [|i s IH]; cbn [fold_right]; [reflexivity|]. rewrite ins_ix_perm, IH. reflexivity. Qed.
Definition ix_le (l : list Qc) (i j : nat) : Prop := (nth i l 0 <= nth j l 0)%Qc.
Lemma ins_ix_sorted (l : list Qc) i p : (i < length l)%nat -> (forall j, In j p -> (j < length l)%nat) -> StronglySorted (ix_le l) p -> StronglySorted (ix_le l) (ins_ix (map XFin l) i p).
Proof.
  intros Hi Hp SS. induction SS as [|j r SS IH FA]; cbn [ins_ix]; [repeat constructor|].
  assert (N : forall k, (k < length l)%nat -> nth k (map XFin l) XNaN = XFin (nth k l 0%Qc)) by (intros k Hk; rewrite (nth_indep _ XNaN (XFin 0%Qc)) by (rewrite map_length; exact Hk); apply map_nth).
  rewrite (N i Hi), (N j (Hp j (or_introl eq_refl))). destruct (nleb (XFin (nth i l 0%Qc)) (XFin (nth j l 0%Qc))) eqn:E.
  - apply xq_leb in E. constructor; [constructor; assumption|]. constructor; [exact E|]. rewrite Forall_forall in *. intros k Hk. apply Qcle_trans with (nth j l 0%Qc); [exact E | apply FA; exact Hk].
  - apply xq_leb_f in E. constructor; [apply IH; intros; apply Hp; right; assumption|]. rewrite Forall_forall in *. intros k Hk. apply (Permutation_in _ (ins_ix_perm _ _ _)) in Hk as [<-|Hk]; [apply Qclt_le_weak; exact E | apply FA; exact Hk].
Qed.
Lemma strongly_nth l p : StronglySorted (ix_le l) p -> forall a b, (a <= b < length p)%nat -> ix_le l (nth a p 0%nat) (nth b p 0%nat).
Proof.
  induction 1 as [|j r SS IH FA]; intros a b L; [cbn in L; lia|]. destruct b as [|b]; [replace a with 0%nat by lia; apply Qcle_refl|].
  destruct a as [|a]; cbn [nth length] in *; [|apply IH; lia]. rewrite Forall_forall in FA. apply FA, nth_In. lia.
Qed.
Lemma argsort_ins_sorts : sorts argsort_ins.
Proof.
  intros l. cbv zeta. pose proof (argsort_perm (map XFin l)) as P. rewrite map_length in P. split; [exact P|].
  assert (SS : StronglySorted (ix_le l) (argsort_ins (map XFin l))).
  { unfold argsort_ins. rewrite map_length.
    assert (G : forall s, (forall j, In j s -> (j < length l)%nat) -> StronglySorted (ix_le l) (fold_right (ins_ix (map XFin l)) [] s) /\ forall j, In j (fold_right (ins_ix (map XFin l)) [] s) -> (j < length l)%nat).
    { induction s as [|i s IH]; intros H; cbn [fold_right]; [split; [constructor | contradiction]|]. destruct IH as (A & B); [intros; apply H; right; assumption|].
      split; [apply ins_ix_sorted; [apply H; left; reflexivity | exact B | exact A]|]. intros j Hj. apply (Permutation_in _ (ins_ix_perm _ _ _)) in Hj as [<-|Hj]; [apply H; left; reflexivity | apply B; exact Hj]. }
    apply G. intros j Hj. apply in_seq in Hj. lia. }
  intros a b L. apply strongly_nth; [exact SS|]. rewrite (Permutation_length P), seq_length. lia.
Qed.

(** ** Corollaries *)
Lemma seeding_within_one argsort D n steps out i : sorts argsort -> total D <> 0%Qc -> 0 <= n -> steps <= Z.of_nat (length D) -> (i < length D)%nat ->
  flux_proportional_seeding argsort (map XFin D) n steps = Ok out ->
  (inject_Z (nth i out 0%Z) - 1 <= this (share D n i))%Q /\ (this (share D n i) < inject_Z (nth i out 0%Z) + 1)%Q.
Proof.
  intros S0 T0 N0 L0 Hi E. destruct (seeding_ok argsort D n steps S0 T0 N0 L0) as (out' & E' & _ & _ & H). assert (out' = out) by congruence. subst out'. clear E E'. destruct (H i Hi) as (_ & H').
  pose proof (flo_le (share D n i)) as A. pose proof (flo_lt (share D n i)) as B. unfold flo in *. destruct H' as [->|(-> & _)]; [split; Lqa.lra|].
  rewrite inject_Z_plus. change (inject_Z 1) with 1%Q. split; Lqa.lra.
Qed.
Lemma seeding_errors argsort D n steps :
  (Z.of_nat (length D) < steps -> flux_proportional_seeding argsort (map XFin D) n steps = Err ValueError) /\
  (total D = 0%Qc -> flux_proportional_seeding argsort (map XFin D) n steps = Err ValueError).
Proof.
  unfold flux_proportional_seeding. rewrite !map_length. split; intros H.
  - rewrite (proj2 (Z.ltb_lt _ _) H). reflexivity.
  - destruct (Z.of_nat (length D) <? steps); [reflexivity|].
    rewrite map_map, (map_ext (fun x => nabs (XFin x)) (fun x => XFin (qabs x)) abs_xq), <- (map_map qabs XFin), n0_xq, fold_add_xq.
    rewrite total_eq in H. rewrite H. rewrite (proj2 (xq_eqb (0 + 0)%Qc 0%Qc)) by ring. reflexivity.
Qed.
Lemma seeding_exact_length argsort D n : sorts argsort -> total D <> 0%Qc -> 0 <= n ->
  exists out, flux_proportional_seeding argsort (map XFin D) n (Z.of_nat (length D)) = Ok out /\ length out = length D /\ fold_right Z.add 0 out = n.
Proof. intros A B C. destruct (seeding_ok argsort D n (Z.of_nat (length D)) A B C) as (out & E & L & S & _); [lia|]. exists out. tauto. Qed.
