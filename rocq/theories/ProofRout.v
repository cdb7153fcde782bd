(** Slices of walk data; snake plots. *)
From Coq Require Import ZArith Bool String List Lia.
From Verif Require Import Num Py NumFacts Walker ParticleTrack SpecWalk SpecRout PostProc Grid Routines ProofStep ProofExposure.
Import ListNotations.
Open Scope Z_scope.
Open Scope res_scope.

Section C.
Context {T : Type} {N : Num T}.

Lemma norm_ix_has n len : has_record n len = true -> norm_ix (Z.of_nat len) n = Some (Z.of_nat (record_ix n len)).
Proof.
  intros H. unfold record_ix. rewrite H. unfold has_record in H. apply andb_true_iff in H as (A & B). apply Z.leb_le in A. apply Z.ltb_lt in B. unfold norm_ix.
  destruct (Z.ltb_spec n 0).
  - replace (0 <=? n) with false by (symmetry; apply Z.leb_gt; lia). cbn [andb]. replace (- Z.of_nat len <=? n) with true by (symmetry; apply Z.leb_le; lia). cbn [andb]. f_equal. lia.
  - replace (0 <=? n) with true by (symmetry; apply Z.leb_le; lia). replace (n <? Z.of_nat len) with true by (symmetry; apply Z.ltb_lt; lia). cbn [andb]. f_equal. lia.
Qed.
Lemma record_ix_lt n len : (0 < len)%nat -> (record_ix n len < len)%nat.
Proof. intros H. unfold record_ix. destruct (has_record n len) eqn:E; [|lia]. unfold has_record in E. apply andb_true_iff in E as (A & B). apply Z.leb_le in A. apply Z.ltb_lt in B. destruct (Z.ltb_spec n 0); lia. Qed.
Lemma py_nth_rec {A} (d : A) l n : has_record n (length l) = true -> py_nth l n = Ok (nth (record_ix n (length l)) l d).
Proof.
  intros H. unfold py_nth. rewrite (norm_ix_has n (length l) H). rewrite Nat2Z.id. assert (L : (0 < length l)%nat). { unfold has_record in H. apply andb_true_iff in H as (A1 & B1). apply Z.leb_le in A1. apply Z.ltb_lt in B1. lia. }
  rewrite (nth_error_nth' l d) by (apply record_ix_lt; exact L). reflexivity.
Qed.
Lemma py_nth_norec {A} (l : list A) n : has_record n (length l) = false -> py_nth l n = Err IndexError.
Proof.
  intros H. unfold py_nth, norm_ix. unfold has_record in H. destruct (Z.leb_spec (- Z.of_nat (length l)) n), (Z.ltb_spec n (Z.of_nat (length l))); cbn [andb] in H; try discriminate.
  - destruct (Z.leb_spec 0 n); cbn [andb]; [|lia]. destruct (Z.ltb_spec n 0); [lia | reflexivity].
  - destruct (Z.leb_spec 0 n); cbn [andb]; [lia | reflexivity].
  - destruct (Z.leb_spec 0 n); cbn [andb]; [lia | reflexivity].
Qed.
Lemma at2_ok {A} (d : A) l q n : (q < length l)%nat -> has_record n (length (nth q l [])) = true -> at2 l (Z.of_nat q) n = Some (nth (record_ix n (length (nth q l []))) (nth q l []) d).
Proof. intros Hq H. unfold at2. rewrite (py_nth_ok [] l q Hq), (py_nth_rec d _ n H). reflexivity. Qed.
Lemma at2_no {A} (l : list (list A)) q n : (q < length l)%nat -> has_record n (length (nth q l [])) = false -> at2 l (Z.of_nat q) n = None.
Proof. intros Hq H. unfold at2. rewrite (py_nth_ok [] l q Hq), (py_nth_norec _ n H). reflexivity. Qed.

Lemma push_vars_ok vs ii it (g : list (list (option T)) -> list (option T)) (v : list (list (option T)) -> option T) : (forall kv, In kv vs -> at2 (snd kv) ii it = Some (v (snd kv))) ->
  push_vars vs ii it (map (fun kv => (fst kv, g (snd kv))) vs) = (map (fun kv => (fst kv, g (snd kv) ++ [v (snd kv)])) vs, true).
Proof.
  induction vs as [|kv vs IH]; intros H; [reflexivity|]. cbn [map push_vars]. rewrite (H kv (or_introl eq_refl)). rewrite IH by (intros; apply H; right; assumption). reflexivity.
Qed.

Lemma zrange0_S j : zrange 0 (Z.of_nat (S j)) = zrange 0 (Z.of_nat j) ++ [Z.of_nat j].
Proof. exact (zrange_S 0 j). Qed.
(** ** get_state *)
Section State.
Variable w : walk T.
Hypothesis RW : rect_walk w.
Variable ix : nat -> nat.     (* the record taken of particle q *)
Let len q := length (nth q (xinds w) []).
Hypothesis IX : forall q, (q < count w)%nat -> (ix q < len q)%nat.
Lemma rw_len q : (q < count w)%nat -> (0 < len q)%nat /\ length (nth q (yinds w) []) = len q /\ length (nth q (times w) []) = len q /\
  (q < length (yinds w))%nat /\ (q < length (times w))%nat /\ forall kv, In kv (opts w) -> (q < length (snd kv))%nat /\ length (nth q (snd kv) []) = len q.
Proof.
  intros Hq. destruct RW as (ND & (LY & LT & LO) & RR). destruct (RR q Hq) as (A & B & C & D). cbn [record_of row r_x r_y r_t r_o] in A, B, C, D. split; [exact A|]. split; [exact B|]. split; [exact C|].
  split; [rewrite LY; exact Hq|]. split; [rewrite LT; exact Hq|]. intros (k, l) Hkv. cbn [snd].
  assert (G : dget k (opts w) = Some l).
  { clear - ND Hkv. unfold fields in ND. induction (opts w) as [|(k', l') o IH]; [contradiction|]. cbn [dget map fst] in *. inversion ND as [|? ? NI ND']; subst. destruct Hkv as [E|Hkv].
    - injection E as -> ->. rewrite String.eqb_refl. reflexivity.
    - destruct (String.eqb_spec k k') as [->|_]; [exfalso; apply NI; apply (in_map fst) in Hkv; exact Hkv | apply IH; assumption]. }
  assert (KF : In k (fields w)) by (apply (in_map fst) in Hkv; exact Hkv). destruct (LO k KF) as (c & E & Lc). rewrite G in E. injection E as <-. split; [rewrite Lc; exact Hq|].
  specialize (D (k, nth q l [])). cbn [snd] in D. apply D. apply in_map_iff. exists k. rewrite G. split; [reflexivity | exact KF].
Qed.
Definition gval (j : nat) : gst T :=
  {| g_x := map (fun q => nth (ix q) (nth q (xinds w) []) 0) (seq 0 j); g_y := map (fun q => nth (ix q) (nth q (yinds w) []) 0) (seq 0 j);
     g_t := map (fun q => nth (ix q) (nth q (times w) []) n0) (seq 0 j);
     g_o := map (fun kv => (fst kv, map (fun q => nth (ix q) (nth q (snd kv) []) None) (seq 0 j))) (opts w) |}.
Lemma push_val q n : (q < count w)%nat -> has_record n (len q) = true -> record_ix n (len q) = ix q -> push w (Z.of_nat q) n (gval q) = (gval (S q), true).
Proof.
  intros Hq H E. destruct (rw_len q Hq) as (A & B & C & LY & LT & D). unfold push.
  rewrite (at2_ok 0 (xinds w)) by (first [exact Hq | exact H]). rewrite (at2_ok 0 (yinds w)) by (first [exact LY | rewrite B; exact H]). rewrite (at2_ok n0 (times w)) by (first [exact LT | rewrite C; exact H]).
  cbn [g_o g_x g_y g_t gval]. rewrite (push_vars_ok (opts w) (Z.of_nat q) n (fun rows => map (fun q => nth (ix q) (nth q rows []) None) (seq 0 q)) (fun rows => nth (ix q) (nth q rows []) None)).
  2:{ intros kv Hkv. destruct (D kv Hkv) as (D1 & D2). rewrite (at2_ok None (snd kv)) by (first [exact D1 | rewrite D2; exact H]). rewrite D2, E. reflexivity. }
  rewrite B, C. fold (len q). rewrite E. unfold gval. rewrite seq_S. cbn [Nat.add]. rewrite !map_app. cbn [map]. f_equal. f_equal. apply map_ext. intros kv. rewrite map_app. reflexivity.
Qed.
Lemma push_none q n st : (q < count w)%nat -> has_record n (len q) = false -> push w (Z.of_nat q) n st = (st, false).
Proof. intros Hq H. unfold push. rewrite (at2_no (xinds w)) by assumption. reflexivity. Qed.
Lemma has_last q : (q < count w)%nat -> has_record (-1) (len q) = true /\ record_ix (-1) (len q) = (len q - 1)%nat.
Proof.
  intros Hq. destruct (rw_len q Hq) as (A & _). assert (E : has_record (-1) (len q) = true) by (unfold has_record; apply andb_true_iff; split; [apply Z.leb_le; lia | apply Z.ltb_lt; lia]).
  split; [exact E|]. unfold record_ix. rewrite E. cbn [Z.ltb Z.compare]. lia.
Qed.
End State.
Lemma get_state_val w n : rect_walk w ->
  get_state w n = Ok (mk_state (gval w (fun q => record_ix n (length (nth q (xinds w) []))) (count w)), Z.of_nat (length (filter (fun q => negb (has_record n (length (nth q (xinds w) [])))) (seq 0 (count w))))).
Proof.
  intros RW. set (len := fun q => length (nth q (xinds w) [])). set (ix := fun q => record_ix n (len q)).
  assert (F : forall j, (j <= count w)%nat -> foldM (state_step w n) (zrange 0 (Z.of_nat j)) (gst0 w, 0) = Ok (gval w ix j, Z.of_nat (length (filter (fun q => negb (has_record n (len q))) (seq 0 j))))).
  { induction j as [|j IH]; intros Hj; [reflexivity|]. rewrite zrange0_S, foldM_app, IH by lia. cbn [bind foldM].
    rewrite seq_S, filter_app, app_length, Nat2Z.inj_add. cbn [Nat.add filter]. unfold state_step. cbn [fst snd].
    destruct (has_record n (len j)) eqn:H.
    - rewrite (push_val w RW ix j n) by (first [lia | exact H | reflexivity]). cbn [negb length]. rewrite Z.add_0_r. reflexivity.
    - rewrite (push_none w j n) by (first [lia | exact H]). destruct (has_last w RW j ltac:(lia)) as (H1 & H2). rewrite (push_val w RW ix j (-1)); [reflexivity | lia | exact H1|].
      rewrite H2. unfold ix, record_ix. rewrite H. reflexivity. }
  unfold get_state. change (length (xinds w)) with (count w). rewrite (F (count w)) by lia. reflexivity.
Qed.

Lemma nth_seq_map {A} (f : nat -> A) n q d : (q < n)%nat -> nth q (map f (seq 0 n)) d = f q.
Proof. intros H. rewrite (nth_indep _ d (f 0%nat)) by (rewrite map_length, seq_length; exact H). rewrite map_nth, seq_nth by exact H. reflexivity. Qed.
Lemma dget_map_snd {A B} (h : A -> B) (o : list (string * A)) v a : dget v o = Some a -> dget v (map (fun kv => (fst kv, h (snd kv))) o) = Some (h a).
Proof. induction o as [|(k, b) o IH]; [discriminate|]. cbn [dget map fst snd]. destruct (String.eqb v k); [intros E; injection E as ->; reflexivity | exact IH]. Qed.
Lemma slice_gval w ix : rect_walk w -> (forall q, (q < count w)%nat -> (ix q < length (nth q (xinds w) []))%nat) ->
  let s := mk_state (gval w ix (count w)) in slice_at w ix (st_x s) (st_y s) (st_t s) (st_o s).
Proof.
  intros RW IX. cbn [mk_state st_x st_y st_t st_o gval g_x g_y g_t g_o]. unfold slice_at. rewrite !map_length, !seq_length. split; [reflexivity|]. split; [reflexivity|]. split; [reflexivity|]. split.
  { intros q Hq. split; [apply IX, Hq|]. rewrite !nth_seq_map by exact Hq. repeat split. }
  split. { unfold fields. destruct (opts w); cbn [map]; split; congruence. }
  intros d E. assert (D : d = map (fun kv => (fst kv, map (fun q => nth (ix q) (nth q (snd kv) []) None) (seq 0 (count w)))) (opts w)) by (destruct (opts w); cbn [map] in *; congruence).
  subst d. split; [unfold fields; rewrite map_map; apply map_ext; reflexivity|]. intros v col G. eexists. split; [apply (dget_map_snd (fun rows => map (fun q => nth (ix q) (nth q rows []) None) (seq 0 (count w))) _ _ _ G)|].
  split; [rewrite map_length, seq_length; reflexivity|]. intros q Hq. rewrite (nth_seq_map (fun q => nth (ix q) (nth q col []) None)) by exact Hq. reflexivity.
Qed.
(** ** get_time_state *)
Context {NL : NumLaws T}.
Lemma argmin_from_spec r : forall pre b i best, nisnan b = false -> (forall x, In x r -> nisnan x = false) -> i = Z.of_nat (length pre) -> (exists k, best = Z.of_nat k /\ (k < length pre)%nat /\ nth k pre n0 = b) ->
  (forall j, (j < length pre)%nat -> nleb b (nth j pre n0) = true) -> (forall j, Z.of_nat j < best -> nltb b (nth j pre n0) = true) ->
  exists k, argmin_from r i best b = Z.of_nat k /\ first_min (pre ++ r) k.
Proof.
  induction r as [|x r IH]; intros pre b i best NB NR -> (k & -> & Hk & Ek) LE LT; cbn [argmin_from].
  - exists k. split; [reflexivity|]. rewrite app_nil_r. split; [exact Hk|]. rewrite Ek. split; [exact LE|]. intros j Hj. apply LT. lia.
  - assert (NX : nisnan x = false) by (apply NR; left; reflexivity). rewrite NB, NX, orb_false_r. cbn [negb andb].
    destruct (nltb x b) eqn:E.
    + destruct (IH (pre ++ [x]) x (Z.of_nat (length pre) + 1) (Z.of_nat (length pre))) as (k' & E' & FM); try assumption.
      * intros y Hy. apply NR. right. exact Hy.
      * rewrite app_length. cbn [length]. lia.
      * exists (length pre). split; [reflexivity|]. split; [rewrite app_length; cbn [length]; lia|]. rewrite app_nth2, Nat.sub_diag by lia. reflexivity.
      * intros j Hj. rewrite app_length in Hj. cbn [length] in Hj. rewrite ltb_def in E. apply andb_true_iff in E as (E & _). destruct (Nat.eq_dec j (length pre)) as [->|NE].
        -- rewrite app_nth2, Nat.sub_diag by lia. cbn [nth]. apply leb_refl. exact NX.
        -- rewrite app_nth1 by lia. eapply leb_trans; [exact E | apply LE; lia].
      * intros j Hj. rewrite app_nth1 by lia. rewrite ltb_def in *. apply andb_true_iff in E as (E1 & E2). apply andb_true_iff. split; [eapply leb_trans; [exact E1 | apply LE; lia]|].
        apply negb_true_iff. apply negb_true_iff in E2. destruct (nleb (nth j pre n0) x) eqn:Q; [|reflexivity]. exfalso. rewrite (leb_trans _ _ _ (LE j ltac:(lia)) Q) in E2. discriminate.
      * exists k'. split; [exact E'|]. rewrite <- app_assoc in FM. exact FM.
    + destruct (IH (pre ++ [x]) b (Z.of_nat (length pre) + 1) (Z.of_nat k)) as (k' & E' & FM); try assumption.
      * intros y Hy. apply NR. right. exact Hy.
      * rewrite app_length. cbn [length]. lia.
      * exists k. split; [reflexivity|]. split; [rewrite app_length; lia|]. rewrite app_nth1 by lia. exact Ek.
      * intros j Hj. rewrite app_length in Hj. cbn [length] in Hj. destruct (Nat.eq_dec j (length pre)) as [->|NE].
        -- rewrite app_nth2, Nat.sub_diag by lia. cbn [nth]. rewrite ltb_def in E. destruct (leb_total x b NX NB) as [Q|Q]; [|exact Q]. rewrite Q in E. cbn [andb] in E. apply negb_false_iff in E. exact E.
        -- rewrite app_nth1 by lia. apply LE. lia.
      * intros j Hj. rewrite app_nth1 by lia. apply LT. exact Hj.
      * exists k'. split; [exact E'|]. rewrite <- app_assoc in FM. exact FM.
Qed.
Lemma np_argmin_spec l : l <> [] -> (forall x, In x l -> nisnan x = false) -> exists k, np_argmin l = Ok (Z.of_nat k) /\ first_min l k.
Proof.
  intros NE NN. destruct l as [|x r]; [congruence|]. cbn [np_argmin]. destruct (argmin_from_spec r [x] x 1 0) as (k & -> & FM); [apply NN; left; reflexivity | intros; apply NN; right; assumption | reflexivity | | | | eauto].
  - exists 0%nat. cbn. repeat split; lia.
  - intros j Hj. cbn [length] in Hj. destruct j; [|lia]. cbn [nth]. apply leb_refl, NN. left. reflexivity.
  - intros j Hj. lia.
Qed.
Lemma nth_map_in {A B} (f : A -> B) (l : list A) i d e : (i < length l)%nat -> nth i (map f l) d = f (nth i l e).
Proof. intros H. rewrite (nth_indep _ d (f e)) by (rewrite map_length; exact H). apply map_nth. Qed.
Lemma get_time_state_val w target : rect_walk w -> (forall q t, (q < count w)%nat -> In t (nth q (times w) []) -> nisnan (nabs (nsub t target)) = false) ->
  exists ix, (forall q, (q < count w)%nat -> first_min (map (fun t => nabs (nsub t target)) (nth q (times w) [])) (ix q)) /\
  get_time_state w target = Ok (mk_state (gval w ix (count w)), map Z.of_nat (filter (fun q => nltb (last (nth q (times w) []) n0) target) (seq 0 (count w)))).
Proof.
  intros RW NN. set (ds := fun q => map (fun t => nabs (nsub t target)) (nth q (times w) [])).
  assert (EX : forall q, exists k, (q < count w)%nat -> np_argmin (ds q) = Ok (Z.of_nat k) /\ first_min (ds q) k).
  { intros q. destruct (Nat.lt_ge_cases q (count w)) as [Hq|Hq]; [|exists 0%nat; lia]. destruct (rw_len w RW q Hq) as (A & _ & C & _). destruct (np_argmin_spec (ds q)) as (k & K).
    - intros E. apply (f_equal (@length _)) in E. unfold ds in E. rewrite map_length, C in E. cbn in E. lia.
    - intros x Hx. apply in_map_iff in Hx as (t & <- & Ht). eapply NN; eassumption.
    - exists k. auto. }
  set (ix := fun q => match np_argmin (ds q) with Ok k => Z.to_nat k | Err _ => 0%nat end).
  assert (IX : forall q, (q < count w)%nat -> np_argmin (ds q) = Ok (Z.of_nat (ix q)) /\ first_min (ds q) (ix q)).
  { intros q Hq. destruct (EX q) as (k & K). destruct (K Hq) as (K1 & K2). unfold ix. rewrite K1, Nat2Z.id. auto. }
  exists ix. split; [intros q Hq; apply IX; exact Hq|].
  assert (F : forall j, (j <= count w)%nat -> foldM (time_step w target) (zrange 0 (Z.of_nat j)) (gst0 w, []) = Ok (gval w ix j, map Z.of_nat (filter (fun q => nltb (last (nth q (times w) []) n0) target) (seq 0 j)))).
  { induction j as [|j IH]; intros Hj; [reflexivity|]. rewrite zrange0_S, foldM_app, IH by lia. cbn [bind foldM].
    destruct (IX j ltac:(lia)) as (K1 & (K2 & _)). destruct (rw_len w RW j ltac:(lia)) as (A & B & C & LY & LT & D). unfold ds in K2. rewrite map_length in K2.
    rewrite seq_S, filter_app, map_app. cbn [Nat.add filter]. unfold time_step. rewrite (py_nth_ok [] (times w) j LT). cbn [bind]. fold (ds j). rewrite K1. cbn [bind fst snd].
    assert (HR : has_record (Z.of_nat (ix j)) (length (nth j (xinds w) [])) = true) by (unfold has_record; apply andb_true_iff; split; [apply Z.leb_le; lia | apply Z.ltb_lt; lia]).
    rewrite (push_val w RW ix j (Z.of_nat (ix j))); [| lia | exact HR | unfold record_ix; rewrite HR; replace (Z.of_nat (ix j) <? 0) with false by (symmetry; apply Z.ltb_ge; lia); apply Nat2Z.id].
    assert (PL : py_last (nth j (times w) []) = Ok (last (nth j (times w) []) n0)).
    { unfold py_last. rewrite (py_nth_rec n0); [|unfold has_record; apply andb_true_iff; split; [apply Z.leb_le; lia | apply Z.ltb_lt; lia]]. f_equal.
      assert (E : has_record (-1) (length (nth j (times w) [])) = true) by (unfold has_record; apply andb_true_iff; split; [apply Z.leb_le; lia | apply Z.ltb_lt; lia]). unfold record_ix. rewrite E. cbn [Z.ltb Z.compare].
      set (l := nth j (times w) []) in *. clearbody l. destruct (@exists_last _ l) as (l' & a & ->); [intros ->; cbn in C; lia|]. rewrite last_last, app_length. cbn [length].
      replace (Z.to_nat (-1 + Z.of_nat (length l' + 1))) with (length l') by lia. rewrite app_nth2, Nat.sub_diag by lia. reflexivity. }
    rewrite PL. cbn [bind]. destruct (nltb _ target); cbn [map]; [reflexivity | rewrite app_nil_r; reflexivity]. }
  unfold get_time_state. change (length (xinds w)) with (count w). rewrite (F (count w)) by lia. reflexivity.
Qed.

(** ** Snake plots *)
Lemma zrange_step_down a n k : 0 < k -> 0 <= n -> zrange_step a (a - n * k) (- k) = Ok (map (fun j => a - Z.of_nat j * k) (seq 0 (Z.to_nat n))).
Proof.
  intros Hk Hn. unfold zrange_step. replace (- k =? 0) with false by (symmetry; apply Z.eqb_neq; lia). replace (0 <? - k) with false by (symmetry; apply Z.ltb_ge; lia). f_equal.
  replace ((a - (a - n * k) - - k - 1) / - - k) with n.
  - apply map_ext. intros j. lia.
  - rewrite Z.opp_involutive. apply (Z.div_unique _ _ _ (k - 1)); lia.
Qed.
Lemma tail_length_ok l k cs : forall nw, length (tail_segments l k cs nw) = length cs.
Proof. induction cs as [|c cs IH]; intros nw; [reflexivity|]. cbn [tail_segments]. destruct (0 <=? c - k - 1); cbn [length]; rewrite IH; reflexivity. Qed.
Lemma skipn_skipn' {A} a : forall b (l : list A), skipn a (skipn b l) = skipn (a + b) l.
Proof.
  intros b. induction b as [|b IH]; intros l; [rewrite Nat.add_0_r; reflexivity|]. destruct l as [|x l]; [rewrite !skipn_nil; reflexivity|]. rewrite Nat.add_succ_r. cbn [skipn]. apply IH.
Qed.
Lemma slice_two (l : list (Z * Z)) c k : 0 < k -> 0 <= c - k - 1 -> c <= Z.of_nat (length l) ->
  slice_step l (c - k - 1) c k = [nth (Z.to_nat (c - k - 1)) l (0, 0); nth (Z.to_nat (c - 1)) l (0, 0)].
Proof.
  intros Hk H0 Hc. unfold slice_step. rewrite Z.min_l by lia. replace (c - (c - k - 1)) with (k + 1) by lia.
  set (a := Z.to_nat (c - k - 1)). assert (E : skipn a l = nth a l (0, 0) :: skipn (S a) l).
  { assert (Ha : (a < length l)%nat) by (unfold a; lia). clearbody a. clear - Ha. revert a Ha. induction l as [|x l IH]; intros a Ha; [cbn in Ha; lia|]. destruct a; [reflexivity|]. cbn [skipn nth]. rewrite (IH a) by (cbn in Ha; lia). reflexivity. }
  rewrite E. replace (Z.to_nat (k + 1)) with (S (Z.to_nat k)) by lia. cbn [firstn]. destruct (length l) as [|m] eqn:Lm; [lia|]. cbn [every_from]. f_equal.
  rewrite skipn_firstn_comm. replace (Z.to_nat k - (Z.to_nat k - 1))%nat with 1%nat by lia. rewrite skipn_skipn'. replace (Z.to_nat k - 1 + S a)%nat with (Z.to_nat (c - 1)) by (unfold a; lia).
  assert (E2 : skipn (Z.to_nat (c - 1)) l = nth (Z.to_nat (c - 1)) l (0, 0) :: skipn (S (Z.to_nat (c - 1))) l).
  { assert (Ha : (Z.to_nat (c - 1) < length l)%nat) by lia. generalize dependent (Z.to_nat (c - 1)). clear. induction l as [|x l IH]; intros a Ha; [cbn in Ha; lia|]. destruct a; [reflexivity|]. cbn [skipn nth]. rewrite (IH a) by (cbn in Ha; lia). reflexivity. }
  rewrite E2. cbn [firstn]. destruct m as [|m]; [lia|]. cbn [every_from]. f_equal. rewrite skipn_nil. destruct m; reflexivity.
Qed.

Fixpoint segs_from (l : list (Z * Z)) (k : Z) (e : Z) (prev : list (Z * Z)) (n : nat) : list (list (Z * Z)) :=
  match n with O => [] | S n' => let s := if 0 <=? e - k then [nth (Z.to_nat (e - k)) l (0, 0); nth (Z.to_nat e) l (0, 0)] else prev in s :: segs_from l k (e - k) s n' end.
Lemma tail_is l k ii n : 0 < k -> ii <= Z.of_nat (length l) -> forall m prev,
  tail_segments l k (map (fun j => ii - Z.of_nat j * k) (seq m n)) prev = segs_from l k (ii - Z.of_nat m * k - 1) prev n.
Proof.
  intros Hk Hi. induction n as [|n IH]; intros m prev; [reflexivity|]. cbn [seq map tail_segments segs_from].
  replace (ii - Z.of_nat m * k - 1 - k) with (ii - Z.of_nat m * k - k - 1) by lia. rewrite !IH. replace (ii - Z.of_nat (S m) * k - 1) with (ii - Z.of_nat m * k - k - 1) by lia.
  destruct (Z.leb_spec 0 (ii - Z.of_nat m * k - k - 1)) as [H|H]; [|reflexivity]. rewrite slice_two by lia. reflexivity.
Qed.
Lemma segs_snake l k ii n : forall m, segs_from l k (ii - Z.of_nat m * k - 1) (match m with O => firstn 2 l | S m' => snake_segment l ii k m' end) n = map (snake_segment l ii k) (seq m n).
Proof.
  induction n as [|n IH]; intros m; [reflexivity|]. cbn [segs_from seq map].
  assert (E : (if 0 <=? ii - Z.of_nat m * k - 1 - k then [nth (Z.to_nat (ii - Z.of_nat m * k - 1 - k)) l (0, 0); nth (Z.to_nat (ii - Z.of_nat m * k - 1)) l (0, 0)] else match m with O => firstn 2 l | S m' => snake_segment l ii k m' end) = snake_segment l ii k m) by (destruct m; reflexivity).
  rewrite E. f_equal. specialize (IH (S m)). cbn iota in IH. rewrite <- IH. f_equal. lia.
Qed.
Lemma mapM_Ok {A B} (f : A -> res B) (g : A -> B) l : (forall a, In a l -> f a = Ok (g a)) -> mapM f l = Ok (map g l).
Proof. induction l as [|a l IH]; intros H; [reflexivity|]. cbn [mapM map]. rewrite (H a (or_introl eq_refl)). cbn [bind]. rewrite IH by (intros; apply H; right; assumption). reflexivity. Qed.
Lemma mapM_map {A B D} (f : B -> res D) (g : A -> B) l : mapM f (map g l) = mapM (fun a => f (g a)) l.
Proof. induction l as [|a l IH]; [reflexivity|]. cbn [mapM map]. rewrite IH. reflexivity. Qed.
Lemma frame_val (w : walk T) k n ii : (length (yinds w) = count w) -> 0 < k -> 0 <= n -> frame w k n ii = Ok (snake_frame w k n ii).
Proof.
  intros LY Hk Hn. unfold frame. change (length (xinds w)) with (count w). rewrite zrange_nat, mapM_map.
  rewrite (mapM_Ok _ (fun q => if ii <=? Z.of_nat (length (track w q)) then map (snake_segment (track w q) ii k) (seq 0 (Z.to_nat n)) else [])).
  - cbn [bind]. rewrite <- flat_map_concat_map. reflexivity.
  - intros q Hq. apply in_seq in Hq. unfold particle_segments. rewrite (py_nth_ok [] (xinds w) q) by (unfold count in Hq; lia). rewrite (py_nth_ok [] (yinds w) q) by lia. cbn [bind]. fold (track w q).
    destruct (Z.ltb_spec (Z.of_nat (length (track w q))) ii) as [H|H].
    + replace (ii <=? _) with false by (symmetry; apply Z.leb_gt; lia). reflexivity.
    + replace (ii <=? _) with true by (symmetry; apply Z.leb_le; lia). rewrite zrange_step_down by lia. cbn [bind]. rewrite tail_is by lia. rewrite <- (segs_snake (track w q) k ii (Z.to_nat n) 0). reflexivity.
Qed.
Fixpoint frames_upto (w : walk T) (k n : Z) (iis : list Z) : list (Z * list (list (Z * Z))) :=
  match iis with [] => [] | ii :: r => match snake_frame w k n ii with [] => [] | f => (ii, f) :: frames_upto w k n r end end.
Lemma frames_val (w : walk T) k n iis : (length (yinds w) = count w) -> 0 < k -> 0 <= n -> frames w k n iis = Ok (frames_upto w k n iis).
Proof.
  intros LY Hk Hn. induction iis as [|ii r IH]; [reflexivity|]. cbn [frames frames_upto]. rewrite frame_val by assumption. cbn [bind]. destruct (snake_frame w k n ii); [reflexivity|]. rewrite IH. reflexivity.
Qed.
Lemma zrange_step_up k m : 0 < k -> zrange_step k (m * k) k = Ok (map (fun j => Z.of_nat (S j) * k) (seq 0 (Z.to_nat (m - 1)))).
Proof.
  intros Hk. unfold zrange_step. replace (k =? 0) with false by (symmetry; apply Z.eqb_neq; lia). replace (0 <? k) with true by (symmetry; apply Z.ltb_lt; lia). f_equal.
  replace ((m * k - k + k - 1) / k) with (m - 1). { apply map_ext. intros j. lia. } apply (Z.div_unique _ _ _ (k - 1)); lia.
Qed.
(** The frames form the longest initial part of k, 2k, ..., (num_steps-1)k in which something is drawn. *)
Lemma frames_prefix (w : walk T) k n g iis : iis = map (fun j => Z.of_nat (S j) * k) (seq g (length iis)) -> exists r,
  frames_upto w k n iis = map (fun j => (Z.of_nat (S j) * k, snake_frame w k n (Z.of_nat (S j) * k))) (seq g r) /\ (r <= length iis)%nat /\
  (forall j, (g <= j < g + r)%nat -> snake_frame w k n (Z.of_nat (S j) * k) <> []) /\ ((r < length iis)%nat -> snake_frame w k n (Z.of_nat (S (g + r)) * k) = []).
Proof.
  revert g. induction iis as [|ii iis IH]; intros g E.
  - exists 0%nat. split; [reflexivity|]. split; [lia|]. split; intros; cbn in *; lia.
  - cbn [length seq map] in E. pose proof (f_equal (hd 0) E) as Ei. pose proof (f_equal (@tl Z) E) as E2. cbn [hd tl] in Ei, E2. clear E. destruct (IH (S g) E2) as (r & R1 & R2 & R3 & R4). cbn [frames_upto]. rewrite Ei. destruct (snake_frame w k n (Z.of_nat (S g) * k)) as [|s f] eqn:F.
    + exists 0%nat. split; [reflexivity|]. split; [lia|]. split; [intros; lia|]. intros _. rewrite Nat.add_0_r. exact F.
    + exists (S r). cbn [seq map]. rewrite F, R1. split; [reflexivity|]. split; [cbn [length]; lia|]. split.
      * intros j Hj. destruct (Nat.eq_dec j g) as [->|NE]; [congruence | apply R3; lia].
      * intros H. cbn [length] in H. specialize (R4 ltac:(lia)). rewrite Nat.add_succ_r. exact R4.
Qed.
Lemma snake_val (w : walk T) m k n : (length (yinds w) = count w) -> 0 < k -> 0 <= n -> exists r,
  snake_plots w m k n = Ok (map (fun j => (Z.of_nat (S j) * k, snake_frame w k n (Z.of_nat (S j) * k))) (seq 0 r)) /\ Z.of_nat r <= Z.max 0 (m - 1) /\
  (forall j, (j < r)%nat -> snake_frame w k n (Z.of_nat (S j) * k) <> []) /\ (Z.of_nat r < m - 1 -> snake_frame w k n (Z.of_nat (S r) * k) = []).
Proof.
  intros LY Hk Hn. pose proof (zrange_step_up k m Hk) as Z1. set (iis := map (fun j => Z.of_nat (S j) * k) (seq 0 (Z.to_nat (m - 1)))) in *.
  assert (LI : length iis = Z.to_nat (m - 1)) by (unfold iis; rewrite map_length, seq_length; reflexivity).
  destruct (frames_prefix w k n 0 iis) as (r & R1 & R2 & R3 & R4); [rewrite LI; reflexivity|]. exists r.
  unfold snake_plots. replace (n <? 0) with false by (symmetry; apply Z.ltb_ge; lia). rewrite Z1. cbn [bind]. rewrite frames_val by assumption. rewrite R1. split; [reflexivity|]. split; [lia|]. split; [intros; apply R3; lia|]. intros H. apply R4. lia.
Qed.
Lemma snake_segment_points l ii k m : 0 < k -> 0 < ii <= Z.of_nat (length l) -> forall p, In p (snake_segment l ii k m) -> In p l.
Proof.
  intros Hk Hi. induction m as [|m IH]; intros p; cbn [snake_segment].
  all: match goal with |- context[0 <=? ?e] => destruct (Z.leb_spec 0 e) as [H|H] end.
  1,3: intros [<-|[<-|[]]]; apply nth_In; lia.
  - intros H1. rewrite <- (firstn_skipn 2 l). apply in_or_app. left. exact H1.
  - apply IH.
Qed.
End C.
