(** Proofs about searchsorted, random_pick and steep_descent. *)
From Coq Require Import ZArith Bool List Lia.
From Verif Require Import Num Py NumFacts Walker SpecPick.
Import ListNotations.
Open Scope Z_scope.
Open Scope res_scope.

Section B.
Context {T : Type} {N : Num T}.

Lemma bsearch_spec (a : list T) key : forall fuel lo hi, (hi - lo <= fuel)%nat -> (lo <= hi)%nat ->
  (forall i j, (lo <= i <= j)%nat -> (j < hi)%nat -> np_lt (nth j a nnan) key = true -> np_lt (nth i a nnan) key = true) ->
  let r := bsearch fuel a key lo hi in
  (lo <= r <= hi)%nat /\ (forall i, (lo <= i < r)%nat -> np_lt (nth i a nnan) key = true) /\
  (forall i, (r <= i < hi)%nat -> np_lt (nth i a nnan) key = false).
Proof.
  induction fuel as [|f IH]; intros lo hi Hf Hl Mono; cbn [bsearch]; cbv zeta.
  - assert (lo = hi) by lia. subst. repeat split; intros; lia.
  - destruct (Nat.ltb_spec lo hi) as [L|L].
    + set (mid := (lo + (hi - lo) / 2)%nat).
      assert (M : (lo <= mid < hi)%nat).
      { unfold mid. pose proof (Nat.div_lt (hi - lo) 2). lia. }
      destruct (np_lt (nth mid a nnan) key) eqn:E.
      * destruct (IH (mid + 1)%nat hi) as (A & B & C); try lia.
        { intros i j H1 H2. apply Mono; lia. }
        split; [lia|]. split.
        -- intros i Hi. destruct (Nat.lt_ge_cases mid i).
           ++ apply B. lia.
           ++ apply (Mono i mid); [lia | lia | exact E].
        -- exact C.
      * destruct (IH lo mid) as (A & B & C); try lia.
        { intros i j H1 H2. apply Mono; lia. }
        split; [lia|]. split; [exact B|].
        intros i Hi. destruct (Nat.lt_ge_cases i mid).
        -- apply C. lia.
        -- destruct (np_lt (nth i a nnan) key) eqn:F; [|reflexivity].
           rewrite (Mono mid i) in E; [discriminate | lia | lia | exact F].
    + repeat split; intros; lia.
Qed.
End B.

Section P.
Context {T : Type} {N : Num T} {NL : NumLaws T}.

(** cumulative sums *)
Lemma cumsum_from_length l : forall acc : T, length (cumsum_from acc l) = length l.
Proof. induction l; simpl; intros; [reflexivity | rewrite IHl; reflexivity]. Qed.
Lemma cumsum_length (l : list T) : length (cumsum l) = length l.
Proof. destruct l; simpl; [reflexivity | rewrite cumsum_from_length; reflexivity]. Qed.

Definition allnn (l : list T) := forall k, nn (nth k l n0).
Lemma allnn_cons x l : allnn (x :: l) <-> nn x /\ allnn l.
Proof.
  unfold allnn. split.
  - intros H. split; [apply (H 0%nat) | intros k; apply (H (S k))].
  - intros (A & B) [|k]; simpl; auto.
Qed.
Lemma allnn_nil : allnn [].
Proof. intros k. destruct k; apply nn_n0. Qed.

(** recurrence of the running sums *)
Lemma cumsum_from_0 acc l : (0 < length l)%nat -> nth 0 (cumsum_from acc l) nnan = nadd acc (nth 0 l n0).
Proof. destruct l; simpl; [lia | reflexivity]. Qed.
Lemma cumsum_from_S l : forall acc k, (S k < length l)%nat ->
  nth (S k) (cumsum_from acc l) nnan = nadd (nth k (cumsum_from acc l) nnan) (nth (S k) l n0).
Proof.
  induction l as [|x l IH]; intros acc k H; simpl in *; [lia|].
  destruct k; simpl.
  - destruct l; simpl in *; [lia|reflexivity].
  - apply IH. lia.
Qed.
Lemma cumsum_0 (l : list T) : nth 0 (cumsum l) nnan = nth 0 l nnan.
Proof. destruct l; reflexivity. Qed.
Lemma cumsum_S (l : list T) k : (S k < length l)%nat ->
  nth (S k) (cumsum l) nnan = nadd (nth k (cumsum l) nnan) (nth (S k) l n0).
Proof.
  destruct l as [|x l]; simpl; [lia|]. intros H. destruct k; simpl.
  - apply cumsum_from_0. lia.
  - apply cumsum_from_S. lia.
Qed.
Lemma nth_indep' (l : list T) k d d' : (k < length l)%nat -> nth k l d = nth k l d'.
Proof. intros. apply nth_indep. assumption. Qed.

Lemma cumsum_nn (l : list T) k : allnn l -> (k < length l)%nat -> nn (nth k (cumsum l) nnan).
Proof.
  intros H. induction k; intros Hk.
  - rewrite cumsum_0, (nth_indep' l 0 nnan n0) by exact Hk. apply H.
  - rewrite cumsum_S by exact Hk. apply nn_add; [apply IHk; lia | apply H].
Qed.
Lemma cumsum_mono (l : list T) i j : allnn l -> (i <= j < length l)%nat ->
  nleb (nth i (cumsum l) nnan) (nth j (cumsum l) nnan) = true.
Proof.
  intros H (Hij & Hj). induction Hij.
  - apply leb_refl, nn_notnan, cumsum_nn; assumption.
  - rewrite cumsum_S by exact Hj. eapply leb_trans; [apply IHHij; lia|].
    apply add_nn_l; [apply cumsum_nn; [exact H | lia] | apply H].
Qed.

Lemma np_lt_notnan (a key : T) : nisnan a = false -> nisnan key = false -> np_lt a key = nltb a key.
Proof. intros A B. unfold np_lt. rewrite B. simpl. apply orb_false_r. Qed.

(** position found by searchsorted in the running sums *)
Lemma search_cumsum (l : list T) x : allnn l -> nisnan x = false -> l <> [] ->
  nleb x (nth (length l - 1) (cumsum l) nnan) = true ->
  let r := searchsorted (cumsum l) x in
  (r < length l)%nat /\ nleb x (nth r (cumsum l) nnan) = true /\
  (forall i, (i < r)%nat -> nltb (nth i (cumsum l) nnan) x = true).
Proof.
  intros H Nx NE Top r.
  assert (LN : (0 < length l)%nat) by (destruct l; [congruence | simpl; lia]).
  destruct (bsearch_spec (cumsum l) x (length (cumsum l)) 0 (length (cumsum l))) as (A & B & C); try lia.
  - intros i j Hij Hj. rewrite cumsum_length in Hj.
    rewrite !np_lt_notnan by (first [exact Nx | apply nn_notnan, cumsum_nn; [exact H | lia]]).
    intros L. eapply le_lt_trans; [|exact L]. apply cumsum_mono; [exact H | lia].
  - fold (searchsorted (cumsum l) x) in A, B, C. fold r in A, B, C. rewrite cumsum_length in A, C.
    assert (R : (r < length l)%nat).
    { destruct (Nat.lt_ge_cases r (length l)) as [|G]; [assumption|]. exfalso.
      assert (E : np_lt (nth (length l - 1) (cumsum l) nnan) x = true) by (apply B; lia).
      rewrite np_lt_notnan in E by (first [exact Nx | apply nn_notnan, cumsum_nn; [exact H | lia]]).
      apply lt_split in E. destruct E. congruence. }
    split; [exact R|]. split.
    + assert (E : np_lt (nth r (cumsum l) nnan) x = false) by (apply C; lia).
      assert (NN : nisnan (nth r (cumsum l) nnan) = false) by (apply nn_notnan, cumsum_nn; assumption).
      rewrite np_lt_notnan in E by assumption. apply not_lt_le; assumption.
    + intros i Hi. assert (E : np_lt (nth i (cumsum l) nnan) x = true) by (apply B; lia).
      rewrite np_lt_notnan in E by (first [exact Nx | apply nn_notnan, cumsum_nn; [exact H | lia]]). exact E.
Qed.

Lemma py_nth_ok {A} (l : list A) k d : (k < length l)%nat -> py_nth l (Z.of_nat k) = Ok (nth k l d).
Proof.
  intros H. unfold py_nth, norm_ix.
  replace ((0 <=? Z.of_nat k) && (Z.of_nat k <? Z.of_nat (length l))) with true
    by (symmetry; apply andb_true_iff; rewrite Z.leb_le, Z.ltb_lt; lia).
  rewrite Nat2Z.id, (nth_error_nth' l d H). reflexivity.
Qed.
Lemma py_last_ok {A} (l : list A) d : l <> [] -> py_last l = Ok (nth (length l - 1) l d).
Proof.
  intros H. assert (LN : (0 < length l)%nat) by (destruct l; [congruence | simpl; lia]).
  unfold py_last, py_nth, norm_ix.
  replace ((0 <=? -1) && (-1 <? Z.of_nat (length l))) with false by reflexivity.
  replace ((- Z.of_nat (length l) <=? -1) && (-1 <? 0)) with true
    by (symmetry; apply andb_true_iff; rewrite Z.leb_le, Z.ltb_lt; lia).
  replace (Z.to_nat (-1 + Z.of_nat (length l))) with (length l - 1)%nat by lia.
  rewrite (nth_error_nth' l d) by lia. reflexivity.
Qed.

(** uniform(0, top): between 0 and top *)
Lemma uniform_range (top u x : T) : nn top -> unit_draw u -> np_uniform0 top u = Ok x ->
  nisfin (nsub top n0) = true /\ x = nadd n0 (nmul (nsub top n0) u) /\ nn x /\ nleb x top = true.
Proof.
  intros Ht (U0 & U1) H. unfold np_uniform0 in H. destruct (nisfin (nsub top n0)) eqn:F; [|discriminate].
  injection H as <-. split; [reflexivity|]. split; [reflexivity|].
  pose proof (sub_z_r top (nn_notnan _ Ht)) as S.
  assert (NS : nn (nsub top n0)) by (eapply leb_trans; [exact Ht | apply eq_ge, S]).
  assert (FU : nisfin u = true) by (eapply fin_between; [apply n0_fin | apply n1_fin | exact U0 | apply lt_le, U1]).
  assert (NM : nn (nmul (nsub top n0) u)) by (apply mul_nn; assumption).
  assert (LM : nleb (nmul (nsub top n0) u) (nsub top n0) = true)
    by (apply mul_le_r; try assumption; apply lt_le, U1).
  pose proof (add_z_l n0 (nmul (nsub top n0) u) (eq_refl' n0 n0_notnan) (nn_notnan _ NM)) as E.
  split.
  - eapply leb_trans; [exact NM | apply eq_ge, E].
  - eapply leb_trans; [apply eq_le, E|]. eapply leb_trans; [exact LM|]. apply eq_le, S.
Qed.

(** the picking step shared by random_pick and steep_descent *)
Definition pick (l : list T) (u : T) : res nat :=
  top <- py_last (cumsum l) ;; x <- np_uniform0 top u ;; Ok (searchsorted (cumsum l) x).
Lemma random_pick_pick p u : random_pick p u = (k <- pick (map nanz p) u ;; Ok (k, map nanz p)).
Proof.
  unfold random_pick, pick. destruct (py_last (cumsum (map nanz p))); [|reflexivity]. cbn [bind].
  destruct (np_uniform0 a u); reflexivity.
Qed.
Lemma steep_pick p u : steep_descent p u = (k <- pick (steep_prune p) u ;; Ok (k, steep_prune p)).
Proof.
  unfold steep_descent, pick. destruct (py_last (cumsum (steep_prune p))); [|reflexivity]. cbn [bind].
  destruct (np_uniform0 a u); reflexivity.
Qed.


Lemma pick_spec (l : list T) u k : allnn l -> unit_draw u -> pick l u = Ok k ->
  (k < length l)%nat /\ nn (mapped_draw l u) /\ nleb (mapped_draw l u) (nth k (cumsum l) nnan) = true /\
  (forall i, (i < k)%nat -> nltb (nth i (cumsum l) nnan) (mapped_draw l u) = true).
Proof.
  intros H U Hp. unfold pick in Hp.
  destruct l as [|a l'] eqn:El; [discriminate|]. rewrite <- El in *.
  assert (NE : l <> []) by (rewrite El; discriminate). clear El a l'.
  assert (NC : cumsum l <> []) by (intros E; apply (f_equal (@length T)) in E; rewrite cumsum_length in E; destruct l; [congruence | discriminate]).
  rewrite (py_last_ok _ nnan NC) in Hp. rewrite cumsum_length in Hp. cbn [bind] in Hp.
  set (top := nth (length l - 1) (cumsum l) nnan) in *.
  assert (LN : (0 < length l)%nat) by (destruct l; [congruence | simpl; lia]).
  assert (NT : nn top) by (apply cumsum_nn; [exact H | lia]).
  destruct (np_uniform0 top u) as [x|] eqn:EU; [|discriminate]. cbn [bind] in Hp. injection Hp as <-.
  destruct (uniform_range _ _ _ NT U EU) as (F & EX & NX & LX).
  unfold mapped_draw. fold top. rewrite <- EX.
  destruct (search_cumsum l x H (nn_notnan _ NX) NE LX) as (A & B & C).
  repeat split; assumption.
Qed.
Lemma pick_total (l : list T) u : allnn l -> l <> [] ->
  nisfin (nsub (nth (length l - 1) (cumsum l) nnan) n0) = true -> exists k, pick l u = Ok k.
Proof.
  intros H NE F. unfold pick.
  assert (NC : cumsum l <> []) by (intros E; apply (f_equal (@length T)) in E; rewrite cumsum_length in E; destruct l; [congruence | discriminate]).
  rewrite (py_last_ok _ nnan NC), cumsum_length. cbn [bind]. unfold np_uniform0. rewrite F. cbn [bind]. eexists. reflexivity.
Qed.
Lemma pick_positive (l : list T) u k : allnn l -> unit_draw u -> pick l u = Ok k ->
  nltb n0 (mapped_draw l u) = true -> (k < length l)%nat /\ nltb n0 (nth k l n0) = true.
Proof.
  intros H U Hp Px. destruct (pick_spec l u k H U Hp) as (A & B & C & D). split; [exact A|].
  destruct k as [|k].
  - rewrite cumsum_0, (nth_indep' l 0 nnan n0) in C by exact A. eapply lt_le_trans; eassumption.
  - rewrite cumsum_S in C by exact A.
    destruct (nn_zero_or_pos _ (H (S k))) as [Z|Z]; [|exact Z]. exfalso.
    assert (CN : nn (nth k (cumsum l) nnan)) by (apply cumsum_nn; [exact H | lia]).
    pose proof (add_z_r _ _ Z (nn_notnan _ CN)) as E.
    assert (L : nltb (nth k (cumsum l) nnan) (nth k (cumsum l) nnan) = true).
    { eapply lt_le_trans; [apply D; lia|]. eapply leb_trans; [exact C | apply eq_le, E]. }
    rewrite lt_irrefl in L. discriminate.
Qed.

(** weight vectors without negative entries *)
Lemma nanz_n0 : nanz (n0 : T) = n0.
Proof. apply nanz_id, n0_notnan. Qed.
Lemma nth_nanz (p : list T) k : nth k (map nanz p) n0 = nanz (nth k p n0).
Proof.
  destruct (Nat.lt_ge_cases k (length p)) as [L|L].
  - rewrite (nth_indep' _ k n0 (nanz n0)) by (rewrite map_length; exact L). apply map_nth.
  - rewrite !nth_overflow by (rewrite ?map_length; exact L). symmetry. apply nanz_n0.
Qed.
Lemma no_negative_nanz p : no_negative p -> allnn (map nanz p).
Proof. intros H k. rewrite nth_nanz. apply nanz_nn, H. Qed.

(** C07 *)
Lemma random_pick_positive p u k p' : no_negative p -> unit_draw u -> random_pick p u = Ok (k, p') ->
  nltb n0 (mapped_draw (map nanz p) u) = true ->
  (k < length p)%nat /\ nltb n0 (nth k p n0) = true.
Proof.
  intros H U Hp Px. rewrite random_pick_pick in Hp. destruct (pick (map nanz p) u) as [k'|] eqn:E; [|discriminate].
  cbn [bind] in Hp. injection Hp as <- <-.
  destruct (pick_positive _ _ _ (no_negative_nanz p H) U E Px) as (A & B). rewrite map_length in A. split; [exact A|].
  rewrite nth_nanz in B. apply nanz_pos, B.
Qed.

(** C09 *)
Lemma upd_nth_length {A} n (a : A) l : length (upd_nth n a l) = length l.
Proof. revert n. induction l; intros [|n]; simpl; auto. Qed.
Lemma upd_nth_same {A} n (a d : A) l : (n < length l)%nat -> nth n (upd_nth n a l) d = a.
Proof. revert n. induction l; intros [|n]; simpl; try lia; auto. intros. apply IHl. lia. Qed.
Lemma upd_nth_other {A} n m (a d : A) l : n <> m -> nth m (upd_nth n a l) d = nth m l d.
Proof. revert n m. induction l; intros [|n] [|m]; simpl; try reflexivity; try congruence. intros. apply IHl. lia. Qed.
Lemma upd_nth_oob {A} n (a : A) l : (length l <= n)%nat -> upd_nth n a l = l.
Proof. revert n. induction l; intros [|n]; simpl; try reflexivity; try lia. intros. rewrite IHl by lia. reflexivity. Qed.

Lemma prune_length (p : list T) : length (steep_prune p) = length p.
Proof. unfold steep_prune. rewrite !map_length, upd_nth_length. reflexivity. Qed.
Lemma prune_nth (p : list T) k : (k < length p)%nat ->
  nth k (steep_prune p) n0 = nanz (let q := if Nat.eqb k 4 then n0 else nth k p n0 in if nltb q (np_nanmax p) then n0 else q).
Proof.
  intros H. unfold steep_prune. rewrite nth_nanz. f_equal.
  set (f := fun q => if nltb q (np_nanmax p) then n0 else q).
  assert (F0 : f n0 = n0) by (unfold f; destruct (nltb n0 (np_nanmax p)); reflexivity).
  rewrite (nth_indep' _ k n0 (f n0)) by (rewrite map_length, upd_nth_length; exact H).
  rewrite map_nth. unfold f. cbv zeta.
  destruct (Nat.eqb_spec k 4) as [->|NE].
  - rewrite upd_nth_same by exact H. reflexivity.
  - rewrite upd_nth_other by congruence. reflexivity.
Qed.
Lemma nanmax_spec (p : list T) : (exists k, (k < length p)%nat /\ nisnan (nth k p n0) = false) ->
  (exists k, (k < length p)%nat /\ nth k p n0 = np_nanmax p) /\ nisnan (np_nanmax p) = false /\
  forall k, (k < length p)%nat -> nisnan (nth k p n0) = false -> nleb (nth k p n0) (np_nanmax p) = true.
Proof.
  intros (k0 & H0 & N0). unfold np_nanmax. set (l := filter (fun x => negb (nisnan x)) p).
  assert (IN : forall x, In x l <-> In x p /\ nisnan x = false).
  { intros x. unfold l. rewrite filter_In, negb_true_iff. reflexivity. }
  assert (In0 : In (nth k0 p n0) l) by (apply IN; split; [apply nth_In, H0 | exact N0]).
  destruct (np_max_spec l) as (A & B).
  - intros E. rewrite E in In0. contradiction.
  - apply Forall_forall. intros x Hx. apply IN in Hx. tauto.
  - apply IN in A as (A1 & A2). split; [|split; [exact A2|]].
    + apply (In_nth _ _ n0) in A1. exact A1.
    + intros k Hk Nk. rewrite Forall_forall in B. apply B, IN. split; [apply nth_In, Hk | exact Nk].
Qed.
Lemma prune_nn p : no_negative p -> allnn (steep_prune p).
Proof.
  intros H k. destruct (Nat.lt_ge_cases k (length p)) as [L|L].
  - rewrite prune_nth by exact L. cbv zeta. apply nanz_nn.
    destruct (k =? 4)%nat; [destruct (nltb n0 (np_nanmax p)); apply notneg_n0|].
    destruct (nltb (nth k p n0) (np_nanmax p)); [apply notneg_n0 | apply H].
  - rewrite nth_overflow by (rewrite prune_length; exact L). apply nn_n0.
Qed.
Lemma steep_pick_max p u k p' : no_negative p -> unit_draw u -> steep_descent p u = Ok (k, p') ->
  nltb n0 (mapped_draw (steep_prune p) u) = true ->
  (k < length p)%nat /\ k <> 4%nat /\ nltb n0 (nth k p n0) = true /\
  forall m, nisnan (nth m p n0) = false -> nleb (nth m p n0) (nth k p n0) = true.
Proof.
  intros H U Hp Px. rewrite steep_pick in Hp. destruct (pick (steep_prune p) u) as [k'|] eqn:E; [|discriminate].
  cbn [bind] in Hp. injection Hp as <- <-.
  destruct (pick_positive _ _ _ (prune_nn p H) U E Px) as (A & B). rewrite prune_length in A.
  rewrite prune_nth in B by exact A. cbv zeta in B. apply nanz_pos in B.
  destruct (Nat.eqb_spec k' 4) as [->|NE].
  - destruct (nltb n0 (np_nanmax p)); rewrite lt_irrefl in B; discriminate.
  - destruct (nltb (nth k' p n0) (np_nanmax p)) eqn:L; [rewrite lt_irrefl in B; discriminate|].
    split; [exact A|]. split; [exact NE|]. split; [exact B|].
    assert (Nk : nisnan (nth k' p n0) = false) by (eapply lt_nan_r; exact B).
    destruct (nanmax_spec p (ex_intro _ k' (conj A Nk))) as (_ & NM & MX).
    intros m Nm. destruct (Nat.lt_ge_cases m (length p)) as [Lm|Lm].
    + eapply leb_trans; [apply MX; assumption|]. apply not_lt_le; assumption.
    + rewrite nth_overflow by exact Lm. apply lt_le, B.
Qed.

(** C10 *)
Lemma nanz_idem (x : T) : nanz (nanz x) = nanz x.
Proof. apply nanz_id, nanz_notnan. Qed.
Lemma map_nanz_idem (p : list T) : map nanz (map nanz p) = map nanz p.
Proof. rewrite map_map. apply map_ext. intros. apply nanz_idem. Qed.
Lemma steep_prune_idem p : no_negative p -> steep_prune (steep_prune p) = steep_prune p.
Proof.
  intros H. apply (nth_ext _ _ n0 n0); [rewrite !prune_length; reflexivity|].
  intros k Hk. rewrite !prune_length in Hk.
  rewrite prune_nth by (rewrite prune_length; exact Hk). cbv zeta.
  set (M := np_nanmax p). set (M' := np_nanmax (steep_prune p)).
  pose proof (prune_nn p H) as PN.
  assert (NP : forall m, nisnan (nth m (steep_prune p) n0) = false) by (intros m; apply nn_notnan, PN).
  assert (EX : exists k, (k < length (steep_prune p))%nat /\ nisnan (nth k (steep_prune p) n0) = false)
    by (exists k; rewrite prune_length; auto).
  destruct (nanmax_spec _ EX) as ((km & Hkm & Ekm) & NM' & MX'). fold M' in Ekm, NM', MX'. rewrite prune_length in Hkm.
  destruct (Nat.eqb_spec k 4) as [->|NE].
  - assert (E4 : nth 4 (steep_prune p) n0 = n0).
    { rewrite prune_nth by exact Hk. cbn. destruct (nltb n0 (np_nanmax p)); apply nanz_n0. }
    rewrite E4. destruct (nltb n0 M'); apply nanz_n0.
  - set (v := nth k (steep_prune p) n0) in *.
    destruct (nltb v M') eqn:L; [|apply nanz_id, NP].
    rewrite nanz_n0. (* v < M', so v must be a pruned zero *)
    unfold v in *. rewrite prune_nth in L |- * by exact Hk. cbv zeta in *.
    destruct (Nat.eqb_spec k 4); [congruence|]. fold M in L |- *.
    destruct (nltb (nth k p n0) M) eqn:Lk; [symmetry; apply nanz_n0|].
    unfold nanz in L |- *. destruct (nisnan (nth k p n0)) eqn:Nk; [reflexivity|].
    exfalso.
    (* p_k is a maximum of p, yet below M' = some entry of prune p <= max *)
    destruct (nanmax_spec p (ex_intro _ k (conj Hk Nk))) as (_ & NM & MX). fold M in NM, MX.
    assert (Mk : nleb M (nth k p n0) = true) by (apply not_lt_le; assumption).
    assert (Z : nleb M' (nth k p n0) = true).
    { rewrite <- Ekm. rewrite prune_nth by exact Hkm. cbv zeta. fold M.
      assert (Kn : nn (nth k p n0)) by (apply notneg_nn; [exact Nk | apply H]).
      destruct (Nat.eqb_spec km 4) as [->|NE4].
      - destruct (nltb n0 M); rewrite nanz_n0; exact Kn.
      - destruct (nltb (nth km p n0) M); [rewrite nanz_n0; exact Kn|].
        unfold nanz. destruct (nisnan (nth km p n0)) eqn:Nkm; [exact Kn|].
        eapply leb_trans; [apply MX; assumption | exact Mk]. }
    apply lt_split in L. destruct L. congruence.
Qed.
End P.

(** C10: the vector that a pick leaves behind gives the same result as the original, for every later draw. *)
Section Again.
Context {T : Type} {N : Num T} {NL : NumLaws T}.
Lemma random_pick_again (p : list T) u k p' : random_pick p u = Ok (k, p') -> forall u2, random_pick p' u2 = random_pick p u2.
Proof.
  intros H u2. rewrite random_pick_pick in H. destruct (pick (map nanz p) u); [|discriminate]. cbn [bind] in H. injection H as _ <-.
  rewrite !random_pick_pick, map_nanz_idem. reflexivity.
Qed.
Lemma steep_descent_again (p : list T) u k p' : no_negative p -> steep_descent p u = Ok (k, p') ->
  forall u2, steep_descent p' u2 = steep_descent p u2.
Proof.
  intros NN H u2. rewrite steep_pick in H. destruct (pick (steep_prune p) u); [|discriminate]. cbn [bind] in H. injection H as _ <-.
  rewrite !steep_pick, steep_prune_idem by exact NN. reflexivity.
Qed.
End Again.
