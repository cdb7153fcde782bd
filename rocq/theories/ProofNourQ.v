(** When the clip percentile of the visit counts is positive, in exact arithmetic. *)
From Coq Require Import ZArith Bool String List Lia Permutation Sorted QArith Qcanon Lqa.
From Verif Require Import Num NumFacts NumPost NumFrac XQ XQLaws XQFacts Py Walker ParticleTrack SpecWeights SpecPick SpecWalk PostProc SpecPost ProofExposure ProofCoord ProofNour.
Import ListNotations.
Open Scope Z_scope.
Open Scope res_scope.

Definition isz (x : xq) : bool := neqb x n0.
Lemma sorted_zeros (l : list xq) d : (forall x, In x l -> nn x) -> StronglySorted (fun a b => nleb a b = true) l ->
  forall k, (k < length l)%nat -> isz (nth k l d) = true <-> (k < length (filter isz l))%nat.
Proof.
  intros H S. induction S as [|x l S IH F]; intros k Hk; cbn [length] in Hk; [lia|].
  assert (Hl : forall y, In y l -> nn y) by (intros; apply H; right; assumption). specialize (IH Hl).
  cbn [filter]. destruct (isz x) eqn:Ex.
  - cbn [length]. destruct k as [|k]; cbn [nth]; [split; [lia | intros; exact Ex]|]. rewrite (IH k) by lia. lia.
  - assert (Z : filter isz l = []).
    { assert (P : nltb n0 x = true) by (destruct (nn_zero_or_pos x (H x (or_introl eq_refl))) as [Q|Q]; [unfold isz in Ex; congruence | exact Q]).
      rewrite Forall_forall in F. assert (K : forall y, In y l -> isz y = false).
      { intros y Hy. unfold isz. destruct (neqb y n0) eqn:E; [|reflexivity]. pose proof (lt_le_trans _ _ _ P (F y Hy)) as Q. rewrite (eq0_not_pos _ E) in Q. discriminate. }
      clear - K. induction l as [|y l IH]; cbn [filter]; [reflexivity|]. rewrite (K y (or_introl eq_refl)). apply IH. intros; apply K; right; assumption. }
    rewrite Z. cbn [length]. split; [|lia]. intros Q. exfalso. destruct k as [|k]; cbn [nth] in Q; [congruence|].
    apply (IH k) in Q; [|lia]. rewrite Z in Q. cbn in Q. lia.
Qed.
Lemma filter_perm {A} (p : A -> bool) l l' : Permutation l l' -> Permutation (filter p l) (filter p l').
Proof.
  induction 1 as [| |x y l|]; cbn [filter]; [constructor | destruct (p x); [constructor|]; assumption | | etransitivity; eassumption].
  destruct (p x), (p y); try reflexivity. apply perm_swap.
Qed.

Lemma floor_spec (q : Qc) : (inject_Z (zfloor (Qnum (this q), Qden (this q))) <= this q)%Q /\ (this q < inject_Z (zfloor (Qnum (this q), Qden (this q)) + 1))%Q.
Proof.
  unfold zfloor. cbn [fst snd]. destruct (this q) as [n d]. cbn [Qnum Qden]. unfold Qle, Qlt, inject_Z. cbn [Qnum Qden].
  pose proof (Z.div_mod n (Zpos d) ltac:(lia)). pose proof (Z.mod_pos_bound n (Zpos d) ltac:(lia)). split; lia.
Qed.


(** np.nanpercentile of finite non-negative numbers of which U are zero. *)
Lemma percentile_zero (l : list xq) (c : Qc) : (forall x, In x l -> exists a, x = XFin a /\ (0 <= a)%Qc) -> l <> [] ->
  (0 <= c)%Qc -> (this c <= 100)%Q ->
  let n := Z.of_nat (length l) in let U := Z.of_nat (length (filter isz l)) in
  exists m, np_nanpercentile l (XFin c) = Ok (XFin m) /\
    ((inject_Z (n - 1) * this c <= 100 * inject_Z (U - 1))%Q -> m = 0%Qc) /\
    (U < n -> (100 * inject_Z (U - 1) < inject_Z (n - 1) * this c)%Q -> (0 < m)%Qc).
Proof.
  intros FIN NE C0 C1 n U. unfold np_nanpercentile. rewrite n0_xq. change (nofZ 100 : xq) with (XFin (Qcofz 100)).
  rewrite (proj2 (xq_leb _ _) C0). rewrite (proj2 (xq_leb c (Qcofz 100))) by (unfold Qcle; rewrite this_ofz; exact C1). cbn [andb].
  assert (NN : forall x, In x l -> nisnan x = false) by (intros x Hx; destruct (FIN x Hx) as (a & -> & _); reflexivity).
  rewrite filter_all by (intros a Ha; rewrite (NN a Ha); reflexivity).
  pose proof (isort_perm l) as P. assert (LEN : length (isort l) = length l) by (apply Permutation_length; apply Permutation_sym; exact P).
  assert (Q : forall x, In x (isort l) <-> In x l) by (intros x; split; apply Permutation_in; [apply Permutation_sym|]; exact P).
  pose proof (Permutation_length (filter_perm isz _ _ P)) as PU.
  pose proof (isort_sorted l NN) as SRT. set (s := isort l) in *.
  assert (FINs : forall k, (k < length s)%nat -> exists a, nth k s n0 = XFin a /\ (0 <= a)%Qc) by (intros k Hk; apply FIN, Q, nth_In, Hk).
  assert (ZK : forall k, (k < length s)%nat -> isz (nth k s n0) = true <-> Z.of_nat k < U).
  { intros k Hk. rewrite (sorted_zeros s n0); [unfold U; rewrite PU; lia | | apply sorted_strong; exact SRT | exact Hk].
    intros x Hx. apply Q in Hx. destruct (FIN x Hx) as (a & -> & Ha). apply (proj2 (xq_leb _ _)); exact Ha. }
  assert (MONO : forall i j, (i <= j < length s)%nat -> nleb (nth i s n0) (nth j s n0) = true) by (intros i j Hij; apply sorted_nth; [intros y Hy; apply NN, Q, Hy | exact SRT | exact Hij]).
  rewrite LEN. fold n. assert (N1 : 1 <= n) by (unfold n; destruct l; [congruence | cbn; lia]).
  destruct (Z.eqb_spec n 0) as [|_]; [lia|].
  assert (UN : U <= n) by (unfold U, n; pose proof (filter_len isz l); lia).
  change (nofZ (n - 1) : xq) with (XFin (Qcofz (n - 1))). rewrite xq_div by (intros E; apply Qc_eq_iff in E; rewrite this_ofz in E; discriminate E). rewrite xq_mul.
  set (vi := (Qcofz (n - 1) * (c / Qcofz 100))%Qc).
  assert (EV : (this vi * 100 == inject_Z (n - 1) * this c)%Q).
  { unfold vi. rewrite this_mul, this_div, !this_ofz. change (inject_Z 100) with 100%Q. field. }
  assert (SNE : s <> []) by (intros E; rewrite E in LEN; cbn in LEN; lia).
  assert (POS : forall k a, (k < length s)%nat -> nth k s n0 = XFin a -> U <= Z.of_nat k -> (0 < a)%Qc).
  { intros k a Hk E Hu. destruct (FINs k Hk) as (a' & E' & Ha). rewrite E in E'. injection E' as <-. destruct (Qcle_lt_or_eq _ _ Ha) as [|EZ]; [assumption|]. exfalso.
    assert (isz (nth k s n0) = true) by (rewrite E, <- EZ; reflexivity). apply ZK in H; [lia | exact Hk]. }
  assert (ZER : forall k a, (k < length s)%nat -> nth k s n0 = XFin a -> Z.of_nat k < U -> a = 0%Qc).
  { intros k a Hk E Hu. apply ZK in Hu; [|exact Hk]. rewrite E in Hu. unfold isz in Hu. rewrite n0_xq in Hu. apply xq_eqb in Hu. exact Hu. }
  destruct (nleb (XFin (Qcofz (n - 1))) (XFin vi)) eqn:E.
  - (* last *)
    apply xq_leb in E. unfold Qcle in E. rewrite this_ofz in E. rewrite (py_last_ok n0) by exact SNE.
    destruct (FINs (length s - 1)%nat ltac:(lia)) as (a & Ea & Pa). exists a. rewrite Ea. split; [reflexivity|]. split.
    + intros H. apply (ZER (length s - 1)%nat a); [lia | exact Ea|].
      assert (A : (inject_Z (n - 1) <= inject_Z (U - 1))%Q) by Lqa.lra. rewrite <- Zle_Qle in A. lia.
    + intros HU _. apply (POS (length s - 1)%nat a); [lia | exact Ea | lia].
  - apply xq_leb_f in E. unfold Qclt in E. rewrite this_ofz in E.
    cbn [nfrac XQnum xfrac]. cbv zeta. destruct (floor_spec vi) as (F1 & F2). set (k := zfloor (Qnum (this vi), Qden (this vi))) in *.
    assert (V0 : (0 <= this vi)%Q) by (unfold Qcle in C0; change (this 0%Qc) with 0%Q in C0; assert (0 <= inject_Z (n-1))%Q by (change 0%Q with (inject_Z 0); rewrite <- Zle_Qle; lia); Lqa.nra).
    assert (K0 : 0 <= k). { assert (inject_Z (-1) < inject_Z k)%Q by (rewrite inject_Z_plus in F2; change (inject_Z (-1)) with (-1)%Q; change (inject_Z 1) with 1%Q in F2; Lqa.lra). rewrite <- Zlt_Qlt in H. lia. }
    assert (K1 : k < n - 1). { rewrite Zlt_Qlt. Lqa.lra. }
    pose proof (py_nth_ok n0 s (Z.to_nat k) ltac:(unfold n in *; lia)) as G1. pose proof (py_nth_ok n0 s (S (Z.to_nat k)) ltac:(unfold n in *; lia)) as G2.
    replace (Z.of_nat (S (Z.to_nat k))) with (k + 1) in G2 by lia. rewrite Z2Nat.id in G1 by lia. rewrite G1. cbn [bind]. rewrite G2. cbn [bind].
    destruct (FINs (Z.to_nat k) ltac:(unfold n in *; lia)) as (a & Ea & Pa). destruct (FINs (S (Z.to_nat k)) ltac:(unfold n in *; lia)) as (b & Eb & Pb).
    pose proof (MONO (Z.to_nat k) (S (Z.to_nat k)) ltac:(unfold n in *; lia)) as AB. rewrite Ea, Eb in *. apply xq_leb in AB.
    change (nofZ k : xq) with (XFin (Qcofz k)). rewrite xq_sub. unfold np_lerp. rewrite xq_half, n1_xq. rewrite !xq_sub, !xq_mul, xq_sub, xq_add.
    set (t := (vi - Qcofz k)%Qc). assert (ET : (this t == this vi - inject_Z k)%Q) by (unfold t; rewrite this_sub, this_ofz; reflexivity).
    rewrite inject_Z_plus in F2. change (inject_Z 1) with 1%Q in F2.
    assert (T0 : (0 <= this t)%Q) by Lqa.lra. assert (T1 : (this t < 1)%Q) by Lqa.lra.
    set (m := (if nleb (XFin (1 / (1 + 1))%Qc) (XFin t) then b - (b - a) * (1 - t) else a + (b - a) * t)%Qc).
    exists m. split; [unfold m; destruct (nleb (XFin (1 / (1 + 1))%Qc) (XFin t)); reflexivity|].
    assert (EM : (this m == this a + (this b - this a) * this t)%Q).
    { unfold m. destruct (nleb (XFin (1 / (1 + 1))%Qc) (XFin t)); rewrite ?this_sub, ?this_add, ?this_mul, ?this_sub; change (this 1%Qc) with 1%Q; ring. }
    unfold Qcle in Pa, Pb, AB. change (this 0%Qc) with 0%Q in *.
    split.
    + intros H. assert (VU : (this vi <= inject_Z (U - 1))%Q) by Lqa.lra.
      assert (KU : k <= U - 1) by (rewrite Zle_Qle; Lqa.lra).
      assert (A0 : a = 0%Qc) by (apply (ZER (Z.to_nat k) a); [unfold n in *; lia | exact Ea | lia]). subst a. change (this 0%Qc) with 0%Q in EM.
      apply Qc_eq_iff. rewrite EM. change (this 0%Qc) with 0%Q.
      destruct (Z.eq_dec k (U - 1)) as [KE|KN].
      * assert (Z0 : (this t == 0)%Q) by (rewrite <- KE in VU; Lqa.lra). rewrite Z0. ring.
      * assert (B0 : b = 0%Qc) by (apply (ZER (S (Z.to_nat k)) b); [unfold n in *; lia | exact Eb | lia]). subst b. change (this 0%Qc) with 0%Q. ring.
    + intros HU H. assert (VU : (inject_Z (U - 1) < this vi)%Q) by Lqa.lra.
      assert (KU : U - 1 < k + 1) by (rewrite Zlt_Qlt, inject_Z_plus; change (inject_Z 1) with 1%Q; Lqa.lra).
      unfold Qclt. change (this 0%Qc) with 0%Q. rewrite EM.
      assert (B0 : (0 < b)%Qc) by (apply (POS (S (Z.to_nat k)) b); [unfold n in *; lia | exact Eb | lia]). unfold Qclt in B0. change (this 0%Qc) with 0%Q in B0.
      destruct (Z.eq_dec k (U - 1)) as [KE|KN].
      * assert (TP : (0 < this t)%Q) by (rewrite <- KE in VU; Lqa.lra). Lqa.nra.
      * assert (A0 : (0 < a)%Qc) by (apply (POS (Z.to_nat k) a); [unfold n in *; lia | exact Ea | lia]). unfold Qclt in A0. change (this 0%Qc) with 0%Q in A0. Lqa.nra.
Qed.

Lemma cells_prod {A} (a : arr A) : cells a = map (fun c => cell a (fst c) (snd c)) (list_prod (zrange 0 (nrow a)) (zrange 0 (ncol a))).
Proof.
  unfold cells. induction (zrange 0 (nrow a)) as [|i l IH]; cbn [flat_map list_prod map]; [reflexivity|]. rewrite map_app, map_map, IH. reflexivity.
Qed.
Lemma unvisited_cells (w : walk xq) L W : Z.of_nat (length (filter isz (cells (visit_map w L W)))) = unvisited w L W.
Proof.
  unfold unvisited. f_equal. rewrite cells_prod. cbn [nrow ncol visit_map cell]. rewrite filter_map, map_length. f_equal. apply filter_ext. intros c. unfold isz. rewrite n0_xq.
  change (nofZ (visits w (fst c) (snd c)) : xq) with (XFin (Qcofz (visits w (fst c) (snd c)))).
  destruct (Z.eqb_spec (visits w (fst c) (snd c)) 0) as [->|NE]; [reflexivity|].
  destruct (neqb (XFin (Qcofz (visits w (fst c) (snd c)))) (XFin 0%Qc)) eqn:E; [|reflexivity]. exfalso. apply xq_eqb in E. apply Qc_eq_iff in E. rewrite this_ofz in E.
  change (this 0%Qc) with (inject_Z 0) in E. unfold Qeq, inject_Z in E. cbn in E. lia.
Qed.

Lemma visited_lt (w : walk xq) L W x y : 0 <= x < L -> 0 <= y < W -> 0 < visits w x y -> unvisited w L W < L * W.
Proof.
  intros Hx Hy P. unfold unvisited.
  assert (LEN : Z.of_nat (length (list_prod (zrange 0 L) (zrange 0 W))) = L * W) by (rewrite prod_length, !zrange_len; nia).
  assert (K : forall l, In (x, y) l -> (length (filter (fun c => Z.eqb (visits w (fst c) (snd c)) 0) l) < length l)%nat).
  { induction l as [|c l IH]; intros I; [contradiction|]. cbn [filter length]. destruct I as [->|I].
    - cbn [fst snd]. destruct (Z.eqb_spec (visits w x y) 0); [lia|]. pose proof (filter_len (fun c => visits w (fst c) (snd c) =? 0) l). lia.
    - specialize (IH I). destruct (visits w (fst c) (snd c) =? 0); cbn [length]; lia. }
  specialize (K (list_prod (zrange 0 L) (zrange 0 W))). rewrite in_prod_iff, !zrange_in in K. specialize (K (conj Hx Hy)). lia.
Qed.

Lemma area_lost gaussian (w : walk xq) L W sigma clip :
  walk_on L W w -> Z.of_nat (length (record_ids w)) <= 9007199254740992 -> 0 < L -> 0 < W -> nltb n0 sigma = false ->
  np_nanpercentile (cells (visit_map w L W)) clip = Ok (XFin 0%Qc) ->
  exists a, nourishment_area gaussian w (L, W) sigma clip = Ok a /\ nrow a = L /\ ncol a = W /\
    forall x y, 0 <= x < L -> 0 <= y < W -> cell a x y = nnan.
Proof.
  intros On B HL HW Hs Hp. destruct (visit_count_ok w L W On B) as (v & Ev & A1 & A2 & A3).
  unfold nourishment_area. rewrite Ev. cbn [bind]. rewrite (cells_ext v (visit_map w L W)); [|exact A1|exact A2|intros; apply A3; lia].
  rewrite Hp. cbn [bind]. rewrite Hs. set (v2 := nan_where n0 (amap (np_clip (XFin 0%Qc)) v)).
  assert (C : forall x y, 0 <= x < L -> 0 <= y < W -> cell v2 x y = nnan).
  { intros x y Hx Hy. unfold v2. cbn [nan_where amap cell]. rewrite (A3 x y Hx Hy). pose proof (visits_nn w x y) as V0.
    replace (neqb (np_clip (XFin 0%Qc) (nofZ (visits w x y))) n0) with true; [reflexivity|]. symmetry.
    change (XFin 0%Qc) with (n0 : xq) at 1 || rewrite <- n0_xq. unfold np_clip. assert (NV : nisnan (nofZ (visits w x y) : xq) = false) by reflexivity.
    assert (E : np_max2 (nofZ (visits w x y)) n0 = (nofZ (visits w x y) : xq)).
    { unfold np_max2. rewrite NV, n0_notnan, le_not_lt; [reflexivity | apply ofZ_le; lia]. }
    rewrite E. unfold np_min2. rewrite NV, n0_notnan. destruct (nltb n0 (nofZ (visits w x y))) eqn:EP; [apply eq_refl', n0_notnan|].
    apply eq_split. split; [apply not_lt_le; [apply n0_notnan | exact NV | exact EP] | apply ofZ_le; lia]. }
  assert (R : nrow v2 = L /\ ncol v2 = W) by (unfold v2; cbn; auto). destruct R as (R1 & R2).
  pose proof (cells_ne v2 ltac:(lia) ltac:(lia)) as NE. destruct (cells v2) as [|c0 l0] eqn:EC; [congruence|].
  eexists. split; [reflexivity|]. split; [exact R1|]. split; [exact R2|]. intros x y Hx Hy. cbn [amap cell]. rewrite (C x y Hx Hy). apply nan_div.
Qed.

(** The whole story for unsmoothed maps. *)
Lemma area_signal gaussian (w : walk xq) L W sigma (c : Qc) :
  walk_on L W w -> Z.of_nat (length (record_ids w)) <= 9007199254740992 -> 0 < L -> 0 < W -> nltb n0 sigma = false -> (0 <= c)%Qc -> (this c <= 100)%Q ->
  (exists x y, 0 <= x < L /\ 0 <= y < W /\ 0 < visits w x y) ->
  exists a, nourishment_area gaussian w (L, W) sigma (XFin c) = Ok a /\ nrow a = L /\ ncol a = W /\
    ((exists x y, 0 <= x < L /\ 0 <= y < W /\ nisnan (cell a x y) = false) <-> (100 * inject_Z (unvisited w L W - 1) < inject_Z (L * W - 1) * this c)%Q).
Proof.
  intros On B HL HW Hs C0 C1 (x0 & y0 & X0 & Y0 & P0).
  destruct (percentile_zero (cells (visit_map w L W)) c) as (m & Ep & H0 & H1); try assumption.
  - intros v Hv. apply cells_in in Hv as (x & y & _ & _ & ->). cbn [visit_map cell]. exists (Qcofz (visits w x y)). split; [reflexivity|].
    unfold Qcle. rewrite this_ofz. change (this 0%Qc) with (inject_Z 0). rewrite <- Zle_Qle. apply visits_nn.
  - apply cells_ne; assumption.
  - cbv zeta in H0, H1. rewrite unvisited_cells in H0, H1. rewrite cells_len in H0, H1 by (cbn; lia). cbn [nrow ncol visit_map] in H0, H1.
    destruct (Qlt_le_dec (100 * inject_Z (unvisited w L W - 1)) (inject_Z (L * W - 1) * this c)) as [G|G].
    + specialize (H1 (visited_lt w L W x0 y0 X0 Y0 P0) G).
      destruct (area_summary gaussian w L W sigma (XFin c) (XFin m) On B HL HW Hs Ep) as (a & E & A1 & A2 & A3 & A4); [apply xq_ltb; exact H1|].
      exists a. split; [exact E|]. split; [exact A1|]. split; [exact A2|]. split; [intros _; exact G|]. intros _. exists x0, y0. split; [exact X0|]. split; [exact Y0|].
      destruct (A3 x0 y0 X0 Y0) as (_ & A5). destruct (A5 P0) as (A6 & _). exact (lt_nan_r _ _ A6).
    + specialize (H0 G). subst m. destruct (area_lost gaussian w L W sigma (XFin c) On B HL HW Hs Ep) as (a & E & A1 & A2 & A3).
      exists a. split; [exact E|]. split; [exact A1|]. split; [exact A2|]. split.
      * intros (x & y & Hx & Hy & NN). rewrite (A3 x y Hx Hy) in NN. discriminate.
      * intros Q. exfalso. Lqa.lra.
Qed.
