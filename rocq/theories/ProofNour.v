(** nourishment_area and nourishment_time. *)
From Coq Require Import ZArith Bool String List Lia Permutation Sorted.
From Verif Require Import Num NumFacts NumPost NumFrac Py Walker ParticleTrack SpecWeights SpecPick SpecWalk PostProc SpecPost ProofExposure.
Import ListNotations.
Open Scope Z_scope.
Open Scope res_scope.

(** ** Lists *)
Lemma flat_map_map {A B C} (g : B -> C) (f : A -> list B) l : map g (flat_map f l) = flat_map (fun a => map g (f a)) l.
Proof. induction l as [|a l IH]; cbn [flat_map map]; [reflexivity|]. rewrite map_app, IH. reflexivity. Qed.
Lemma flat_map_of_map {A B C} (f : B -> list C) (g : A -> B) l : flat_map f (map g l) = flat_map (fun a => f (g a)) l.
Proof. induction l as [|a l IH]; cbn [flat_map map]; [reflexivity|]. rewrite IH. reflexivity. Qed.
Lemma flat_map_ext_in {A B} (f g : A -> list B) l : (forall a, In a l -> f a = g a) -> flat_map f l = flat_map g l.
Proof. induction l as [|a l IH]; intros H; cbn [flat_map]; [reflexivity|]. rewrite H, IH; [reflexivity | intros; apply H; right; assumption | left; reflexivity]. Qed.
Lemma filter_flat_map {A B} (p : B -> bool) (f : A -> list B) l : filter p (flat_map f l) = flat_map (fun a => filter p (f a)) l.
Proof. induction l as [|a l IH]; cbn [flat_map filter]; [reflexivity|]. rewrite filter_app, IH. reflexivity. Qed.
Lemma combine_seq {A} (d : A) (l : list A) : combine (map Z.of_nat (seq 0 (length l))) l = map (fun q => (Z.of_nat q, nth q l d)) (seq 0 (length l)).
Proof.
  assert (K : forall s, combine (map Z.of_nat (seq s (length l))) l = map (fun q => (Z.of_nat q, nth (q - s) l d)) (seq s (length l))).
  { induction l as [|a l IH]; intros s; [reflexivity|]. cbn [length seq map combine]. f_equal.
    - replace (s - s)%nat with 0%nat by lia. reflexivity.
    - rewrite (IH (S s)). apply map_ext_in. intros q Hq. apply in_seq in Hq. replace (q - s)%nat with (S (q - S s)) by lia. reflexivity. }
  rewrite K. apply map_ext. intros q. replace (q - 0)%nat with q by lia. reflexivity.
Qed.
Lemma foldM_map {A B S} (f : S -> B -> res S) (g : A -> B) l s : foldM f (map g l) s = foldM (fun s a => f s (g a)) l s.
Proof. revert s. induction l as [|a l IH]; intros s; cbn [map foldM]; [reflexivity|]. destruct (f s (g a)); cbn [bind]; [apply IH | reflexivity]. Qed.

Section Generic.
Context {T : Type} {N : Num T} {NL : NumLaws T} {NP : NumPost T} {NF : NumFrac T}.

Definition zid (p : nat * nat) : Z * Z := (Z.of_nat (fst p), Z.of_nat (snd p)).
Lemma records_all (w : walk T) : records_of 0 0 w = map zid (record_ids w).
Proof.
  unfold records_of, record_ids. rewrite flat_map_map, zrange_nat, (combine_seq []), flat_map_of_map. apply flat_map_ext_in. intros q _. cbn [fst snd].
  replace (Z.of_nat (length (nth q (xinds w) [])) - 0) with (Z.of_nat (length (nth q (xinds w) []))) by lia.
  rewrite zrange_nat, !map_map. reflexivity.
Qed.
Lemma filter_all {A} (p : A -> bool) l : (forall a, In a l -> p a = true) -> filter p l = l.
Proof. induction l as [|a l IH]; intros H; cbn [filter]; [reflexivity|]. rewrite (H a) by (left; reflexivity). rewrite IH; [reflexivity | intros; apply H; right; assumption]. Qed.
Lemma filter_seq_interior n : filter (fun i => (1 <=? i)%nat && (S i <? n)%nat) (seq 0 n) = seq 1 (n - 2).
Proof.
  destruct n as [|n]; [reflexivity|]. cbn [seq filter]. cbn [Nat.leb andb]. destruct n as [|n]; [reflexivity|].
  replace (seq 1 (S n)) with (seq 1 n ++ [S n]) by (rewrite seq_S; reflexivity). rewrite filter_app. replace (S (S n) - 2)%nat with n by lia.
  rewrite filter_all.
  - cbn [filter]. replace (S (S n) <? S (S n))%nat with false by (symmetry; apply Nat.ltb_ge; lia). rewrite andb_false_r. apply app_nil_r.
  - intros i Hi. apply in_seq in Hi. apply andb_true_iff. split; [destruct i; [lia | reflexivity] | apply Nat.ltb_lt; lia].
Qed.
Lemma filter_map {A B} (p : B -> bool) (f : A -> B) l : filter p (map f l) = map f (filter (fun a => p (f a)) l).
Proof. induction l as [|a l IH]; cbn [map filter]; [reflexivity|]. destruct (p (f a)); cbn [map]; rewrite IH; reflexivity. Qed.
Lemma records_interior (w : walk T) : records_of 1 1 w = map zid (interior_ids w).
Proof.
  unfold records_of, interior_ids, record_ids. rewrite filter_flat_map, flat_map_map, zrange_nat, (combine_seq []), flat_map_of_map. apply flat_map_ext_in. intros q _. cbn [fst snd].
  rewrite filter_map. cbn [fst snd]. change (r_x (path w q)) with (nth q (xinds w) []). rewrite filter_seq_interior, !map_map.
  unfold zrange. set (n := length (nth q (xinds w) [])). replace (Z.to_nat (Z.of_nat n - 1 - 1)) with (n - 2)%nat by lia.
  rewrite <- seq_shift, !map_map. apply map_ext. intros k. unfold zid. cbn [fst snd]. f_equal. lia.
Qed.
Lemma record_ids_in (w : walk T) p : In p (record_ids w) <-> (fst p < count w)%nat /\ (snd p < length (r_x (path w (fst p))))%nat.
Proof.
  unfold record_ids. rewrite in_flat_map. split.
  - intros (q & Hq & Hp). apply in_map_iff in Hp as (i & <- & Hi). apply in_seq in Hq, Hi. cbn [fst snd]. lia.
  - destruct p as [q i]. cbn [fst snd]. intros (A & B). exists q. split; [apply in_seq; lia|]. apply in_map_iff. exists i. split; [reflexivity | apply in_seq; lia].
Qed.
Lemma interior_in (w : walk T) p : In p (interior_ids w) <-> (fst p < count w)%nat /\ (1 <= snd p)%nat /\ (S (snd p) < length (r_x (path w (fst p))))%nat.
Proof.
  unfold interior_ids. rewrite filter_In, record_ids_in, andb_true_iff, Nat.leb_le, Nat.ltb_lt. intuition lia.
Qed.

(** ** Counting *)
Lemma np_inc_ok d (a : arr T) i j : 0 <= i < nrow a -> 0 <= j < ncol a ->
  np_inc d a i j = Ok (Arr (nrow a) (ncol a) (fun p q => if (p =? i) && (q =? j) then nadd (cell a p q) d else cell a p q)).
Proof.
  intros (A1 & A2) (B1 & B2). unfold np_inc, norm_ix.
  rewrite (proj2 (Z.leb_le _ _) A1), (proj2 (Z.ltb_lt _ _) A2), (proj2 (Z.leb_le _ _) B1), (proj2 (Z.ltb_lt _ _) B2). reflexivity.
Qed.
Definition tally (w : walk T) (l : list (nat * nat)) (x y : Z) : Z := Z.of_nat (length (filter (recorded_at w x y) l)).
Lemma tally_cons w p l x y : tally w (p :: l) x y = (if recorded_at w x y p then 1 else 0) + tally w l x y.
Proof. unfold tally. cbn [filter]. destruct (recorded_at w x y p); cbn [length]; lia. Qed.

Lemma get_x (w : walk T) L W p : walk_on L W w -> In p (record_ids w) ->
  exists xs ys ts, py_nth (xinds w) (fst (zid p)) = Ok xs /\ py_nth xs (snd (zid p)) = Ok (xat (path w (fst p)) (snd p)) /\
                py_nth (yinds w) (fst (zid p)) = Ok ys /\ py_nth ys (snd (zid p)) = Ok (yat (path w (fst p)) (snd p)) /\
                py_nth (times w) (fst (zid p)) = Ok ts /\ ts = r_t (path w (fst p)) /\ length ts = length xs /\ xs = r_x (path w (fst p)) /\
                0 <= xat (path w (fst p)) (snd p) < L /\ 0 <= yat (path w (fst p)) (snd p) < W.
Proof.
  intros ((Ey & Et & _) & H) Hp. apply record_ids_in in Hp as (Hq & Hi). destruct (H _ Hq) as ((_ & Ly & Lt & _) & On). destruct (On _ Hi) as (X & Y).
  exists (r_x (path w (fst p))), (r_y (path w (fst p))), (r_t (path w (fst p))). unfold zid. cbn [fst snd].
  split; [rewrite (py_nth_ok []) by exact Hq; reflexivity|]. split; [rewrite (py_nth_ok 0) by exact Hi; reflexivity|].
  split; [rewrite (py_nth_ok []) by (unfold count in *; lia); reflexivity|]. split; [rewrite (py_nth_ok 0) by lia; reflexivity|].
  split; [rewrite (py_nth_ok []) by (unfold count in *; lia); reflexivity|]. repeat (split; [first [reflexivity | exact Lt]|]). split; assumption.
Qed.

Lemma visit_fold (w : walk T) L W l : walk_on L W w -> (forall p, In p l -> In p (record_ids w)) ->
  forall v c, nrow v = L -> ncol v = W -> (forall x y, 0 <= x < L -> 0 <= y < W -> 0 <= c x y /\ cell v x y = nofZ (c x y) /\ c x y + Z.of_nat (length l) <= 9007199254740992) ->
  exists v', foldM (visit_record w) (map zid l) v = Ok v' /\ nrow v' = L /\ ncol v' = W /\
    forall x y, 0 <= x < L -> 0 <= y < W -> cell v' x y = nofZ (c x y + tally w l x y).
Proof.
  intros On. induction l as [|p l IH]; intros Sub v c EL EW H; cbn [map foldM].
  - exists v. split; [reflexivity|]. split; [exact EL|]. split; [exact EW|]. intros x y Hx Hy. destruct (H x y Hx Hy) as (_ & -> & _). f_equal. cbn. lia.
  - destruct (get_x w L W p On (Sub p (or_introl eq_refl))) as (xs & ys & ts & E1 & E2 & E3 & E4 & _ & _ & _ & _ & X & Y).
    unfold visit_record at 1. rewrite E1. cbn [bind]. rewrite E2. cbn [bind]. rewrite E3. cbn [bind]. rewrite E4. cbn [bind].
    rewrite np_inc_ok by lia. cbn [bind].
    edestruct (IH (fun q Hq => Sub q (or_intror Hq))) as (v' & E & A & B & C); cycle 3.
    + exists v'. split; [exact E|]. split; [exact A|]. split; [exact B|]. intros x y Hx Hy. rewrite (C x y Hx Hy).
      instantiate (1 := fun x y => c x y + (if recorded_at w x y p then 1 else 0)). cbv beta. rewrite tally_cons. f_equal. lia.
    + exact EL.
    + exact EW.
    + intros x y Hx Hy. cbn [cell]. destruct (H x y Hx Hy) as (H1 & H2 & H3). cbn [length] in H3. unfold recorded_at. rewrite (Z.eqb_sym x), (Z.eqb_sym y).
      destruct ((xat (path w (fst p)) (snd p) =? x) && (yat (path w (fst p)) (snd p) =? y)).
      * split; [lia|]. split; [|lia]. rewrite H2. apply ofZ_succ. lia.
      * split; [lia|]. split; [|lia]. rewrite Z.add_0_r. exact H2.
Qed.

Lemma visit_count_ok (w : walk T) L W : walk_on L W w -> Z.of_nat (length (record_ids w)) <= 9007199254740992 ->
  exists v, visit_count w (L, W) = Ok v /\ nrow v = L /\ ncol v = W /\ forall x y, 0 <= x < L -> 0 <= y < W -> cell v x y = nofZ (visits w x y).
Proof.
  intros On B. unfold visit_count. rewrite records_all.
  destruct (visit_fold w L W (record_ids w) On (fun p H => H) (np_zeros (L, W)) (fun _ _ => 0) eq_refl eq_refl) as (v & E & A1 & A2 & A3).
  - intros x y _ _. split; [lia|]. split; [reflexivity | lia].
  - exists v. split; [exact E|]. split; [exact A1|]. split; [exact A2|]. intros x y Hx Hy. rewrite (A3 x y Hx Hy). reflexivity.
Qed.

(** ** Cells *)
Lemma zrange_in lo hi k : In k (zrange lo hi) <-> lo <= k < hi.
Proof.
  unfold zrange. rewrite in_map_iff. split.
  - intros (i & <- & Hi). apply in_seq in Hi. lia.
  - intros H. exists (Z.to_nat (k - lo)). split; [lia | apply in_seq; lia].
Qed.
Lemma cells_in {A} (a : arr A) v : In v (cells a) <-> exists x y, 0 <= x < nrow a /\ 0 <= y < ncol a /\ v = cell a x y.
Proof.
  unfold cells. rewrite in_flat_map. split.
  - intros (x & Hx & Hv). apply in_map_iff in Hv as (y & <- & Hy). apply zrange_in in Hx, Hy. eauto.
  - intros (x & y & Hx & Hy & ->). exists x. split; [apply zrange_in; exact Hx|]. apply in_map_iff. exists y. split; [reflexivity | apply zrange_in; exact Hy].
Qed.
Lemma cells_ext {A} (a b : arr A) : nrow a = nrow b -> ncol a = ncol b -> (forall x y, 0 <= x < nrow a -> 0 <= y < ncol a -> cell a x y = cell b x y) -> cells a = cells b.
Proof.
  intros E1 E2 H. unfold cells. rewrite <- E1, <- E2. apply flat_map_ext_in. intros x Hx. apply zrange_in in Hx. apply map_ext_in. intros y Hy. apply zrange_in in Hy. apply H; assumption.
Qed.
Lemma cells_ne {A} (a : arr A) : 0 < nrow a -> 0 < ncol a -> cells a <> [].
Proof. intros H1 H2 E. assert (I : In (cell a 0 0) (cells a)) by (apply cells_in; exists 0, 0; repeat split; lia). rewrite E in I. contradiction. Qed.

(** np.nanmax over the cells *)
Lemma nanmax_in (l : list T) : (exists x, In x l /\ nisnan x = false) ->
  In (np_nanmax l) l /\ nisnan (np_nanmax l) = false /\ forall x, In x l -> nisnan x = false -> nleb x (np_nanmax l) = true.
Proof.
  intros (x0 & I0 & N0). unfold np_nanmax. set (f := filter (fun x => negb (nisnan x)) l).
  assert (IN : forall x, In x f <-> In x l /\ nisnan x = false) by (intros x; unfold f; rewrite filter_In, negb_true_iff; reflexivity).
  destruct (np_max_spec f) as (A & B).
  - intros E. assert (In x0 f) by (apply IN; auto). rewrite E in H. contradiction.
  - apply Forall_forall. intros x Hx. apply IN in Hx. tauto.
  - apply IN in A as (A1 & A2). split; [exact A1|]. split; [exact A2|]. intros x Hx Nx. rewrite Forall_forall in B. apply B, IN. auto.
Qed.
Lemma nanmax_none (l : list T) : (forall x, In x l -> nisnan x = true) -> np_nanmax l = nnan.
Proof.
  intros H. unfold np_nanmax. replace (filter (fun x => negb (nisnan x)) l) with (@nil T); [reflexivity|].
  induction l as [|a l IH]; cbn [filter]; [reflexivity|]. rewrite (H a) by (left; reflexivity). cbn [negb]. apply IH. intros; apply H; right; assumption.
Qed.

(** ** nourishment_area without smoothing *)
Lemma visits_nn (w : walk T) x y : 0 <= visits w x y.
Proof. unfold visits. lia. Qed.
Lemma filter_len {A} (p : A -> bool) l : (length (filter p l) <= length l)%nat.
Proof. induction l as [|a l IH]; cbn [filter length]; [lia|]. destruct (p a); cbn [length]; lia. Qed.
Lemma visits_le (w : walk T) x y : visits w x y <= Z.of_nat (length (record_ids w)).
Proof. unfold visits. pose proof (filter_len (recorded_at w x y) (record_ids w)). lia. Qed.
Lemma clip_count vmax k : 0 <= k <= 9007199254740992 -> nltb n0 vmax = true ->
  np_clip vmax (nofZ k) = if nltb vmax (nofZ k) then vmax else (nofZ k : T).
Proof.
  intros Hk Hv. unfold np_clip. assert (Nk : nisnan (nofZ k : T) = false) by (apply fin_notnan, ofZ_fin; lia).
  assert (E : np_max2 (nofZ k) n0 = (nofZ k : T)).
  { unfold np_max2. rewrite Nk, n0_notnan. rewrite le_not_lt; [reflexivity | apply ofZ_le; lia]. }
  rewrite E. unfold np_min2. rewrite Nk, (lt_nan_r _ _ Hv). reflexivity.
Qed.
Definition clipped (vmax : T) (k : Z) : T := if nltb vmax (nofZ k) then vmax else nofZ k.
Lemma clipped_pos vmax k : 0 < k <= 9007199254740992 -> nltb n0 vmax = true -> nltb n0 (clipped vmax k) = true /\ neqb (clipped vmax k) n0 = false /\ nisnan (clipped vmax k) = false.
Proof.
  intros Hk Hv. assert (P : nltb n0 (clipped vmax k) = true) by (unfold clipped; destruct (nltb vmax (nofZ k)); [exact Hv | apply ofZ_lt; lia]).
  split; [exact P|]. split; [|exact (lt_nan_r _ _ P)]. destruct (neqb (clipped vmax k) n0) eqn:E; [|reflexivity]. rewrite (eq0_not_pos _ E) in P. discriminate.
Qed.
Lemma clipped_0 vmax : nltb n0 vmax = true -> neqb (clipped vmax 0) n0 = true.
Proof.
  intros Hv. unfold clipped. rewrite (le_not_lt (nofZ 0) vmax); [|apply lt_le; exact Hv]. apply eq_refl'. apply n0_notnan.
Qed.
Lemma clipped_le vmax k : nltb n0 vmax = true -> 0 <= k <= 9007199254740992 -> nleb (clipped vmax k) (nofZ k) = true.
Proof.
  intros Hv Hk. unfold clipped. destruct (nltb vmax (nofZ k)) eqn:E; [apply lt_le; exact E | apply leb_refl, fin_notnan, ofZ_fin; lia].
Qed.
Lemma clipped_share vmax k m : nltb n0 vmax = true -> 0 < k <= 9007199254740992 -> 0 < m <= 9007199254740992 -> nleb (clipped vmax k) (clipped vmax m) = true ->
  nltb n0 (ndiv (clipped vmax k) (clipped vmax m)) = true /\ nleb (ndiv (clipped vmax k) (clipped vmax m)) n1 = true.
Proof.
  intros Hv Hk Hm Hle. destruct (clipped_pos vmax k Hk Hv) as (Pk & _). destruct (clipped_pos vmax m Hm Hv) as (Pm & _).
  assert (Fm : nisfin (clipped vmax m) = true) by (apply (fin_between n0 _ (nofZ m)); [apply n0_fin | apply ofZ_fin; lia | apply lt_le; exact Pm | apply clipped_le; [exact Hv | lia]]).
  destruct (div_share _ _ Pk Hle Fm) as (Q1 & _). split; [|exact Q1].
  destruct (nltb vmax n1) eqn:E1.
  - (* everything clipped to vmax *)
    assert (K : forall j, 0 < j -> clipped vmax j = vmax). { intros j Hj. unfold clipped. rewrite (lt_le_trans vmax n1 (nofZ j) E1) by (apply ofZ_le; lia). reflexivity. }
    rewrite (K k), (K m) in * by lia. rewrite div_self by assumption. apply n0_lt_n1.
  - apply (not_lt_le vmax n1) in E1; [|exact (lt_nan_r _ _ Hv) | apply n1_notnan].
    apply div_big; [| exact Hle |].
    + unfold clipped. destruct (nltb vmax (nofZ k)); [exact E1 | apply ofZ_le; lia].
    + eapply leb_trans; [apply clipped_le; [exact Hv | lia] | apply ofZ_le; lia].
Qed.

Lemma area_ok gaussian (w : walk T) L W sigma clip vmax :
  walk_on L W w -> Z.of_nat (length (record_ids w)) <= 9007199254740992 -> 0 < L -> 0 < W -> nltb n0 sigma = false ->
  np_nanpercentile (cells (visit_map w L W)) clip = Ok vmax -> nltb n0 vmax = true ->
  exists a m, nourishment_area gaussian w (L, W) sigma clip = Ok a /\ nrow a = L /\ ncol a = W /\
    (forall x y, 0 <= x < L -> 0 <= y < W -> cell a x y = ndiv (if visits w x y =? 0 then nnan else clipped vmax (visits w x y)) m) /\
    ((exists x y, 0 <= x < L /\ 0 <= y < W /\ 0 < visits w x y) ->
     exists X Y, 0 <= X < L /\ 0 <= Y < W /\ 0 < visits w X Y /\ m = clipped vmax (visits w X Y) /\
       forall x y, 0 <= x < L -> 0 <= y < W -> 0 < visits w x y -> nleb (clipped vmax (visits w x y)) m = true).
Proof.
  intros On B HL HW Hs Hp Hv. destruct (visit_count_ok w L W On B) as (v & Ev & A1 & A2 & A3).
  unfold nourishment_area. rewrite Ev. cbn [bind]. rewrite (cells_ext v (visit_map w L W)); [|exact A1|exact A2|intros; apply A3; lia].
  rewrite Hp. cbn [bind]. rewrite Hs.
  set (v2 := nan_where n0 (amap (np_clip vmax) v)).
  assert (C : forall x y, 0 <= x < L -> 0 <= y < W -> cell v2 x y = if visits w x y =? 0 then nnan else clipped vmax (visits w x y)).
  { intros x y Hx Hy. unfold v2. cbn [nan_where amap cell]. rewrite (A3 x y Hx Hy). pose proof (visits_nn w x y). pose proof (visits_le w x y).
    rewrite clip_count by (lia || exact Hv). fold (clipped vmax (visits w x y)). destruct (Z.eqb_spec (visits w x y) 0) as [->|NE].
    - rewrite clipped_0 by exact Hv. reflexivity.
    - destruct (clipped_pos vmax (visits w x y) ltac:(lia) Hv) as (_ & -> & _). reflexivity. }
  assert (R : nrow v2 = L /\ ncol v2 = W) by (unfold v2; cbn; auto). destruct R as (R1 & R2).
  pose proof (cells_ne v2 ltac:(lia) ltac:(lia)) as NE. destruct (cells v2) as [|c0 l0] eqn:EC; [congruence|]. rewrite <- EC in *. clear c0 l0 EC.
  exists (amap (fun x => ndiv x (np_nanmax (cells v2))) v2), (np_nanmax (cells v2)). split; [reflexivity|]. split; [exact R1|]. split; [exact R2|].
  split; [intros x y Hx Hy; cbn [amap cell]; rewrite (C x y Hx Hy); reflexivity|].
  intros (x0 & y0 & X0 & Y0 & P0).
  assert (VP : forall x y, 0 <= x < L -> 0 <= y < W -> 0 < visits w x y -> cell v2 x y = clipped vmax (visits w x y) /\ nisnan (cell v2 x y) = false).
  { intros x y Hx Hy P. rewrite (C x y Hx Hy). destruct (Z.eqb_spec (visits w x y) 0); [lia|]. split; [reflexivity|]. pose proof (visits_le w x y). apply clipped_pos; [lia | exact Hv]. }
  destruct (nanmax_in (cells v2)) as (I & NN & MX).
  { exists (cell v2 x0 y0). split; [apply cells_in; exists x0, y0; repeat split; lia | apply VP; assumption]. }
  apply cells_in in I as (X & Y & HX & HY & E). rewrite R1 in HX. rewrite R2 in HY. exists X, Y. split; [exact HX|]. split; [exact HY|].
  assert (PV : 0 < visits w X Y).
  { pose proof (visits_nn w X Y). destruct (Z.eq_dec (visits w X Y) 0) as [Z0|]; [|lia]. exfalso. rewrite E, (C X Y HX HY), Z0 in NN. cbn in NN. rewrite nan_isnan in NN. discriminate. }
  split; [exact PV|]. split; [rewrite E; apply VP; assumption|].
  intros x y Hx Hy P. destruct (VP x y Hx Hy P) as (<- & Nv). apply MX; [apply cells_in; exists x, y; repeat split; lia | exact Nv].
Qed.

(** Summary: NaN exactly at cells never visited, (0, 1] elsewhere, 1 is reached. *)
Lemma area_summary gaussian (w : walk T) L W sigma clip vmax :
  walk_on L W w -> Z.of_nat (length (record_ids w)) <= 9007199254740992 -> 0 < L -> 0 < W -> nltb n0 sigma = false ->
  np_nanpercentile (cells (visit_map w L W)) clip = Ok vmax -> nltb n0 vmax = true ->
  exists a, nourishment_area gaussian w (L, W) sigma clip = Ok a /\ nrow a = L /\ ncol a = W /\
    (forall x y, 0 <= x < L -> 0 <= y < W ->
       (visits w x y = 0 -> cell a x y = nnan) /\
       (0 < visits w x y -> nltb n0 (cell a x y) = true /\ nleb (cell a x y) n1 = true)) /\
    ((exists x y, 0 <= x < L /\ 0 <= y < W /\ 0 < visits w x y) -> exists x y, 0 <= x < L /\ 0 <= y < W /\ cell a x y = n1).
Proof.
  intros On B HL HW Hs Hp Hv. destruct (area_ok gaussian w L W sigma clip vmax On B HL HW Hs Hp Hv) as (a & m & E & A1 & A2 & A3 & A4).
  exists a. split; [exact E|]. split; [exact A1|]. split; [exact A2|]. split.
  - intros x y Hx Hy. split.
    + intros Z0. rewrite (A3 x y Hx Hy), Z0. cbn. apply nan_div.
    + intros P. destruct A4 as (X & Y & HX & HY & PV & -> & MX); [eauto|]. rewrite (A3 x y Hx Hy). destruct (Z.eqb_spec (visits w x y) 0); [lia|].
      pose proof (visits_le w x y). pose proof (visits_le w X Y). apply clipped_share; [exact Hv | lia | lia | apply MX; assumption].
  - intros Ex. destruct (A4 Ex) as (X & Y & HX & HY & PV & -> & MX). exists X, Y. split; [exact HX|]. split; [exact HY|].
    rewrite (A3 X Y HX HY). destruct (Z.eqb_spec (visits w X Y) 0); [lia|]. pose proof (visits_le w X Y).
    destruct (clipped_pos vmax (visits w X Y) ltac:(lia) Hv) as (Pk & _). apply div_self; [exact Pk|].
    apply (fin_between n0 _ (nofZ (visits w X Y))); [apply n0_fin | apply ofZ_fin; lia | apply lt_le; exact Pk | apply clipped_le; [exact Hv | lia]].
Qed.

(** ** Order statistics *)
Lemma insert_perm (x : T) l : Permutation (x :: l) (insert x l).
Proof.
  induction l as [|y l IH]; cbn [insert]; [reflexivity|]. destruct (nltb y x); [|reflexivity].
  transitivity (y :: x :: l); [apply perm_swap | apply perm_skip; exact IH].
Qed.
Lemma isort_perm (l : list T) : Permutation l (isort l).
Proof. induction l as [|x l IH]; cbn [isort]; [reflexivity|]. transitivity (x :: isort l); [apply perm_skip; exact IH | apply insert_perm]. Qed.
Lemma insert_sorted x l : nisnan x = false -> (forall y, In y l -> nisnan y = false) -> Sorted (fun a b => nleb a b = true) l -> Sorted (fun a b => nleb a b = true) (insert x l).
Proof.
  intros Nx H S. induction l as [|y l IH]; cbn [insert]; [repeat constructor|].
  destruct (nltb y x) eqn:E.
  - inversion S as [|? ? S1 HD]; subst. constructor; [apply IH; [intros; apply H; right; assumption | exact S1]|].
    destruct l as [|z l]; cbn [insert]; [constructor; apply lt_le; exact E|]. destruct (nltb z x); constructor; [inversion HD; subst; assumption | apply lt_le; exact E].
  - constructor; [exact S|]. constructor. apply not_lt_le; [apply H; left; reflexivity | exact Nx | exact E].
Qed.
Lemma isort_sorted l : (forall y, In y l -> nisnan y = false) -> Sorted (fun a b => nleb a b = true) (isort l).
Proof.
  induction l as [|x l IH]; cbn [isort]; intros H; [constructor|]. apply insert_sorted; [apply H; left; reflexivity | | apply IH; intros; apply H; right; assumption].
  intros y Hy. apply H. right. apply (Permutation_in y (Permutation_sym (isort_perm l))). exact Hy.
Qed.
Lemma sorted_strong (l : list T) : Sorted (fun a b => nleb a b = true) l -> StronglySorted (fun a b => nleb a b = true) l.
Proof. apply Sorted_StronglySorted. intros a b c; apply leb_trans. Qed.
Lemma sorted_nth (l : list T) d i j : (forall y, In y l -> nisnan y = false) -> Sorted (fun a b => nleb a b = true) l -> (i <= j < length l)%nat -> nleb (nth i l d) (nth j l d) = true.
Proof.
  intros NN S. apply sorted_strong in S. revert i j. induction S as [|x l S IH F]; intros i j H; cbn [length] in H; [lia|].
  destruct i as [|i], j as [|j]; cbn [nth]; try lia.
  - apply leb_refl, NN. left; reflexivity.
  - rewrite Forall_forall in F. apply F. apply nth_In. lia.
  - apply IH; [intros; apply NN; right; assumption | lia].
Qed.
Lemma py_last_ok {A} (d : A) l : l <> [] -> py_last l = Ok (nth (length l - 1) l d).
Proof.
  intros H. unfold py_last, py_nth, norm_ix. assert (0 < length l)%nat by (destruct l; [congruence | cbn; lia]).
  cbn [Z.leb andb]. replace ((0 <=? -1) && (-1 <? Z.of_nat (length l))) with false by reflexivity.
  rewrite (proj2 (Z.leb_le (- Z.of_nat (length l)) (-1))) by lia. cbn [andb Z.ltb Z.compare].
  replace (Z.to_nat (-1 + Z.of_nat (length l))) with (length l - 1)%nat by lia. rewrite (nth_error_nth' l d) by lia. reflexivity.
Qed.
(** The 100th percentile is the maximum. *)
Lemma percentile_100 (l : list T) : l <> [] -> (forall x, In x l -> nisnan x = false) -> Z.of_nat (length l) <= 9007199254740992 ->
  exists m, np_nanpercentile l (nofZ 100) = Ok m /\ In m l /\ forall x, In x l -> nleb x m = true.
Proof.
  intros NE NN B. unfold np_nanpercentile.
  assert (E1 : nleb n0 (nofZ 100 : T) = true) by (apply ofZ_le; lia). assert (E2 : nleb (nofZ 100 : T) (nofZ 100) = true) by (apply leb_refl, fin_notnan, ofZ_fin; lia).
  rewrite E1, E2. cbn [andb]. rewrite filter_all by (intros a Ha; rewrite (NN a Ha); reflexivity).
  pose proof (isort_perm l) as P. assert (Q : forall x, In x (isort l) <-> In x l) by (intros x; split; apply Permutation_in; [apply Permutation_sym|]; exact P).
  assert (LEN : length (isort l) = length l) by (apply Permutation_length; apply Permutation_sym; exact P).
  assert (L0 : (0 < length l)%nat) by (destruct l; [congruence | cbn; lia]).
  rewrite LEN. destruct (Z.eqb_spec (Z.of_nat (length l)) 0) as [|_]; [lia|].
  rewrite div_self; [|apply ofZ_lt; lia | apply ofZ_fin; lia]. rewrite ofZ_mul_1 by lia.
  assert (NE2 : isort l <> []) by (intros E; rewrite E in LEN; cbn in LEN; lia).
  rewrite (py_last_ok n0) by exact NE2. eexists. split; [reflexivity|]. split; [apply Q, nth_In; lia|].
  intros x Hx. apply Q in Hx. apply (In_nth _ _ n0) in Hx as (k & Hk & <-). apply sorted_nth; [intros y Hy; apply NN, Q, Hy | apply isort_sorted; exact NN | lia].
Qed.
(** Percentiles between 0 and 100 of non-empty NaN-free data exist. *)
Lemma percentile_ok (l : list T) q : (forall x, In x l -> nisnan x = false) -> Z.of_nat (length l) <= 9007199254740992 -> l <> [] ->
  nleb n0 q = true -> nleb q (nofZ 100) = true -> exists m, np_nanpercentile l q = Ok m.
Proof.
  intros NN B NE Q0 Q1. unfold np_nanpercentile. rewrite Q0, Q1. cbn [andb]. rewrite filter_all by (intros a Ha; rewrite (NN a Ha); reflexivity).
  pose proof (isort_perm l) as P. assert (LEN : length (isort l) = length l) by (apply Permutation_length; apply Permutation_sym; exact P).
  assert (L0 : (0 < length l)%nat) by (destruct l; [congruence | cbn; lia]).
  rewrite LEN. destruct (Z.eqb_spec (Z.of_nat (length l)) 0) as [|_]; [lia|].
  assert (NE2 : isort l <> []) by (intros E; rewrite E in LEN; cbn in LEN; lia).
  set (vi := nmul (nofZ (Z.of_nat (length l) - 1)) (ndiv q (nofZ 100))).
  destruct (nleb (nofZ (Z.of_nat (length l) - 1)) vi) eqn:E; [rewrite (py_last_ok n0) by exact NE2; eauto|].
  assert (Fq : nisfin q = true) by (apply (fin_between n0 q (nofZ 100)); [apply n0_fin | apply ofZ_fin; lia | exact Q0 | exact Q1]).
  destruct (div_unit q (nofZ 100) Q0 Q1) as (Nd & D1); [apply ofZ_lt; lia | apply ofZ_fin; lia|].
  assert (Fd : nisfin (ndiv q (nofZ 100)) = true) by (apply (fin_between n0 _ n1); [apply n0_fin | apply n1_fin | exact Nd | exact D1]).
  assert (Nv : nn vi) by (apply mul_nn; [apply ofZ_le; lia | exact Nd | apply ofZ_fin; lia | exact Fd]).
  apply not_le_lt in E; [|apply fin_notnan, ofZ_fin; lia | apply nn_notnan; exact Nv].
  destruct (frac_floor vi (Z.of_nat (length l) - 1) ltac:(lia) Nv E) as (f & -> & K0 & K1). cbv zeta.
  replace (zfloor f) with (Z.of_nat (Z.to_nat (zfloor f))) by lia. rewrite (py_nth_ok n0) by lia. cbn [bind].
  replace (Z.of_nat (Z.to_nat (zfloor f)) + 1) with (Z.of_nat (S (Z.to_nat (zfloor f)))) by lia. rewrite (py_nth_ok n0) by lia. cbn [bind]. eauto.
Qed.

Lemma flat_map_len {A B} (f : A -> list B) n l : (forall a, In a l -> length (f a) = n) -> length (flat_map f l) = (length l * n)%nat.
Proof. induction l as [|a l IH]; intros H; cbn [flat_map length]; [reflexivity|]. rewrite app_length, H, IH; [lia | intros; apply H; right; assumption | left; reflexivity]. Qed.
Lemma zrange_len lo hi : length (zrange lo hi) = Z.to_nat (hi - lo).
Proof. unfold zrange. rewrite map_length, seq_length. reflexivity. Qed.
Lemma cells_len {A} (a : arr A) : 0 <= nrow a -> 0 <= ncol a -> Z.of_nat (length (cells a)) = nrow a * ncol a.
Proof.
  intros H1 H2. unfold cells. rewrite (flat_map_len _ (Z.to_nat (ncol a))) by (intros; rewrite map_length, zrange_len; f_equal; lia). rewrite zrange_len. lia.
Qed.

(** With clip = 100: counts divided by the largest count. *)
Lemma area_100 gaussian (w : walk T) L W sigma :
  walk_on L W w -> Z.of_nat (length (record_ids w)) <= 9007199254740992 -> 0 < L -> 0 < W -> L * W <= 9007199254740992 -> nltb n0 sigma = false ->
  (exists x y, 0 <= x < L /\ 0 <= y < W /\ 0 < visits w x y) ->
  exists a X Y, nourishment_area gaussian w (L, W) sigma (nofZ 100) = Ok a /\ nrow a = L /\ ncol a = W /\ 0 <= X < L /\ 0 <= Y < W /\
    forall x y, 0 <= x < L -> 0 <= y < W ->
      visits w x y <= visits w X Y /\
      cell a x y = if visits w x y =? 0 then nnan else ndiv (nofZ (visits w x y)) (nofZ (visits w X Y)).
Proof.
  intros On B HL HW HS Hs (x0 & y0 & X0 & Y0 & P0).
  destruct (percentile_100 (cells (visit_map w L W))) as (vmax & Ep & Im & Mm).
  - apply cells_ne; assumption.
  - intros v Hv. apply cells_in in Hv as (x & y & _ & _ & ->). cbn. pose proof (visits_nn w x y). pose proof (visits_le w x y). apply fin_notnan, ofZ_fin. lia.
  - rewrite cells_len by (cbn; lia). exact HS.
  - apply cells_in in Im as (X & Y & HX & HY & ->). cbn [visit_map cell nrow ncol] in *.
    assert (MX : forall x y, 0 <= x < L -> 0 <= y < W -> visits w x y <= visits w X Y).
    { intros x y Hx Hy. assert (Q : nleb (nofZ (visits w x y) : T) (nofZ (visits w X Y)) = true) by (apply Mm, cells_in; exists x, y; repeat split; cbn; lia).
      destruct (Z.le_gt_cases (visits w x y) (visits w X Y)) as [|G]; [assumption|]. exfalso. pose proof (visits_nn w X Y). pose proof (visits_le w x y).
      pose proof (ofZ_lt (visits w X Y) (visits w x y) ltac:(lia) G ltac:(lia)) as R. rewrite (le_not_lt _ _ Q) in R. discriminate. }
    assert (PM : 0 < visits w X Y) by (specialize (MX x0 y0 X0 Y0); lia).
    assert (BM : visits w X Y <= 9007199254740992) by (pose proof (visits_le w X Y); lia).
    assert (Hv : nltb n0 (nofZ (visits w X Y) : T) = true) by (apply ofZ_lt; lia).
    assert (CL : forall k, 0 <= k <= visits w X Y -> clipped (nofZ (visits w X Y)) k = (nofZ k : T)).
    { intros k Hk. unfold clipped. rewrite le_not_lt; [reflexivity | apply ofZ_le; lia]. }
    destruct (area_ok gaussian w L W sigma (nofZ 100) _ On B HL HW Hs Ep Hv) as (a & m & E & A1 & A2 & A3 & A4).
    destruct A4 as (X' & Y' & HX' & HY' & PV' & -> & MX'); [exists x0, y0; auto|].
    assert (EQ : visits w X' Y' = visits w X Y).
    { pose proof (MX X' Y' HX' HY') as U. destruct (Z.le_gt_cases (visits w X Y) (visits w X' Y')); [lia|]. exfalso.
      pose proof (MX' X Y HX HY PM) as Q. rewrite !CL in Q by lia. pose proof (ofZ_lt (visits w X' Y') (visits w X Y) ltac:(lia) ltac:(lia) ltac:(lia)) as R. rewrite (le_not_lt _ _ Q) in R. discriminate. }
    exists a, X, Y. split; [exact E|]. split; [exact A1|]. split; [exact A2|]. split; [exact HX|]. split; [exact HY|].
    intros x y Hx Hy. split; [apply MX; assumption|]. rewrite (A3 x y Hx Hy), EQ. rewrite (CL (visits w X Y)) by lia. pose proof (visits_nn w x y). specialize (MX x y Hx Hy).
    destruct (Z.eqb_spec (visits w x y) 0); [apply nan_div|]. rewrite CL by lia. reflexivity.
Qed.

(** ** nourishment_time *)
Definition contrib (w : walk T) (p : nat * nat) : T :=
  let r := path w (fst p) in let i := snd p in
  nmul nhalf (nadd (nsub (tat r i) (tat r (i - 1))) (nsub (tat r (S i)) (tat r i))).
Lemma time_fold (w : walk T) L W l : walk_on L W w -> (forall p, In p l -> In p (interior_ids w)) ->
  forall v t c d, nrow v = L -> ncol v = W -> nrow t = L -> ncol t = W ->
  (forall x y, 0 <= x < L -> 0 <= y < W -> 0 <= c x y /\ cell v x y = nofZ (c x y) /\ c x y + Z.of_nat (length l) <= 9007199254740992 /\ cell t x y = d x y) ->
  exists v' t', foldM (time_record w) (map zid l) (v, t) = Ok (v', t') /\ nrow v' = L /\ ncol v' = W /\ nrow t' = L /\ ncol t' = W /\
    forall x y, 0 <= x < L -> 0 <= y < W -> cell v' x y = nofZ (c x y + tally w l x y) /\
      cell t' x y = fold_left nadd (map (contrib w) (filter (recorded_at w x y) l)) (d x y).
Proof.
  intros On. induction l as [|p l IH]; intros Sub v t c d EL EW EL' EW' H; cbn [map foldM].
  - exists v, t. split; [reflexivity|]. do 4 (split; [assumption|]). intros x y Hx Hy. destruct (H x y Hx Hy) as (_ & -> & _ & ->). split; [f_equal; cbn; lia | reflexivity].
  - pose proof (Sub p (or_introl eq_refl)) as Ip. apply interior_in in Ip as (Q1 & Q2 & Q3).
    assert (Rp : In p (record_ids w)) by (apply record_ids_in; lia).
    destruct (get_x w L W p On Rp) as (xs & ys & ts & E1 & E2 & E3 & E4 & E5 & Ets & Lts & Exs & X & Y).
    unfold time_record at 1. rewrite E1. cbn [bind]. rewrite E2. cbn [bind]. rewrite E3. cbn [bind]. rewrite E4. cbn [bind fst snd].
    rewrite np_inc_ok by lia. cbn [bind]. rewrite E5. cbn [bind]. unfold zid at 1 2 3. cbn [snd].
    assert (LT : (S (snd p) < length ts)%nat) by (rewrite Lts, Exs; exact Q3).
    rewrite (py_nth_ok n0) by lia. cbn [bind]. replace (Z.of_nat (snd p) - 1) with (Z.of_nat (snd p - 1)) by lia. rewrite (py_nth_ok n0) by lia. cbn [bind].
    replace (Z.of_nat (snd p) + 1) with (Z.of_nat (S (snd p))) by lia. rewrite (py_nth_ok n0) by lia. cbn [bind].
    rewrite np_inc_ok by lia. cbn [bind].
    edestruct (IH (fun q Hq => Sub q (or_intror Hq))) as (v' & t' & E & A & B & A' & B' & C); cycle 5.
    + exists v', t'. split; [exact E|]. do 4 (split; [assumption|]). intros x y Hx Hy. destruct (C x y Hx Hy) as (C1 & C2). rewrite C1, C2.
      instantiate (2 := fun x y => c x y + (if recorded_at w x y p then 1 else 0)).
      instantiate (1 := fun x y => if recorded_at w x y p then nadd (d x y) (contrib w p) else d x y). cbv beta. rewrite tally_cons. split; [f_equal; lia|].
      cbn [filter]. destruct (recorded_at w x y p); reflexivity.
    + exact EL.
    + exact EW.
    + exact EL'.
    + exact EW'.
    + intros x y Hx Hy. cbn [cell]. destruct (H x y Hx Hy) as (H1 & H2 & H3 & H4). cbn [length] in H3. unfold recorded_at. rewrite (Z.eqb_sym x), (Z.eqb_sym y).
      destruct ((xat (path w (fst p)) (snd p) =? x) && (yat (path w (fst p)) (snd p) =? y)).
      * split; [lia|]. split; [rewrite H2; apply ofZ_succ; lia|]. split; [lia|]. rewrite H4. unfold contrib. cbv zeta. unfold tat. rewrite <- Ets. reflexivity.
      * split; [lia|]. split; [rewrite Z.add_0_r; exact H2|]. split; [lia | exact H4].
Qed.
Lemma occupation_ok (w : walk T) L W : walk_on L W w -> Z.of_nat (length (record_ids w)) <= 9007199254740992 ->
  exists v t, occupation w (L, W) = Ok (v, t) /\ nrow v = L /\ ncol v = W /\ nrow t = L /\ ncol t = W /\
    forall x y, 0 <= x < L -> 0 <= y < W -> cell v x y = nofZ (Z.of_nat (length (stays w x y))) /\ cell t x y = fold_left nadd (stays w x y) n0.
Proof.
  intros On B. unfold occupation. rewrite records_interior.
  destruct (time_fold w L W (interior_ids w) On (fun p H => H) (np_zeros (L, W)) (np_zeros (L, W)) (fun _ _ => 0) (fun _ _ => n0) eq_refl eq_refl eq_refl eq_refl) as (v & t & E & A1 & A2 & A3 & A4 & A5).
  - intros x y _ _. split; [lia|]. split; [reflexivity|]. split; [|reflexivity].
    unfold interior_ids. pose proof (filter_len (fun p => (1 <=? snd p)%nat && (S (snd p) <? length (r_x (path w (fst p))))%nat) (record_ids w)). lia.
  - exists v, t. split; [exact E|]. do 4 (split; [assumption|]). intros x y Hx Hy. destruct (A5 x y Hx Hy) as (-> & ->). split; [|reflexivity].
    f_equal. unfold tally, stays. rewrite map_length. lia.
Qed.

Lemma mean_nn (w : walk T) L W x y : walk_on L W w -> Z.of_nat (length (record_ids w)) <= 9007199254740992 ->
  (forall q i, (q < count w)%nat -> (i < length (r_x (path w q)))%nat -> nisfin (tat (path w q) i) = true) ->
  (forall q i, (q < count w)%nat -> (S i < length (r_x (path w q)))%nat -> nleb (tat (path w q) i) (tat (path w q) (S i)) = true) ->
  nn (cell (stay_map w L W) x y).
Proof.
  intros On B Ft Mt. cbn [stay_map cell]. destruct (stays w x y) as [|s0 sr] eqn:ES; [apply nn_n0|]. unfold mean_stay.
  apply div_nn.
  - assert (K : forall l a, nn a -> (forall s, In s l -> nn s) -> nn (fold_left nadd l a)).
    { induction l as [|s l IH]; intros a Ha Hl; cbn [fold_left]; [exact Ha|]. apply IH; [apply nn_add; [exact Ha | apply Hl; left; reflexivity] | intros; apply Hl; right; assumption]. }
    apply K; [apply nn_n0|]. intros s Hs. unfold stays in Hs. apply in_map_iff in Hs as ((q, i) & <- & Hp). apply filter_In in Hp as (Hp & _). apply interior_in in Hp as (Q1 & Q2 & Q3). cbn [fst snd] in *.
    cbv zeta. apply half_nn. apply nn_add; apply sub_nn; try (apply Ft; [exact Q1 | lia]).
    + replace i with (S (i - 1)) at 2 by lia. apply Mt; [exact Q1 | lia].
    + apply Mt; [exact Q1 | lia].
  - apply ofZ_lt; try lia; rewrite ES; cbn [length]; try lia. 
    assert (LS : (length (stays w x y) <= length (record_ids w))%nat).
    { unfold stays. rewrite map_length. etransitivity; [apply filter_len|]. unfold interior_ids. apply filter_len. }
    rewrite ES in LS. cbn [length] in LS. lia.
  - apply ofZ_fin. assert (LS : (length (stays w x y) <= length (record_ids w))%nat).
    { unfold stays. rewrite map_length. etransitivity; [apply filter_len|]. unfold interior_ids. apply filter_len. }
    lia.
Qed.

Lemma time_ok gaussian (w : walk T) L W sigma clip vmax :
  walk_on L W w -> Z.of_nat (length (record_ids w)) <= 9007199254740992 -> nltb n0 sigma = false ->
  (forall q i, (q < count w)%nat -> (i < length (r_x (path w q)))%nat -> nisfin (tat (path w q) i) = true) ->
  (forall q i, (q < count w)%nat -> (S i < length (r_x (path w q)))%nat -> nleb (tat (path w q) i) (tat (path w q) (S i)) = true) ->
  np_nanpercentile (cells (stay_map w L W)) clip = Ok vmax -> nisnan vmax = false ->
  exists a, nourishment_time gaussian w (L, W) sigma clip = Ok a /\ nrow a = L /\ ncol a = W /\
    forall x y, 0 <= x < L -> 0 <= y < W ->
      let m := cell (stay_map w L W) x y in let c := if nltb vmax m then vmax else m in cell a x y = if neqb c n0 then nnan else c.
Proof.
  intros On B Hs Ft Mt Hp Nv. destruct (occupation_ok w L W On B) as (v & t & E & A1 & A2 & A3 & A4 & A5).
  unfold nourishment_time. rewrite E. cbn [bind].
  set (mean := amap2 (fun t n => if neqb n n0 then n0 else ndiv t n) t v).
  assert (M : forall x y, 0 <= x < L -> 0 <= y < W -> cell mean x y = cell (stay_map w L W) x y).
  { intros x y Hx Hy. cbn [mean amap2 cell stay_map]. destruct (A5 x y Hx Hy) as (-> & ->). unfold mean_stay.
    assert (LS : (length (stays w x y) <= length (record_ids w))%nat).
    { unfold stays. rewrite map_length. etransitivity; [apply filter_len|]. unfold interior_ids. apply filter_len. }
    destruct (stays w x y) as [|s0 sr] eqn:ES.
    - cbn [length Z.of_nat]. change (nofZ 0) with (n0 : T). rewrite eq_refl' by apply n0_notnan. reflexivity.
    - destruct (neqb (nofZ (Z.of_nat (length (s0 :: sr)))) n0) eqn:EN; [|reflexivity]. exfalso. apply eq0_not_pos in EN.
      pose proof (ofZ_lt 0 (Z.of_nat (length (s0 :: sr))) ltac:(lia) ltac:(cbn [length]; lia) ltac:(cbn [length] in *; lia)) as PL. unfold n0 in EN. congruence. }
  rewrite (cells_ext mean (stay_map w L W)) by (cbn; assumption || (intros; apply M; cbn in *; lia)). rewrite Hp. cbn [bind]. rewrite Hs.
  eexists. split; [reflexivity|]. split; [exact A3|]. split; [exact A4|]. intros x y Hx Hy. cbn [nan_where amap cell]. rewrite (M x y Hx Hy).
  pose proof (mean_nn w L W x y On B Ft Mt) as Q. set (m := cell (stay_map w L W) x y) in *. cbv zeta.
  assert (EC : np_clip vmax m = if nltb vmax m then vmax else m).
  { unfold np_clip. assert (EM : np_max2 m n0 = m). { unfold np_max2. rewrite (nn_notnan m Q), n0_notnan. rewrite (le_not_lt n0 m Q). reflexivity. }
    rewrite EM. unfold np_min2. rewrite (nn_notnan m Q), Nv. reflexivity. }
  rewrite EC. reflexivity.
Qed.
Lemma time_100 gaussian (w : walk T) L W sigma :
  walk_on L W w -> Z.of_nat (length (record_ids w)) <= 9007199254740992 -> 0 < L -> 0 < W -> L * W <= 9007199254740992 -> nltb n0 sigma = false ->
  (forall q i, (q < count w)%nat -> (i < length (r_x (path w q)))%nat -> nisfin (tat (path w q) i) = true) ->
  (forall q i, (q < count w)%nat -> (S i < length (r_x (path w q)))%nat -> nleb (tat (path w q) i) (tat (path w q) (S i)) = true) ->
  exists a, nourishment_time gaussian w (L, W) sigma (nofZ 100) = Ok a /\ nrow a = L /\ ncol a = W /\
    forall x y, 0 <= x < L -> 0 <= y < W ->
      (stays w x y = [] -> cell a x y = nnan) /\
      (stays w x y <> [] -> neqb (mean_stay w x y) n0 = true -> cell a x y = nnan) /\
      (stays w x y <> [] -> neqb (mean_stay w x y) n0 = false -> cell a x y = mean_stay w x y).
Proof.
  intros On B HL HW HS Hs Ft Mt.
  destruct (percentile_100 (cells (stay_map w L W))) as (vmax & Ep & Im & Mm).
  - apply cells_ne; assumption.
  - intros m Hm. apply cells_in in Hm as (x & y & _ & _ & ->). apply nn_notnan, mean_nn; assumption.
  - rewrite cells_len by (cbn; lia). exact HS.
  - assert (Nv : nisnan vmax = false) by (apply cells_in in Im as (x & y & _ & _ & ->); apply nn_notnan, mean_nn; assumption).
    destruct (time_ok gaussian w L W sigma (nofZ 100) vmax On B Hs Ft Mt Ep Nv) as (a & E & A1 & A2 & A3). exists a. split; [exact E|]. split; [exact A1|]. split; [exact A2|].
    intros x y Hx Hy. specialize (A3 x y Hx Hy). cbv zeta in A3.
    assert (Q : nleb (cell (stay_map w L W) x y) vmax = true) by (apply Mm, cells_in; exists x, y; repeat split; cbn; lia).
    rewrite (le_not_lt _ _ Q) in A3. rewrite A3. cbn [stay_map cell]. split; [|split].
    + intros ->. rewrite eq_refl' by apply n0_notnan. reflexivity.
    + intros NE EQ. destruct (stays w x y) eqn:ES; [congruence|]. rewrite EQ. reflexivity.
    + intros NE EQ. destruct (stays w x y) eqn:ES; [congruence|]. rewrite EQ. reflexivity.
Qed.
End Generic.

(** The counts of all cells add up to the number of records. *)
Definition zsum (l : list Z) : Z := fold_right Z.add 0 l.
Lemma zsum_add {A} (f g : A -> Z) l : zsum (map (fun a => f a + g a) l) = zsum (map f l) + zsum (map g l).
Proof. induction l as [|a l IH]; cbn [map zsum fold_right]; [reflexivity|]. unfold zsum in *. lia. Qed.
Lemma zsum_0 {A} (f : A -> Z) l : (forall a, In a l -> f a = 0) -> zsum (map f l) = 0.
Proof. induction l as [|a l IH]; intros H; cbn [map zsum fold_right]; [reflexivity|]. rewrite (H a (or_introl eq_refl)). apply IH. intros; apply H; right; assumption. Qed.
Lemma zsum_one (x y : Z) l : NoDup l -> In (x, y) l -> zsum (map (fun c => if (x =? fst c) && (y =? snd c) then 1 else 0) l) = 1.
Proof.
  intros ND. induction ND as [|c l NI ND IH]; intros I; [contradiction|]. cbn [map zsum fold_right]. destruct I as [->|I].
  - cbn [fst snd]. rewrite !Z.eqb_refl. cbn [andb]. change (fold_right Z.add 0) with zsum. rewrite zsum_0; [reflexivity|].
    intros c Hc. destruct (Z.eqb_spec x (fst c)), (Z.eqb_spec y (snd c)); cbn [andb]; try reflexivity. subst. destruct c; contradiction.
  - change (fold_right Z.add 0) with zsum. rewrite IH by exact I. destruct (Z.eqb_spec x (fst c)), (Z.eqb_spec y (snd c)); cbn [andb]; try reflexivity. subst. destruct c; contradiction.
Qed.
Lemma zrange_nodup lo hi : NoDup (zrange lo hi).
Proof. unfold zrange. apply FinFun.Injective_map_NoDup; [intros a b E; lia | apply seq_NoDup]. Qed.
Lemma prod_nodup {A B} (l : list A) (m : list B) : NoDup l -> NoDup m -> NoDup (list_prod l m).
Proof.
  intros Nl Nm. induction Nl as [|a l NI Nl IH]; cbn [list_prod]; [constructor|]. apply NoDup_app_remove_r || idtac.
  assert (D : forall p, In p (map (fun y => (a, y)) m) -> ~ In p (list_prod l m)).
  { intros p Hp Q. apply in_map_iff in Hp as (b & <- & _). apply in_prod_iff in Q as (Q & _). contradiction. }
  assert (N1 : NoDup (map (fun y => (a, y)) m)) by (apply FinFun.Injective_map_NoDup; [intros u v E; congruence | exact Nm]).
  revert D N1. generalize (map (fun y => (a, y)) m) as k. induction k as [|p k IHk]; intros D N1; cbn [app]; [exact IH|].
  inversion N1; subst. constructor; [|apply IHk; [intros; apply D; right; assumption | assumption]].
  rewrite in_app_iff. intros [Q|Q]; [contradiction | exact (D p (or_introl eq_refl) Q)].
Qed.
Lemma visits_total {T} {N : Num T} (w : walk T) L W : walk_on L W w ->
  zsum (map (fun c => visits w (fst c) (snd c)) (list_prod (zrange 0 L) (zrange 0 W))) = Z.of_nat (length (record_ids w)).
Proof.
  intros On. unfold visits. assert (K : forall l, (forall p, In p l -> In p (record_ids w)) ->
    zsum (map (fun c => Z.of_nat (length (filter (recorded_at w (fst c) (snd c)) l))) (list_prod (zrange 0 L) (zrange 0 W))) = Z.of_nat (length l)).
  { induction l as [|p l IH]; intros Sub; [apply zsum_0; reflexivity|].
    rewrite (map_ext _ (fun c => (if (xat (path w (fst p)) (snd p) =? fst c) && (yat (path w (fst p)) (snd p) =? snd c) then 1 else 0) + Z.of_nat (length (filter (recorded_at w (fst c) (snd c)) l)))).
    - rewrite zsum_add, zsum_one, IH; [cbn [length]; lia | intros; apply Sub; right; assumption | apply prod_nodup; apply zrange_nodup|].
      destruct (get_x w L W p On (Sub p (or_introl eq_refl))) as (_ & _ & _ & _ & _ & _ & _ & _ & _ & _ & _ & X & Y). apply in_prod_iff. rewrite !zrange_in. split; assumption.
    - intros c. cbn [filter]. unfold recorded_at at 1. destruct ((xat (path w (fst p)) (snd p) =? fst c) && (yat (path w (fst p)) (snd p) =? snd c)); cbn [length]; lia. }
  apply K. auto.
Qed.
