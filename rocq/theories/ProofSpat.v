(** Chunked exposure times: which particles are counted where. *)
From Coq Require Import ZArith Bool String List Lia Permutation.
From Verif Require Import Num NumFacts NumPost Py Walker ParticleTrack SpecWeights SpecPick SpecWalk PostProc SpecPost SpecRout ProofExposure ProofPost ProofNour ProofRout
  Grid Spatial SpecSpat.
Import ListNotations.
Open Scope Z_scope.
Open Scope res_scope.

(** ** Axis arithmetic *)
Lemma part_range n k r i : 0 < k -> 0 <= n -> part n k r i -> 0 <= i < n.
Proof.
  intros K Hn (R & A & B). assert (r * k + k <= n). { assert (n / k * k <= n) by (rewrite Z.mul_comm; apply Z.mul_div_le; lia). nia. }
  destruct (r =? n / k - 1); nia.
Qed.
(** Every cell of the axis is in a part, and only one. *)
Lemma part_exists n k i : 0 < k <= n -> 0 <= i < n -> part n k (Z.min (i / k) (n / k - 1)) i.
Proof.
  intros K I. assert (1 <= n / k) by (apply Z.div_le_lower_bound; lia). assert (0 <= i / k) by (apply Z.div_pos; lia).
  assert (E : i = k * (i / k) + i mod k) by (apply Z.div_mod; lia). assert (0 <= i mod k < k) by (apply Z.mod_pos_bound; lia).
  split; [lia|]. destruct (Z.min_spec (i / k) (n / k - 1)) as [(M & ->)|(M & ->)].
  - split; [nia|]. destruct (Z.eqb_spec (i / k) (n / k - 1)); nia.
  - split; [nia|]. rewrite Z.eqb_refl. lia.
Qed.
Lemma part_counted n k r i : 0 < k -> part n k r i -> counted n k r i = true.
Proof.
  intros K (R & A & B). unfold counted. apply andb_true_iff. split; [apply Z.leb_le; exact A|]. apply Z.leb_le. destruct (r =? n / k - 1); lia.
Qed.

(** How many parts count a start position: two on an inner boundary, one elsewhere. *)
Lemma counted_iff n k i r : 0 < k <= n -> 0 <= i < n -> 0 <= r < n / k ->
  (counted n k r i = true <-> r = Z.min (i / k) (n / k - 1) \/ inner_boundary n k i = true /\ r = i / k - 1).
Proof.
  intros K I R. assert (1 <= n / k) by (apply Z.div_le_lower_bound; lia). assert (0 <= i / k) by (apply Z.div_pos; lia).
  assert (E : i = k * (i / k) + i mod k) by (apply Z.div_mod; lia). assert (M : 0 <= i mod k < k) by (apply Z.mod_pos_bound; lia).
  unfold counted, inner_boundary. set (d := i / k) in *. set (m := i mod k) in *. set (h := n / k) in *. clearbody d m h.
  rewrite !andb_true_iff, !Z.leb_le, !Z.ltb_lt, Z.eqb_eq.
  destruct (Z.eqb_spec r (h - 1)) as [e|e]; split.
  - intros (A & B). assert (h - 1 <= d) by nia. lia.
  - intros [A|A]; [|lia]. split; [|lia]. assert (h - 1 <= d) by lia. nia.
  - intros (A & B). assert (r <= d) by nia. assert (d <= r + 1) by nia. destruct (Z.eq_dec d r); [lia|]. assert (d = r + 1) by lia. assert (m = 0) by nia. right. nia.
  - intros [A|(((A & B) & C) & D)]; [|split; nia]. assert (r = d) by lia. split; nia.
Qed.
Lemma filter_two (p : Z -> bool) m a b : NoDup [a; b] -> 0 <= a < m -> 0 <= b < m -> (forall r, 0 <= r < m -> (p r = true <-> r = a \/ r = b)) ->
  length (filter p (zrange 0 m)) = 2%nat.
Proof.
  intros ND A B H. change 2%nat with (length [a; b]). apply Permutation_length. apply NoDup_Permutation; [apply NoDup_filter, zrange_nodup | exact ND|].
  intros x. rewrite filter_In, zrange_in. split.
  - intros (X & P). apply H in P; [|exact X]. destruct P as [->| ->]; cbn; auto.
  - intros [<-|[<-|[]]]; (split; [assumption | apply H; auto]).
Qed.
Lemma filter_one (p : Z -> bool) m a : 0 <= a < m -> (forall r, 0 <= r < m -> (p r = true <-> r = a)) -> length (filter p (zrange 0 m)) = 1%nat.
Proof.
  intros A H. change 1%nat with (length [a]). apply Permutation_length. apply NoDup_Permutation; [apply NoDup_filter, zrange_nodup | repeat constructor; intros []|].
  intros x. rewrite filter_In, zrange_in. split.
  - intros (X & P). apply H in P; [|exact X]. subst x. cbn; auto.
  - intros [<-|[]]; (split; [assumption | apply H; auto]).
Qed.
Lemma counted_times n k i : 0 < k <= n -> 0 <= i < n ->
  length (filter (fun r => counted n k r i) (zrange 0 (n / k))) = if inner_boundary n k i then 2%nat else 1%nat.
Proof.
  intros K I. assert (1 <= n / k) by (apply Z.div_le_lower_bound; lia). assert (0 <= i / k) by (apply Z.div_pos; lia).
  destruct (inner_boundary n k i) eqn:B.
  - assert (X : 0 < i / k < n / k). { unfold inner_boundary in B. rewrite !andb_true_iff, !Z.ltb_lt, Z.eqb_eq in B. assert (i = k * (i / k) + i mod k) by (apply Z.div_mod; lia). nia. }
    apply (filter_two _ _ (i / k) (i / k - 1)); [|lia|lia|].
    + constructor; [intros [F|[]]; lia | repeat constructor; intros []].
    + intros r R. rewrite counted_iff by lia. rewrite B. rewrite Z.min_l by lia. split; [intros [A|(_ & A)] | intros [A|A]]; auto.
  - apply (filter_one _ _ (Z.min (i / k) (n / k - 1))); [lia|]. intros r R. rewrite counted_iff by lia. rewrite B. split; [intros [A|(A & _)] | intros A]; auto. discriminate.
Qed.

(** ** Lists of chunks *)
Lemma flat_nth {A} (g : Z -> Z -> A) d ny nx r c : 0 <= r < ny -> 0 <= c < nx ->
  nth (Z.to_nat (r * nx + c)) (flat_map (fun r => map (g r) (zrange 0 nx)) (zrange 0 ny)) d = g r c.
Proof.
  intros R C. rewrite <- (Z2Nat.id ny) by lia. rewrite zrange_nat. rewrite <- (Z2Nat.id nx) in * by lia. set (m := Z.to_nat nx) in *.
  assert (K : forall n s r', (r' < n)%nat -> nth (r' * m + Z.to_nat c) (flat_map (fun r => map (g r) (zrange 0 (Z.of_nat m))) (map Z.of_nat (seq s n))) d = g (Z.of_nat (s + r')) c).
  { induction n as [|n IH]; intros s r' H; [lia|]. cbn [seq map flat_map]. assert (L : length (map (g (Z.of_nat s)) (zrange 0 (Z.of_nat m))) = m) by (rewrite map_length, zrange_nat, map_length, seq_length; reflexivity).
    destruct r' as [|r'].
    - rewrite app_nth1 by (rewrite L; lia). rewrite (nth_indep _ d (g (Z.of_nat s) 0)) by (rewrite L; lia). rewrite map_nth. rewrite zrange_nat.
      rewrite (nth_indep _ 0 (Z.of_nat 0)) by (rewrite map_length, seq_length; lia). rewrite map_nth, seq_nth by lia. f_equal; lia.
    - rewrite app_nth2 by (rewrite L; lia). rewrite L. replace (S r' * m + Z.to_nat c - m)%nat with (r' * m + Z.to_nat c)%nat by lia. rewrite IH by lia. f_equal; lia. }
  replace (Z.to_nat (r * Z.of_nat m + c)) with (Z.to_nat r * m + Z.to_nat c)%nat by nia. rewrite K by lia. f_equal; lia.
Qed.
Definition bounds (L W k r c : Z) : (Z * Z) * (Z * Z) :=
  ((r * k, if r =? L / k - 1 then L else (r + 1) * k), (c * k, if c =? W / k - 1 then W else (c + 1) * k)).
Lemma chunk_bounds_ok L W k : 0 < k -> chunk_bounds L W k = Ok (flat_map (fun r => map (bounds L W k r) (zrange 0 (W / k))) (zrange 0 (L / k))).
Proof. intros K. unfold chunk_bounds. rewrite (proj2 (Z.eqb_neq k 0)) by lia. reflexivity. Qed.

Section Walks.
Context {T : Type} {N : Num T}.

Lemma combine_filter (f : nat -> bool) l : map fst (filter snd (combine (map Z.of_nat l) (map f l))) = map Z.of_nat (filter f l).
Proof. induction l as [|a l IH]; [reflexivity|]. cbn [map combine filter snd]. destruct (f a); cbn [map fst]; rewrite IH; reflexivity. Qed.
Lemma mapM_sel {A} (d : A) (l : list A) ids : (forall q, In q ids -> (q < length l)%nat) -> mapM (py_nth l) (map Z.of_nat ids) = Ok (map (fun q => nth q l d) ids).
Proof. intros H. rewrite mapM_map. apply mapM_Ok. intros q Hq. apply py_nth_ok, H, Hq. Qed.

Lemma dget_in {A} (o : list (string * A)) kv : NoDup (map fst o) -> In kv o -> dget (fst kv) o = Some (snd kv).
Proof.
  induction o as [|(k & a) o IH]; intros ND H; [destruct H|]. cbn [dget map fst] in *. inversion ND as [|? ? H1 H2]; subst. destruct H as [<-|H]; cbn [fst snd].
  - rewrite String.eqb_refl. reflexivity.
  - destruct (String.eqb_spec (fst kv) k) as [e|e]; [|apply IH; assumption]. exfalso. apply H1. rewrite <- e. apply in_map, H.
Qed.

(** What find_common returns. *)
Definition select (w : walk T) (ids : list nat) : walk T :=
  {| xinds := map (fun q => nth q (xinds w) []) ids; yinds := map (fun q => nth q (yinds w) []) ids; times := map (fun q => nth q (times w) []) ids;
     opts := map (fun kv => (fst kv, map (fun q => nth q (snd kv) []) ids)) (opts w) |}.
Lemma find_common_ok (w : walk T) L W k r c : walk_on L W w -> rect_walk w ->
  find_common w (fst (bounds L W k r c)) (snd (bounds L W k r c)) = Ok (select w (members w L W k r c)).
Proof.
  intros ((Ly & Lt & _) & ON) (ND & (_ & _ & SO) & _). unfold find_common. fold (count w).
  rewrite (mapM_nat _ (fun q => counted L k r (xat (path w q) 0) && counted W k c (yat (path w q) 0))).
  2:{ intros q Hq. destruct (ON q Hq) as ((L0 & L1 & _) & _). unfold starts_in. rewrite (py_nth_ok []), (py_nth_ok []) by (unfold count in *; lia). cbn [bind].
      unfold path, row, xat, yat in *. cbn [r_x r_y] in *. destruct (nth q (xinds w) []) as [|x0 xs]; [cbn in L0; lia|]. destruct (nth q (yinds w) []) as [|y0 ys]; [cbn in *; lia|].
      cbn [nth]. unfold counted, bounds. cbn [fst snd]. rewrite !andb_assoc. reflexivity. }
  cbn [bind]. rewrite zrange_nat, combine_filter. fold (members w L W k r c).
  assert (IN : forall q, In q (members w L W k r c) -> (q < count w)%nat) by (intros q Hq; apply filter_In in Hq as (Hq & _); apply in_seq in Hq; lia).
  rewrite (mapM_sel []) by exact IN. cbn [bind]. rewrite (mapM_sel []) by (rewrite Ly; exact IN). cbn [bind]. rewrite (mapM_sel []) by (rewrite Lt; exact IN). cbn [bind].
  rewrite (mapM_Ok _ (fun kv => (fst kv, map (fun q => nth q (snd kv) []) (members w L W k r c)))).
  2:{ intros kv H. rewrite (mapM_sel []); [reflexivity|]. destruct (SO (fst kv) (in_map fst _ _ H)) as (col & E & LC). rewrite (dget_in (opts w) kv ND H) in E. injection E as E. rewrite E, LC. exact IN. }
  reflexivity.
Qed.
Lemma select_path (w : walk T) ids i : (i < length ids)%nat -> path (select w ids) i = path w (nth i ids 0%nat).
Proof.
  intros H. unfold path, row, select. cbn [xinds yinds times].
  rewrite !(nth_map_in _ ids i _ 0%nat) by exact H. reflexivity.
Qed.
Lemma select_count (w : walk T) ids : count (select w ids) = length ids.
Proof. unfold count, select. cbn [xinds]. apply map_length. Qed.
Lemma select_on (w : walk T) L W ids : walk_on L W w -> (forall q, In q ids -> (q < count w)%nat) -> walk_on L W (select w ids).
Proof.
  intros (_ & ON) H. split; [split; [|split; [|intros v []]]; unfold select, count; cbn [xinds yinds times]; rewrite !map_length; reflexivity|].
  intros q Hq. rewrite select_count in Hq. rewrite select_path by exact Hq. apply ON, H, nth_In, Hq.
Qed.
Lemma members_lt (w : walk T) L W k r c q : In q (members w L W k r c) -> (q < count w)%nat.
Proof. intros H. apply filter_In in H as (H & _). apply in_seq in H. lia. Qed.

(** The exposure times of a chunk's particles are those of the whole walk. *)
Lemma select_exposure (w : walk T) L W ids roi : walk_on L W w -> (forall q, In q ids -> (q < count w)%nat) -> binary roi -> nrow roi = L -> ncol roi = W ->
  exists st, exposure_time (select w ids) roi = Ok (map (fun q => et_acc roi (path w q) (last_ix (path w q))) ids, st).
Proof.
  intros ON H B EL EW. rewrite exposure_time_ok; [|exact B | rewrite EL, EW; apply select_on; assumption]. eexists. f_equal. f_equal.
  rewrite select_count. apply (nth_ext _ _ nnan nnan); rewrite !map_length, ?seq_length; [reflexivity|]. intros i Hi.
  rewrite !(nth_map_in _ _ i _ 0%nat) by (rewrite ?seq_length; exact Hi). rewrite seq_nth by exact Hi. cbn [Nat.add]. rewrite select_path by exact Hi. reflexivity.
Qed.

Lemma regions_ok L W ct : nrow ct = L -> ncol ct = W -> regions (L, W) ct = Ok (Arr L W (fun i j => if cell ct i j =? 1 then 1 else 0)).
Proof. intros A B. unfold regions. cbn [fst snd]. rewrite A, B, !Z.eqb_refl. reflexivity. Qed.
Lemma any_region_iff ct L W k r c : 0 < k -> 0 <= L -> 0 <= W -> 0 <= r < L / k -> 0 <= c < W / k ->
  (any_region (Arr L W (fun i j => if cell ct i j =? 1 then 1 else 0)) (bounds L W k r c) = true <-> has_roi ct L W k r c).
Proof.
  intros K HL HW R C. unfold any_region, in_slice, has_roi, bounds. cbn [fst snd nrow ncol cell].
  assert (UP : forall n r, 0 <= n -> 0 <= r < n / k -> 0 <= r * k /\ (r + 1) * k <= n). { intros n r' H1 H2. assert (n / k * k <= n) by (rewrite Z.mul_comm; apply Z.mul_div_le; lia). nia. }
  assert (SB : forall n i, 0 <= i <= n -> slice_bound n i = i). { intros n i H. unfold slice_bound. destruct (Z.ltb_spec i 0); lia. }
  destruct (UP L r HL R) as (U1 & U2). destruct (UP W c HW C) as (U3 & U4).
  rewrite !SB by (destruct (r =? L / k - 1), (c =? W / k - 1); nia).
  rewrite existsb_exists. split.
  - intros (i & Hi & E). apply existsb_exists in E as (j & Hj & E). apply zrange_in in Hi. apply zrange_in in Hj.
    exists i, j. unfold part. destruct (cell ct i j =? 1) eqn:EC; [apply Z.eqb_eq in EC|discriminate]. 
    destruct (r =? L / k - 1), (c =? W / k - 1); repeat split; try lia; try exact EC.
  - intros (i & j & (P1 & P2 & P3) & (Q1 & Q2 & Q3) & E). exists i. split; [apply zrange_in; destruct (r =? L / k - 1); lia|].
    apply existsb_exists. exists j. split; [apply zrange_in; destruct (c =? W / k - 1); lia|]. rewrite E. reflexivity.
Qed.

Definition sys_region (ct : arr Z) (L W : Z) : arr Z := Arr L W (fun i j => if cell ct i j =? 1 then 1 else 0).
Lemma sys_region_of ct L W : region_of ct L W (sys_region ct L W).
Proof. split; [reflexivity|]. split; [reflexivity|]. intros i j _ _. cbn [cell sys_region]. destruct (Z.eqb_spec (cell ct i j) 1) as [e|e]; [rewrite e; tauto | split; [auto | split; [lia | intros; contradiction]]]. Qed.
Lemma loc_region_in ct L W k r c : 0 < k -> 0 <= r < L / k -> 0 <= c < W / k -> region_in ct L W k r c (region_chunk (sys_region ct L W) (bounds L W k r c)).
Proof.
  intros K R C. split; [reflexivity|]. split; [reflexivity|]. intros i j Hi Hj. unfold region_chunk, bounds, sys_region. cbn [fst snd cell nrow ncol]. unfold part.
  destruct ((r * k <=? i) && (i <? (if r =? L / k - 1 then L else (r + 1) * k)) && (c * k <=? j) && (j <? (if c =? W / k - 1 then W else (c + 1) * k))) eqn:E.
  - rewrite !andb_true_iff, !Z.leb_le, !Z.ltb_lt in E. destruct E as (((E1 & E2) & E3) & E4).
    destruct (Z.eqb_spec (cell ct i j) 1) as [e|e]; split; auto; split; try lia; intros; try tauto.
    split; [exact e|]. destruct (r =? L / k - 1), (c =? W / k - 1); repeat split; lia.
  - split; [auto|]. split; [lia|]. intros (_ & (_ & P1 & P2) & (_ & Q1 & Q2)). exfalso.
    assert (F : (r * k <=? i) && (i <? (if r =? L / k - 1 then L else (r + 1) * k)) && (c * k <=? j) && (j <? (if c =? W / k - 1 then W else (c + 1) * k)) = true).
    { rewrite !andb_true_iff, !Z.leb_le, !Z.ltb_lt. destruct (r =? L / k - 1), (c =? W / k - 1); repeat split; assumption. }
    rewrite F in E. discriminate.
Qed.
Lemma et_acc_region (r : prow T) L W a b : on_raster L W r -> (forall i j, 0 <= i < L -> 0 <= j < W -> (cell a i j = 1 <-> cell b i j = 1)) -> forall k, (k < length (r_x r))%nat ->
  et_acc a r k = et_acc b r k.
Proof.
  intros (_ & P) H. assert (K : forall i, (i < length (r_x r))%nat -> inregion a r i = inregion b r i).
  { intros i Hi. destruct (P i Hi) as (X & Y). specialize (H _ _ X Y). unfold inregion. destruct (Z.eqb_spec (cell a (xat r i) (yat r i)) 1) as [e|e], (Z.eqb_spec (cell b (xat r i) (yat r i)) 1) as [f|f]; tauto. }
  induction k as [|k IH]; intros Hk; [reflexivity|]. cbn [et_acc]. rewrite IH, !K by lia. reflexivity.
Qed.
Lemma region_binary ct L W m : region_of ct L W m -> binary m.
Proof. intros (A & B & H) i j Hi Hj. rewrite A in Hi. rewrite B in Hj. apply H; assumption. Qed.
Lemma region_in_binary ct L W k r c m : region_in ct L W k r c m -> binary m.
Proof. intros (A & B & H) i j Hi Hj. rewrite A in Hi. rewrite B in Hj. apply H; assumption. Qed.

(** One chunk of the result, for the region map roi of that chunk. *)
Definition chunk_val (w : walk T) (ct : arr Z) (L W k : Z) (roi : Z -> Z -> arr Z) (r c : Z) : option (list T) :=
  if any_region (sys_region ct L W) (bounds L W k r c) then Some (map (fun q => et_acc (roi r c) (path w q) (last_ix (path w q))) (members w L W k r c)) else None.
Lemma chunks_ok (w : walk T) L W ct k (roi : (Z * Z) * (Z * Z) -> arr Z) : walk_on L W w -> rect_walk w -> 0 < k ->
  (forall r c, 0 <= r < L / k -> 0 <= c < W / k -> binary (roi (bounds L W k r c)) /\ nrow (roi (bounds L W k r c)) = L /\ ncol (roi (bounds L W k r c)) = W) ->
  mapM (chunk_exposure w (sys_region ct L W) roi) (flat_map (fun r => map (bounds L W k r) (zrange 0 (W / k))) (zrange 0 (L / k)))
  = Ok (flat_map (fun r => map (chunk_val w ct L W k (fun r c => roi (bounds L W k r c)) r) (zrange 0 (W / k))) (zrange 0 (L / k))).
Proof.
  intros ON RW K H.
  assert (E : forall ll : list (list Z * Z), (forall p, In p ll -> 0 <= snd p < L / k /\ forall c, In c (fst p) -> 0 <= c < W / k) ->
     mapM (chunk_exposure w (sys_region ct L W) roi) (flat_map (fun p => map (bounds L W k (snd p)) (fst p)) ll)
     = Ok (flat_map (fun p => map (chunk_val w ct L W k (fun r c => roi (bounds L W k r c)) (snd p)) (fst p)) ll)).
  { assert (ONE : forall r c, 0 <= r < L / k -> 0 <= c < W / k -> chunk_exposure w (sys_region ct L W) roi (bounds L W k r c) = Ok (chunk_val w ct L W k (fun r c => roi (bounds L W k r c)) r c)).
    { intros r c R C. destruct (H r c R C) as (B & EL & EW). unfold chunk_exposure, chunk_val. destruct (any_region _ _); [|reflexivity].
      rewrite find_common_ok by assumption. cbn [bind]. destruct (select_exposure w L W (members w L W k r c) (roi (bounds L W k r c)) ON (members_lt w L W k r c) B EL EW) as (st & ->). reflexivity. }
    induction ll as [|(cs & r) ll IH]; intros HI; [reflexivity|]. cbn [flat_map fst snd].
    destruct (HI (cs, r) (or_introl eq_refl)) as (R & C). cbn [fst snd] in R, C.
    assert (IH' := IH (fun p Hp => HI p (or_intror Hp))). clear IH HI.
    induction cs as [|c cs IHc]; [exact IH'|]. cbn [map app mapM]. rewrite ONE by (auto; apply C; left; reflexivity). cbn [bind].
    rewrite IHc by (intros c' Hc; apply C; right; exact Hc). reflexivity. }
  specialize (E (map (fun r => (zrange 0 (W / k), r)) (zrange 0 (L / k)))). rewrite !flat_map_of_map in E. cbn [fst snd] in E. apply E.
  intros p Hp. apply in_map_iff in Hp as (r & <- & Hr). apply zrange_in in Hr. cbn [fst snd]. split; [exact Hr|]. intros c Hc. apply zrange_in in Hc. exact Hc.
Qed.
Lemma systemwide_ok (w : walk T) L W ct k : walk_on L W w -> rect_walk w -> nrow ct = L -> ncol ct = W -> 0 < k ->
  systemwide w (L, W) ct k = Ok (flat_map (fun r => map (chunk_val w ct L W k (fun _ _ => sys_region ct L W) r) (zrange 0 (W / k))) (zrange 0 (L / k))).
Proof.
  intros ON RW A B K. unfold systemwide. rewrite regions_ok by assumption. cbn [bind]. cbn [fst snd]. rewrite chunk_bounds_ok by exact K. cbn [bind].
  apply (chunks_ok w L W ct k (fun _ => sys_region ct L W)); auto. intros r c _ _. split; [apply (region_binary ct L W), sys_region_of|]. split; reflexivity.
Qed.
Lemma localized_ok (w : walk T) L W ct k : walk_on L W w -> rect_walk w -> nrow ct = L -> ncol ct = W -> 0 < k ->
  localized w (L, W) ct k = Ok (flat_map (fun r => map (chunk_val w ct L W k (fun r c => region_chunk (sys_region ct L W) (bounds L W k r c)) r) (zrange 0 (W / k))) (zrange 0 (L / k))).
Proof.
  intros ON RW A B K. unfold localized. cbn [fst snd]. rewrite chunk_bounds_ok by exact K. cbn [bind]. rewrite regions_ok by assumption. cbn [bind].
  apply (chunks_ok w L W ct k (region_chunk (sys_region ct L W))); auto. intros r c R C. pose proof (loc_region_in ct L W k r c K R C) as RI. split; [exact (region_in_binary _ _ _ _ _ _ _ RI)|]. split; reflexivity.
Qed.
Lemma flat_length {A} (g : Z -> Z -> A) ny nx : 0 <= ny -> 0 <= nx -> Z.of_nat (length (flat_map (fun r => map (g r) (zrange 0 nx)) (zrange 0 ny))) = ny * nx.
Proof.
  intros HY HX. rewrite (flat_map_len _ (Z.to_nat nx)); [|intros; rewrite map_length, zrange_len; f_equal; lia]. rewrite zrange_len. rewrite Z.sub_0_r. nia.
Qed.

(** The chunk's entry, in terms of the region map only. *)
Lemma chunk_val_spec (w : walk T) ct L W k roi m r c es st : walk_on L W w -> 0 < k -> 0 <= L -> 0 <= W -> 0 <= r < L / k -> 0 <= c < W / k ->
  binary m -> nrow m = L -> ncol m = W -> (forall i j, 0 <= i < L -> 0 <= j < W -> (cell (roi r c) i j = 1 <-> cell m i j = 1)) ->
  exposure_time w m = Ok (es, st) ->
  (has_roi ct L W k r c -> chunk_val w ct L W k roi r c = Some (map (fun q => nth q es nnan) (members w L W k r c))) /\
  (~ has_roi ct L W k r c -> chunk_val w ct L W k roi r c = None).
Proof.
  intros ON K HL HW R C B EL EW H E. unfold chunk_val. pose proof (any_region_iff ct L W k r c K HL HW R C) as AR. fold (sys_region ct L W) in AR.
  destruct (any_region (sys_region ct L W) (bounds L W k r c)).
  - split; [|intros NH; exfalso; apply NH, AR; reflexivity]. intros _. f_equal. apply map_ext_in. intros q Hq. apply members_lt in Hq.
    rewrite (exposure_nth m w es st q B) by (rewrite ?EL, ?EW; assumption). destruct ON as (_ & ON). destruct (ON q Hq) as (RR & PP).
    apply (et_acc_region _ L W); [split; assumption | exact H | destruct RR; unfold last_ix; lia].
  - split; [intros NH; apply AR in NH; discriminate | reflexivity].
Qed.

(** ** Localized never exceeds system-wide *)
Context {NL : NumLaws T} {NP : NumPost T} (HL : forall x : T, nn x -> nleb (nmul nhalf x) x = true).
Lemma et_acc_mono (r : prow T) L W a b : on_raster L W r -> (forall i j, 0 <= i < L -> 0 <= j < W -> cell a i j = 1 -> cell b i j = 1) ->
  (forall i, (i < length (r_x r))%nat -> nisfin (tat r i) = true) -> (forall i, (S i < length (r_x r))%nat -> nleb (tat r i) (tat r (S i)) = true) ->
  forall k, (k < length (r_x r))%nat -> nleb (et_acc a r k) (et_acc b r k) = true.
Proof.
  intros (_ & P) H F M. assert (K : forall i, (i < length (r_x r))%nat -> inregion a r i = true -> inregion b r i = true).
  { intros i Hi. destruct (P i Hi) as (X & Y). specialize (H _ _ X Y). unfold inregion. rewrite !Z.eqb_eq. exact H. }
  induction k as [|k IH]; intros Hk.
  - cbn [et_acc]. apply leb_refl. exact (leb_nan_r _ _ nn_n0).
  - specialize (IH ltac:(lia)).
    assert (NNa : nn (et_acc a r k)) by (apply et_acc_nn; intros; [apply F | apply M]; lia).
    assert (NNb : nn (et_acc b r k)) by (apply et_acc_nn; intros; [apply F | apply M]; lia).
    assert (Q : nn (nsub (tat r (S k)) (tat r k))) by (apply sub_nn; [apply F | apply F | apply M]; lia).
    pose proof (half_nn _ Q) as Hh. pose proof (K k ltac:(lia)) as K1. pose proof (K (S k) ltac:(lia)) as K2. cbn [et_acc].
    pose proof (leb_refl _ (leb_nan_r _ _ Q)) as R1. pose proof (leb_refl _ (leb_nan_r _ _ Hh)) as R2. pose proof (HL _ Q) as R3.
    destruct (inregion a r k), (inregion a r (S k)), (inregion b r k), (inregion b r (S k)); try (specialize (K1 eq_refl); discriminate); try (specialize (K2 eq_refl); discriminate);
      try (apply add_le_mono; assumption); try exact IH; (eapply leb_trans; [exact IH|]; apply add_nn_l; assumption).
Qed.
Lemma local_le (w : walk T) ct L W k r c : walk_on L W w -> 0 < k -> 0 <= r < L / k -> 0 <= c < W / k ->
  (forall q i, (q < count w)%nat -> (i < length (r_x (path w q)))%nat -> nisfin (tat (path w q) i) = true) ->
  (forall q i, (q < count w)%nat -> (S i < length (r_x (path w q)))%nat -> nleb (tat (path w q) i) (tat (path w q) (S i)) = true) ->
  match chunk_val w ct L W k (fun r c => region_chunk (sys_region ct L W) (bounds L W k r c)) r c, chunk_val w ct L W k (fun _ _ => sys_region ct L W) r c with
  | None, None => True
  | Some lo, Some sy => Forall2 (fun a b => nleb a b = true) lo sy
  | _, _ => False
  end.
Proof.
  intros ON K R C F M. unfold chunk_val. destruct (any_region _ _); [|exact I].
  assert (IN : forall q, In q (members w L W k r c) -> (q < count w)%nat) by apply members_lt. induction (members w L W k r c) as [|q l IH]; cbn [map]; [constructor|].
  constructor; [|apply IH; intros q' Hq'; apply IN; right; exact Hq']. specialize (IN q (or_introl eq_refl)). destruct ON as (_ & ON). destruct (ON q IN) as (RR & PP).
  apply (et_acc_mono _ L W); [split; assumption | | intros i Hi; apply F; assumption | intros i Hi; apply M; assumption | destruct RR; unfold last_ix; lia].
  intros i j Hi Hj E. destruct (sys_region_of ct L W) as (_ & _ & S1). destruct (loc_region_in ct L W k r c K R C) as (_ & _ & S2).
  apply (S2 i j Hi Hj) in E. apply (S1 i j Hi Hj). tauto.
Qed.
End Walks.
