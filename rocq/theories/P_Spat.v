(** Properties C58 - C62 and C76: chunked exposure times, percentile maps and their smoothing (spatial.py). *)
From Coq Require Import ZArith Bool String List Lia QArith Qcanon Lqa Permutation Sorted Reals Lra.
From Flocq Require Import Core IEEE754.BinarySingleNaN.
From Verif Require Import Num NumFacts NumMore NumPost XQ XQLaws XQFacts F64 F64Laws F64Lin Py Walker ParticleTrack SpecWeights SpecPick SpecWalk SpecPost SpecRout PostProc Grid Spatial SpecSpat SpecPct
  ProofStep ProofExposure ProofPost ProofNour ProofRout ProofGrid ProofSpat ProofMad ProofMad2 ProofPct P_Post.
Import ListNotations.
Open Scope Z_scope.

(** C58 systemwide returns (L/k)*(W/k) entries, one per chunk; the entry of a chunk without any cell of the region of interest is NaN, otherwise it lists
    the exposure times to the whole region of the particles counted for the chunk, as exposure_time computes them for the whole walk. *)
Theorem C58_systemwide :
  forall (w : walk f64) L W ct k, walk_on L W w -> rect_walk w -> nrow ct = L -> ncol ct = W -> 0 <= L -> 0 <= W -> 0 < k ->
  exists out, systemwide w (L, W) ct k = Ok out /\ Z.of_nat (length out) = (L / k) * (W / k) /\
    forall m, region_of ct L W m -> exists es st, exposure_time w m = Ok (es, st) /\
      forall r c, 0 <= r < L / k -> 0 <= c < W / k ->
        (has_roi ct L W k r c -> entry out W k r c = Some (map (fun q => nth q es nnan) (members w L W k r c))) /\
        (~ has_roi ct L W k r c -> entry out W k r c = None).
Proof.
  intros w L W ct k ON RW A B HL HW K. eexists. split; [apply systemwide_ok; assumption|].
  assert (0 <= L / k) by (apply Z.div_pos; lia). assert (0 <= W / k) by (apply Z.div_pos; lia).
  split; [apply flat_length; assumption|]. intros m RM. pose proof (region_binary _ _ _ _ RM) as BM. destruct RM as (M1 & M2 & M3).
  eexists. eexists. split; [apply exposure_time_ok; [exact BM | rewrite M1, M2; exact ON]|]. intros r c R C. unfold entry. rewrite flat_nth by assumption.
  eapply chunk_val_spec; try eassumption; [|apply exposure_time_ok; [exact BM | rewrite M1, M2; exact ON]].
  intros i j Hi Hj. destruct (sys_region_of ct L W) as (_ & _ & S). destruct (S i j Hi Hj) as (_ & S1). destruct (M3 i j Hi Hj) as (_ & S2). tauto.
Qed.
Print Assumptions C58_systemwide.
(** localized: the same, with the exposure to the part of the region inside the chunk. *)
Theorem C58_localized :
  forall (w : walk f64) L W ct k, walk_on L W w -> rect_walk w -> nrow ct = L -> ncol ct = W -> 0 <= L -> 0 <= W -> 0 < k ->
  exists out, localized w (L, W) ct k = Ok out /\ Z.of_nat (length out) = (L / k) * (W / k) /\
    forall r c m, 0 <= r < L / k -> 0 <= c < W / k -> region_in ct L W k r c m -> exists es st, exposure_time w m = Ok (es, st) /\
        (has_roi ct L W k r c -> entry out W k r c = Some (map (fun q => nth q es nnan) (members w L W k r c))) /\
        (~ has_roi ct L W k r c -> entry out W k r c = None).
Proof.
  intros w L W ct k ON RW A B HL HW K. eexists. split; [apply localized_ok; assumption|].
  assert (0 <= L / k) by (apply Z.div_pos; lia). assert (0 <= W / k) by (apply Z.div_pos; lia).
  split; [apply flat_length; assumption|]. intros r c m R C RM. pose proof (region_in_binary _ _ _ _ _ _ _ RM) as BM. destruct RM as (M1 & M2 & M3).
  eexists. eexists. split; [apply exposure_time_ok; [exact BM | rewrite M1, M2; exact ON]|]. unfold entry. rewrite flat_nth by assumption.
  eapply chunk_val_spec; try eassumption; [|apply exposure_time_ok; [exact BM | rewrite M1, M2; exact ON]].
  intros i j Hi Hj. destruct (loc_region_in ct L W k r c K R C) as (_ & _ & S). destruct (S i j Hi Hj) as (_ & S1). destruct (M3 i j Hi Hj) as (_ & S2). tauto.
Qed.
Print Assumptions C58_localized.
(** If the chunk size does not exceed the grid, every particle is counted for the chunk it starts in. *)
Theorem C58_covered_partial :
  forall (w : walk f64) L W k q, walk_on L W w -> 0 < k -> k <= L -> k <= W -> (q < count w)%nat ->
  exists r c, part L k r (xat (path w q) 0) /\ part W k c (yat (path w q) 0) /\ In q (members w L W k r c).
Proof.
  intros w L W k q (_ & ON) K KL KW Hq. destruct (ON q Hq) as (RR & P). destruct (P 0%nat) as (X & Y); [destruct RR; lia|].
  exists (Z.min (xat (path w q) 0 / k) (L / k - 1)), (Z.min (yat (path w q) 0 / k) (W / k - 1)).
  pose proof (part_exists L k _ (conj K KL) X) as PX. pose proof (part_exists W k _ (conj K KW) Y) as PY. split; [exact PX|]. split; [exact PY|].
  apply filter_In. split; [apply in_seq; lia|]. rewrite (part_counted _ _ _ _ K PX), (part_counted _ _ _ _ K PY). reflexivity.
Qed.
Print Assumptions C58_covered_partial.
(** The full property fails: with a chunk size larger than the grid there is no chunk at all and every particle is dropped. *)
Definition sx_walk : walk f64 :=
  {| xinds := [[1; 2; 2]; [2; 3]]; yinds := [[1; 2; 3]; [1; 1]]; times := [[n0; n1; nofZ 3]; [n0; nofZ 2]]; opts := [] |}.
Definition sx_ct : arr Z := Arr 4 4 (fun i j => if 2 <=? i then 1 else 0).
Lemma sx_on : walk_on 4 4 sx_walk.
Proof.
  split; [split; [reflexivity|]; split; [reflexivity | intros v []]|]. intros q Hq. change (q < 2)%nat in Hq.
  destruct q as [|[|q]]; [| |lia]; (split; [split; [cbn; lia|]; split; [reflexivity|]; split; [reflexivity | intros kv []]|]; intros i Hi; cbn in Hi; do 3 (destruct i as [|i]; [cbn; lia|]); lia).
Qed.
Lemma sx_rect : rect_walk sx_walk.
Proof.
  split; [constructor|]. split; [split; [reflexivity|]; split; [reflexivity | intros v []]|]. intros q Hq. change (q < 2)%nat in Hq.
  destruct q as [|[|q]]; [| |lia]; (split; [cbn; lia|]; split; [reflexivity|]; split; [reflexivity | intros kv []]).
Qed.
Theorem C58_coarse_resolution_refuted :
  exists (w : walk f64) L W ct k, walk_on L W w /\ rect_walk w /\ nrow ct = L /\ ncol ct = W /\ 0 < k /\ (0 < count w)%nat /\
    systemwide w (L, W) ct k = Ok [] /\ localized w (L, W) ct k = Ok [].
Proof.
  exists sx_walk, 4, 4, sx_ct, 5. split; [exact sx_on|]. split; [exact sx_rect|]. split; [reflexivity|]. split; [reflexivity|]. split; [lia|]. split; [cbn; lia|]. split; reflexivity.
Qed.
Print Assumptions C58_coarse_resolution_refuted.
Example C58_example :
  walk_on 4 4 sx_walk /\ rect_walk sx_walk /\ has_roi sx_ct 4 4 2 1 0 /\ ~ has_roi sx_ct 4 4 2 0 0 /\ members sx_walk 4 4 2 0 0 = [0; 1]%nat /\ members sx_walk 4 4 2 1 0 = [1]%nat.
Proof.
  split; [exact sx_on|]. split; [exact sx_rect|]. split; [exists 2, 0; cbn; unfold part; cbn; lia|]. split; [|split; reflexivity].
  intros (i & j & (A & B & C) & _ & E). cbn in *. destruct (Z.leb_spec 2 i); [lia | discriminate].
Qed.

(** C59 Refuted: a particle that starts on the first cell of the second chunk is counted in both chunks. *)
Theorem C59_refuted :
  exists (w : walk f64) L W k q, walk_on L W w /\ 0 < k /\ k <= L /\ k <= W /\ (q < count w)%nat /\
    In q (members w L W k 0 0) /\ In q (members w L W k 1 0).
Proof.
  exists sx_walk, 4, 4, 2, 1%nat. split; [exact sx_on|]. split; [lia|]. split; [lia|]. split; [lia|]. split; [cbn; lia|]. split; [right; left; reflexivity | left; reflexivity].
Qed.
Print Assumptions C59_refuted.
(** Exactly how often: twice for every axis on which the particle starts where one part ends and another one begins. *)
Theorem C59_multiplicity_partial :
  forall (w : walk f64) L W k q, walk_on L W w -> 0 < k -> k <= L -> k <= W -> (q < count w)%nat ->
  length (filter (fun rc => existsb (Nat.eqb q) (members w L W k (fst rc) (snd rc))) (list_prod (zrange 0 (L / k)) (zrange 0 (W / k))))
  = ((if inner_boundary L k (xat (path w q) 0) then 2 else 1) * (if inner_boundary W k (yat (path w q) 0) then 2 else 1))%nat.
Proof.
  intros w L W k q (_ & ON) K KL KW Hq. destruct (ON q Hq) as (RR & P). destruct (P 0%nat) as (X & Y); [destruct RR; lia|].
  rewrite <- (counted_times L k _ (conj K KL) X), <- (counted_times W k _ (conj K KW) Y).
  rewrite (filter_ext _ (fun rc => counted L k (fst rc) (xat (path w q) 0) && counted W k (snd rc) (yat (path w q) 0))).
  2:{ intros (r, c). cbn [fst snd]. apply bool_eq_iff. rewrite existsb_exists. split.
      - intros (q' & H & E). apply Nat.eqb_eq in E. subst q'. apply filter_In in H. apply H.
      - intros H. exists q. split; [|apply Nat.eqb_refl]. apply filter_In. split; [apply in_seq; lia | exact H]. }
  induction (zrange 0 (L / k)) as [|r l IH]; [reflexivity|]. cbn [list_prod filter]. rewrite filter_app, app_length, IH. clear IH.
  rewrite filter_map, map_length. destruct (counted L k r (xat (path w q) 0)) eqn:E; cbn [length Nat.mul].
  - f_equal. f_equal. apply filter_ext. intros c. cbn [fst snd]. rewrite E. reflexivity.
  - rewrite filter_none; [reflexivity|]. intros c _. cbn [fst snd]. rewrite E. reflexivity.
Qed.
Print Assumptions C59_multiplicity_partial.
Example C59_example : inner_boundary 4 2 (xat (path sx_walk 1) 0) = true /\ inner_boundary 4 2 (yat (path sx_walk 1) 0) = false /\ inner_boundary 4 2 (xat (path sx_walk 0) 0) = false.
Proof. auto. Qed.

(** C60 In every chunk, and for every particle of it, the localized exposure time is at most the system-wide one. *)
Theorem C60_localized_le_systemwide :
  forall (w : walk f64) L W ct k lo sy, walk_on L W w -> rect_walk w -> nrow ct = L -> ncol ct = W -> 0 < k ->
    (forall q i, (q < count w)%nat -> (i < length (r_x (path w q)))%nat -> nisfin (tat (path w q) i) = true) ->
    (forall q i, (q < count w)%nat -> (S i < length (r_x (path w q)))%nat -> nleb (tat (path w q) i) (tat (path w q) (S i)) = true) ->
    localized w (L, W) ct k = Ok lo -> systemwide w (L, W) ct k = Ok sy ->
    length lo = length sy /\
    forall r c, 0 <= r < L / k -> 0 <= c < W / k ->
      match entry lo W k r c, entry sy W k r c with
      | None, None => True
      | Some a, Some b => Forall2 (fun x y => nleb x y = true) a b
      | _, _ => False
      end.
Proof.
  intros w L W ct k lo sy ON RW A B K F M EL ES. rewrite localized_ok in EL by assumption. rewrite systemwide_ok in ES by assumption.
  apply (f_equal (fun r => match r with Ok x => x | Err _ => [] end)) in EL. apply (f_equal (fun r => match r with Ok x => x | Err _ => [] end)) in ES. cbv beta iota in EL, ES. subst lo sy.
  split.
  - rewrite !(flat_map_len _ (Z.to_nat (W / k))); [reflexivity | |]; intros; rewrite map_length, zrange_len; f_equal; lia.
  - intros r c R C. unfold entry. rewrite !flat_nth by assumption. apply local_le; try assumption. exact f_half_le.
Qed.
Print Assumptions C60_localized_le_systemwide.
Example C60_example :
  walk_on 4 4 sx_walk /\ (forall q i, (q < count sx_walk)%nat -> (S i < length (r_x (path sx_walk q)))%nat -> nleb (tat (path sx_walk q) i) (tat (path sx_walk q) (S i)) = true) /\
  match localized sx_walk (4, 4) sx_ct 2, systemwide sx_walk (4, 4) sx_ct 2 with
  | Ok lo, Ok sy => match entry lo 4 2 1 0, entry sy 4 2 1 0 with Some [a], Some [b] => neqb a (nofZ 2) = true /\ neqb b (nofZ 2) = true | _, _ => False end
  | _, _ => False end.
Proof.
  split; [exact sx_on|]. split.
  - intros q i Hq. change (q < 2)%nat in Hq. destruct q as [|[|q]]; [| |lia]; intros Hi; cbn in Hi; (destruct i as [|[|i]]; [vm_compute; reflexivity | first [vm_compute; reflexivity | lia] | lia]).
  - vm_compute. auto.
Qed.

(** C61 (exact arithmetic) What the filter computes: NaN stays NaN; otherwise, with m the median of the numbers in the window and d the median of their
    distances from m, the value is m if d = 0 and else the mean of the numbers within threshold * d of m. *)
Theorem C61_definition :
  forall (a : arr xq) size thr i j, finite_or_nan a -> 0 <= size -> (1 <= thr)%Qc -> 0 <= i < nrow a -> 0 <= j < ncol a ->
    let out := mad_filter a size (XFin thr) in
    nrow out = nrow a /\ ncol out = ncol a /\ (cell a i j = XNaN -> cell out i j = XNaN) /\
    (cell a i j <> XNaN -> exists m d v, cell out i j = XFin v /\ is_median (window_vals a size i j) m /\ is_median (map (dist m) (window_vals a size i j)) d /\
       (d = 0%Qc -> v = m) /\ (d <> 0%Qc -> is_mean (filter (fun x => Qcleb (dist m x) (thr * d)) (window_vals a size i j)) v)).
Proof.
  intros a size thr i j FN HS TH HI HJ. cbv zeta. split; [reflexivity|]. split; [reflexivity|].
  destruct (mad_filter_cell a size (XFin thr) i j FN HS HI HJ) as (-> & NE). split; [intros ->; reflexivity|]. intros NN. specialize (NE NN).
  destruct (mad_value_ok _ thr NE TH) as (m & d & v & E & H). exists m, d, v. split; [|exact H].
  destruct (FN i j HI HJ) as [C|(u & ->)]; [contradiction | exact E].
Qed.
Print Assumptions C61_definition.
(** Each value lies between two numbers of the window, and a window whose numbers are all equal keeps that number. *)
Theorem C61_within_window :
  forall (a : arr xq) size thr i j, finite_or_nan a -> 0 <= size -> (1 <= thr)%Qc -> 0 <= i < nrow a -> 0 <= j < ncol a ->
    cell a i j <> XNaN -> exists v p q p' q' lo hi, cell (mad_filter a size (XFin thr)) i j = XFin v /\
      in_window a size i j p q /\ cell a p q = XFin lo /\ in_window a size i j p' q' /\ cell a p' q' = XFin hi /\ (lo <= v)%Qc /\ (v <= hi)%Qc.
Proof.
  intros a size thr i j FN HS TH HI HJ NN. destruct (mad_filter_cell a size (XFin thr) i j FN HS HI HJ) as (E & NE). specialize (NE NN).
  destruct (mad_value_ok _ thr NE TH) as (m & d & v & EV & _). exists v.
  destruct (minl_ok _ NE) as (lo & _ & IL & ML). destruct (maxl_ok _ NE) as (hi & _ & IH & MH).
  apply window_vals_in in IL as (p & q & I1 & E1). apply window_vals_in in IH as (p' & q' & I2 & E2). exists p, q, p', q', lo, hi.
  split; [rewrite E; destruct (FN i j HI HJ) as [C|(u & ->)]; [contradiction | exact EV]|]. split; [exact I1|]. split; [exact E1|]. split; [exact I2|]. split; [exact E2|].
  apply (mad_value_between _ thr v lo hi NE TH EV). intros x Hx. split; [apply ML, Hx | apply MH, Hx].
Qed.
Print Assumptions C61_within_window.
Theorem C61_constant :
  forall (a : arr xq) size thr i j c, finite_or_nan a -> 0 <= size -> (1 <= thr)%Qc -> 0 <= i < nrow a -> 0 <= j < ncol a -> cell a i j <> XNaN ->
    (forall p q, in_window a size i j p q -> cell a p q = XNaN \/ cell a p q = XFin c) -> cell (mad_filter a size (XFin thr)) i j = XFin c.
Proof.
  intros a size thr i j c FN HS TH HI HJ NN H. destruct (C61_within_window a size thr i j FN HS TH HI HJ NN) as (v & p & q & p' & q' & lo & hi & E & I1 & E1 & I2 & E2 & A & B).
  destruct (H p q I1) as [X|X]; rewrite E1 in X; [discriminate|]. destruct (H p' q' I2) as [Y|Y]; rewrite E2 in Y; [discriminate|]. injection X as ->. injection Y as ->.
  rewrite E. f_equal. apply Qcle_antisym; assumption.
Qed.
Print Assumptions C61_constant.
Definition qarr (l : list Z) : arr xq := Arr 1 (Z.of_nat (length l)) (fun _ j => nth (Z.to_nat j) (map (fun z => XFin (Q2Qc (z # 10))) l) XNaN).
Lemma qarr_ok l : finite_or_nan (qarr l).
Proof. intros i j _ Hj. right. cbn [nrow ncol qarr cell] in *. exists (Q2Qc (nth (Z.to_nat j) l 0 # 10)). rewrite (nth_indep _ XNaN (XFin (Q2Qc (0 # 10)))) by (rewrite map_length; lia). apply (map_nth (fun z => XFin (Q2Qc (z # 10)))). Qed.
Definition xqv (z : Z) (d : positive) : xq := XFin (Q2Qc (z # d)).
Example C61_example :
  finite_or_nan (qarr [0; 100; 101; 102; 101]) /\ (1 <= Q2Qc 3)%Qc /\
  neqb (cell (mad_filter (qarr [0; 100; 101; 102; 101]) 5 (xqv 3 1)) 0 2) (xqv 101 10) = true.
Proof. split; [apply qarr_ok|]. split; [unfold Qcle; cbn; Lqa.lra|]. vm_compute. reflexivity. Qed.
(** Below 1 the filter may reject every value: the cell becomes NaN although it and its whole window are numbers. *)
Theorem C61_small_threshold_refuted :
  exists (a : arr xq) thr, finite_or_nan a /\ (0 < thr)%Qc /\ cell a 0 0 <> XNaN /\ cell (mad_filter a 5 (XFin thr)) 0 0 = XNaN.
Proof. exists (qarr [0; 20]), (Q2Qc (1 # 2)). split; [apply qarr_ok|]. split; [reflexivity|]. split; [discriminate | vm_compute; reflexivity]. Qed.
Print Assumptions C61_small_threshold_refuted.

(** C76 Refuted: smoothing does not keep the order of the maps (E50 <= E75 <= E90 before smoothing does not give E50 <= E75 <= E90 after it), even with the
    default window 5 and threshold 3. *)
Theorem C76_refuted :
  exists a b : arr xq, finite_or_nan a /\ finite_or_nan b /\ nrow a = nrow b /\ ncol a = ncol b /\
    (forall i j, 0 <= i < nrow a -> 0 <= j < ncol a -> nleb (cell a i j) (cell b i j) = true) /\
    nltb (cell (mad_filter b 5 (nofZ 3)) 0 2) (cell (mad_filter a 5 (nofZ 3)) 0 2) = true.
Proof.
  exists (qarr [0; 100; 101; 102; 101]), (qarr [0; 100; 101; 136; 136]). split; [apply qarr_ok|]. split; [apply qarr_ok|]. split; [reflexivity|]. split; [reflexivity|]. split.
  - intros i j _ Hj. cbn in Hj. assert (J : j = 0 \/ j = 1 \/ j = 2 \/ j = 3 \/ j = 4) by lia. destruct J as [-> | [-> | [-> | [-> | ->]]]]; vm_compute; reflexivity.
  - vm_compute. reflexivity.
Qed.
Print Assumptions C76_refuted.
(** What does hold.  The order is kept at a cell if the two maps have their numbers at the same places of the window, in order, and neither window has an
    outlier: no number is further from the window's median than the threshold times the median distance. *)
Definition no_outlier (l : list Qc) (thr : Qc) : Prop :=
  exists m d, is_median l m /\ is_median (map (dist m) l) d /\ forall x, In x l -> (dist m x <= thr * d)%Qc.
Theorem C76_without_outliers_partial :
  forall (a b : arr xq) size thr i j, finite_or_nan a -> finite_or_nan b -> nrow a = nrow b -> ncol a = ncol b -> 0 <= size -> (1 <= thr)%Qc ->
    0 <= i < nrow a -> 0 <= j < ncol a -> cell a i j <> XNaN ->
    (forall p q, in_window a size i j p q -> (cell a p q = XNaN /\ cell b p q = XNaN) \/ exists x y, cell a p q = XFin x /\ cell b p q = XFin y /\ (x <= y)%Qc) ->
    no_outlier (window_vals a size i j) thr -> no_outlier (window_vals b size i j) thr ->
    nleb (cell (mad_filter a size (XFin thr)) i j) (cell (mad_filter b size (XFin thr)) i j) = true.
Proof.
  intros a b size thr i j FA FB ER EC HS TH HI HJ NN H OA OB.
  assert (HW : in_window a size i j i j) by (assert (0 <= size / 2) by (apply Z.div_pos; lia); unfold in_window; lia).
  assert (NB : cell b i j <> XNaN) by (destruct (H i j HW) as [(C & _)|(x & y & _ & -> & _)]; [contradiction | discriminate]).
  assert (HI' : 0 <= i < nrow b) by lia. assert (HJ' : 0 <= j < ncol b) by lia.
  destruct (C61_definition a size thr i j FA HS TH HI HJ) as (_ & _ & _ & DA). destruct (DA NN) as (ma & da & va & EA & _).
  destruct (C61_definition b size thr i j FB HS TH HI' HJ') as (_ & _ & _ & DB). destruct (DB NB) as (mb & db & vb & EB & _).
  destruct (mad_filter_cell a size (XFin thr) i j FA HS HI HJ) as (CA & NEA). destruct (mad_filter_cell b size (XFin thr) i j FB HS HI' HJ') as (CB & NEB).
  assert (MA : is_mean (window_vals a size i j) va).
  { apply (mad_value_mean _ thr); [apply NEA, NN | exact TH | | exact OA]. rewrite EA in CA. rewrite CA. destruct (FA i j HI HJ) as [C|(z & ->)]; [contradiction | reflexivity]. }
  assert (MB : is_mean (window_vals b size i j) vb).
  { apply (mad_value_mean _ thr); [apply NEB, NB | exact TH | | exact OB]. rewrite EB in CB. rewrite CB. destruct (FB i j HI' HJ') as [C|(z & ->)]; [contradiction | reflexivity]. }
  rewrite EA, EB. apply xq_leb. eapply mean_le; [|exact MA | exact MB]. apply window_vals_le; assumption.
Qed.
Print Assumptions C76_without_outliers_partial.
(** It is also kept, outliers or not, if in the window no number of the lower map exceeds any number of the upper one. *)
Theorem C76_separated_partial :
  forall (a b : arr xq) size thr i j, finite_or_nan a -> finite_or_nan b -> nrow a = nrow b -> ncol a = ncol b -> 0 <= size -> (1 <= thr)%Qc ->
    0 <= i < nrow a -> 0 <= j < ncol a -> cell a i j <> XNaN -> cell b i j <> XNaN ->
    (forall p q p' q' x y, in_window a size i j p q -> in_window b size i j p' q' -> cell a p q = XFin x -> cell b p' q' = XFin y -> (x <= y)%Qc) ->
    nleb (cell (mad_filter a size (XFin thr)) i j) (cell (mad_filter b size (XFin thr)) i j) = true.
Proof.
  intros a b size thr i j FA FB ER EC HS TH HI HJ NA NB H.
  destruct (C61_within_window a size thr i j FA HS TH HI HJ NA) as (v & _ & _ & p' & q' & _ & hi & E & _ & _ & IW & EH & _ & B).
  destruct (C61_within_window b size thr i j FB HS TH ltac:(lia) ltac:(lia) NB) as (u & p & q & _ & _ & lo & _ & E' & IW' & EL & _ & _ & A & _).
  rewrite E, E'. apply xq_leb. eapply Qcle_trans; [exact B|]. eapply Qcle_trans; [|exact A]. exact (H _ _ _ _ _ _ IW IW' EH EL).
Qed.
Print Assumptions C76_separated_partial.
Lemma c76_no_outlier k : k = 0 \/ k = 1 -> no_outlier [Q2Qc (k # 10); Q2Qc (k + 1 # 10); Q2Qc (k + 2 # 10)] (Q2Qc 3).
Proof.
  intros K.
  assert (S : forall x y z : Qc, (x <= y)%Qc -> (y <= z)%Qc -> StronglySorted Qcle [x; y; z]).
  { intros x y z A B. assert (C := Qcle_trans _ _ _ A B). repeat (constructor; [|repeat (constructor; [assumption|]); constructor]). constructor. }
  assert (D0 : dist (Q2Qc (k + 1 # 10)) (Q2Qc (k # 10)) = Q2Qc (1 # 10)) by (destruct K as [-> | ->]; apply Qc_is_canon; vm_compute; reflexivity).
  assert (D1 : dist (Q2Qc (k + 1 # 10)) (Q2Qc (k + 1 # 10)) = 0%Qc) by (destruct K as [-> | ->]; apply Qc_is_canon; vm_compute; reflexivity).
  assert (D2 : dist (Q2Qc (k + 1 # 10)) (Q2Qc (k + 2 # 10)) = Q2Qc (1 # 10)) by (destruct K as [-> | ->]; apply Qc_is_canon; vm_compute; reflexivity).
  exists (Q2Qc (k + 1 # 10)), (Q2Qc (1 # 10)).
  split. { eexists. split; [reflexivity|]. split; [|reflexivity]. apply S; destruct K as [-> | ->]; unfold Qcle; vm_compute; discriminate. }
  cbn [map]. rewrite D0, D1, D2. split.
  { exists [0%Qc; Q2Qc (1 # 10); Q2Qc (1 # 10)]. split; [apply perm_swap|]. split; [apply S; unfold Qcle; vm_compute; discriminate | reflexivity]. }
  intros x [<-|[<-|[<-|[]]]]; rewrite ?D0, ?D1, ?D2; unfold Qcle; vm_compute; discriminate.
Qed.
Example C76_example : finite_or_nan (qarr [0; 1; 2]) /\ finite_or_nan (qarr [1; 2; 3]) /\ (1 <= Q2Qc 3)%Qc /\
  (forall p q, in_window (qarr [0; 1; 2]) 5 0 1 p q -> exists x y, cell (qarr [0; 1; 2]) p q = XFin x /\ cell (qarr [1; 2; 3]) p q = XFin y /\ (x <= y)%Qc) /\
  no_outlier (window_vals (qarr [0; 1; 2]) 5 0 1) (Q2Qc 3) /\ no_outlier (window_vals (qarr [1; 2; 3]) 5 0 1) (Q2Qc 3).
Proof.
  split; [apply qarr_ok|]. split; [apply qarr_ok|]. split; [unfold Qcle; cbn; Lqa.lra|]. split.
  { intros p q (_ & Hq & _). cbn in Hq. assert (J : q = 0 \/ q = 1 \/ q = 2) by lia.
    destruct J as [-> | [-> | ->]]; eexists; eexists; (split; [reflexivity|]; split; [reflexivity | unfold Qcle; cbn; Lqa.lra]). }
  split; [exact (c76_no_outlier 0 (or_introl eq_refl)) | exact (c76_no_outlier 1 (or_intror eq_refl))].
Qed.
(** Separated windows: every number of the first map is below every number of the second. *)
Example C76_separated_example :
  forall p q p' q' x y, in_window (qarr [0; 1; 2]) 5 0 1 p q -> in_window (qarr [2; 50; 3]) 5 0 1 p' q' ->
    cell (qarr [0; 1; 2]) p q = XFin x -> cell (qarr [2; 50; 3]) p' q' = XFin y -> (x <= y)%Qc.
Proof.
  intros p q p' q' x y (_ & Hq & _) (_ & Hq' & _). cbn in Hq, Hq'. assert (J : q = 0 \/ q = 1 \/ q = 2) by lia. assert (J' : q' = 0 \/ q' = 1 \/ q' = 2) by lia.
  destruct J as [-> | [-> | ->]]; destruct J' as [-> | [-> | ->]]; cbn -[Q2Qc]; intros A B; injection A as <-; injection B as <-; unfold Qcle; cbn; Lqa.lra.
Qed.

(** C62 The percentiles of one chunk.  The sample is the list of exposure times without zeros and NaN; [kde] is the external density estimate (any function
    whose values on the grid are not negative and add up to a positive finite number).  With at least five different times there is a non-decreasing grid of
    1000 points from the smallest to the largest time such that E_p (in units of timedelta) is the first grid point at which the accumulated density reaches the
    share p of the total; with fewer all three are NaN. *)
Theorem C62_quantiles :
  forall kde (td : f64) (l : list f64), (forall x, In x l -> recorded x) -> nltb n0 td = true -> nisfin td = true ->
  (forall grid, length grid = 1000%nat -> length (kde (positive_of l) grid) = 1000%nat /\ density (kde (positive_of l) grid)) ->
  (five_distinct fpos l ->
   exists e50 e75 e90 grid i50 i75 i90, chunk_percentiles kde td (Some l) = Ok [e50; e75; e90] /\
    length grid = 1000%nat /\
    (In (nth 999 grid nnan) l /\ (exists lo, In lo l /\ fpos lo /\ neqb (nth 0 grid nnan) lo = true) /\ forall x, In x l -> fpos x -> nleb (nth 0 grid nnan) x = true /\ nleb x (nth 999 grid nnan) = true) /\
    (forall i j, (i <= j)%nat -> (j < 1000)%nat -> nleb (nth i grid nnan) (nth j grid nnan) = true) /\
    (i50 <= i75 <= i90)%nat /\
    first_reaching (kde (positive_of l) grid) nhalf i50 /\ first_reaching (kde (positive_of l) grid) (ndec 75 2) i75 /\ first_reaching (kde (positive_of l) grid) (ndec 9 1) i90 /\
    e50 = ndiv (nth i50 grid nnan) td /\ e75 = ndiv (nth i75 grid nnan) td /\ e90 = ndiv (nth i90 grid nnan) td) /\
  (~ five_distinct fpos l -> chunk_percentiles kde td (Some l) = Ok [nnan; nnan; nnan]).
Proof. intros kde td l R TD FT D. split; [intros F; apply percentiles_ok; assumption | apply percentiles_few; assumption]. Qed.
Print Assumptions C62_quantiles.
(** The maps before smoothing have one cell per chunk, E50 <= E75 <= E90 in every cell with at least five different times, and NaN elsewhere. *)
Theorem C62_ordered :
  forall kde (td : f64) data L W k, nltb n0 td = true -> nisfin td = true -> 0 < k -> 0 <= L -> 0 <= W -> Z.of_nat (length data) = (L / k) * (W / k) ->
  (forall l, In (Some l) data -> (forall x, In x l -> recorded x) /\
     forall grid, length grid = 1000%nat -> length (kde (positive_of l) grid) = 1000%nat /\ density (kde (positive_of l) grid)) ->
  exists E50 E75 E90, raw_thresholds kde data (L, W) td k = Ok [E50; E75; E90] /\
    (nrow E50 = L / k /\ ncol E50 = W / k) /\ (nrow E75 = L / k /\ ncol E75 = W / k) /\ (nrow E90 = L / k /\ ncol E90 = W / k) /\
    forall r c, 0 <= r < L / k -> 0 <= c < W / k ->
      match entry data W k r c with
      | Some l => (five_distinct fpos l -> nleb (cell E50 r c) (cell E75 r c) = true /\ nleb (cell E75 r c) (cell E90 r c) = true /\
                     (exists lo, In lo l /\ fpos lo /\ nleb (ndiv lo td) (cell E50 r c) = true) /\ (exists hi, In hi l /\ nleb (cell E90 r c) (ndiv hi td) = true)) /\
                  (~ five_distinct fpos l -> cell E50 r c = nnan /\ cell E75 r c = nnan /\ cell E90 r c = nnan)
      | None => cell E50 r c = nnan /\ cell E75 r c = nnan /\ cell E90 r c = nnan
      end.
Proof.
  intros kde td data L W k TD FT K HL HW LD D.
  set (pc := fun item => match chunk_percentiles kde td item with Ok t => t | Err _ => [] end).
  assert (DEC : forall l : list f64, (forall x, In x l -> recorded x) -> five_distinct fpos l \/ ~ five_distinct fpos l).
  { intros l R. rewrite (five_iff l R). lia. }
  assert (TOT : forall item, In item data -> chunk_percentiles kde td item = Ok (pc item)).
  { intros [l|] I; [|reflexivity]. destruct (D l I) as (R & KD). unfold pc. destruct (DEC l R) as [F|F].
    - destruct (percentiles_ok kde td l R TD FT F KD) as (a & b & c & g & i & j & h & -> & _). reflexivity.
    - rewrite (percentiles_few kde td l R F). reflexivity. }
  destruct (raw_ok kde td pc data L W k K HL HW LD TOT) as (a & LA & E & S).
  destruct a as [|E50 [|E75 [|E90 [|? ?]]]]; try discriminate. exists E50, E75, E90. split; [exact E|].
  destruct (S 0%nat) as (A1 & A2 & A3); [lia|]. destruct (S 1%nat) as (B1 & B2 & B3); [lia|]. destruct (S 2%nat) as (C1 & C2 & C3); [lia|]. cbn [nth] in A1, A2, A3, B1, B2, B3, C1, C2, C3.
  split; [split; assumption|]. split; [split; assumption|]. split; [split; assumption|]. intros r c R C. rewrite A3, B3, C3 by assumption.
  assert (BD : (Z.to_nat (r * (W / k) + c) < length data)%nat) by nia.
  pose proof (nth_In data None BD) as IN. fold (entry data W k r c) in IN. destruct (entry data W k r c) as [l|] eqn:EN; [|unfold pc; cbn; auto].
  destruct (D l IN) as (RC & KD). split.
  - intros F. destruct (percentiles_ok kde td l RC TD FT F KD) as (a & b & e & g & i & j & h & EQ & LG & (G9 & (lo & IL & FL & G0) & GB) & GM & IJ & R1 & R2 & R3 & -> & -> & ->).
    assert (X : pc (Some l) = [ndiv (nth i g nnan) td; ndiv (nth j g nnan) td; ndiv (nth h g nnan) td]) by (unfold pc; rewrite EQ; reflexivity). rewrite X. cbn [nth].
    destruct (KD g LG) as (LK & _). destruct R3 as (H3 & _). rewrite LK in H3.
    split; [apply f_div_mono; [apply GM; lia | exact TD | exact FT]|]. split; [apply f_div_mono; [apply GM; lia | exact TD | exact FT]|]. split.
    + exists lo. split; [exact IL|]. split; [exact FL|]. apply f_div_mono; [|exact TD | exact FT]. eapply leb_trans; [|apply (GM 0%nat i); lia]. rewrite eqb_def in G0. apply andb_true_iff in G0. apply G0.
    + exists (nth 999 g nnan). split; [exact G9|]. apply f_div_mono; [apply (GM h 999%nat); lia | exact TD | exact FT].
  - intros F. assert (X : pc (Some l) = [nnan; nnan; nnan]) by (unfold pc; rewrite (percentiles_few kde td l RC F); reflexivity). rewrite X. cbn [nth]. auto.
Qed.
Print Assumptions C62_ordered.
(** compute_thresholds returns the three smoothed maps; every chunk with fewer than five different times stays NaN. *)
Theorem C62_maps :
  forall kde (td : f64) data L W k size thr, nltb n0 td = true -> nisfin td = true -> 0 < k -> 0 <= L -> 0 <= W -> Z.of_nat (length data) = (L / k) * (W / k) ->
  (forall l, In (Some l) data -> (forall x, In x l -> recorded x) /\
     forall grid, length grid = 1000%nat -> length (kde (positive_of l) grid) = 1000%nat /\ density (kde (positive_of l) grid)) ->
  exists R50 R75 R90 E50 E75 E90, raw_thresholds kde data (L, W) td k = Ok [R50; R75; R90] /\
    compute_thresholds kde data (L, W) td k size thr = Ok [E50; E75; E90] /\
    E50 = mad_filter R50 size thr /\ E75 = mad_filter R75 size thr /\ E90 = mad_filter R90 size thr /\
    forall r c, 0 <= r < L / k -> 0 <= c < W / k ->
      match entry data W k r c with Some l => ~ five_distinct fpos l | None => True end -> nisnan (cell E50 r c) = true /\ nisnan (cell E75 r c) = true /\ nisnan (cell E90 r c) = true.
Proof.
  intros kde td data L W k size thr TD FT K HL HW LD D. destruct (C62_ordered kde td data L W k TD FT K HL HW LD D) as (A & B & C & E & _ & _ & _ & H).
  exists A, B, C, (mad_filter A size thr), (mad_filter B size thr), (mad_filter C size thr). split; [exact E|]. unfold compute_thresholds. rewrite E. cbn [bind map]. split; [reflexivity|]. split; [reflexivity|]. split; [reflexivity|]. split; [reflexivity|].
  intros r c R0 C0 N. specialize (H r c R0 C0).
  assert (X : cell A r c = nnan /\ cell B r c = nnan /\ cell C r c = nnan) by (destruct (entry data W k r c) as [l|]; [apply H; exact N | exact H]). destruct X as (XA & XB & XC).
  unfold mad_filter. cbn [cell]. rewrite XA, XB, XC. auto.
Qed.
Print Assumptions C62_maps.
(** A uniform density meets the hypotheses. *)
Definition flat_kde (s g : list f64) : list f64 := map (fun _ => n1) g.
Lemma flat_mass (g : list f64) i : (i < length g)%nat -> Z.of_nat (length g) <= 1000 -> mass (flat_kde [] g) i = nofZ (Z.of_nat i + 1).
Proof.
  intros Hi Hg. induction i as [|i IH]; [destruct g; [cbn in Hi; lia | reflexivity]|]. rewrite mass_S by (unfold flat_kde; rewrite map_length; exact Hi). rewrite IH by lia.
  unfold flat_kde. rewrite (nth_indep _ n0 ((fun _ : f64 => n1) n0)) by (rewrite map_length; exact Hi). rewrite (map_nth (fun _ : f64 => n1) g n0). rewrite ofZ_succ by lia. f_equal. lia.
Qed.
Lemma flat_density (s g : list f64) : length g = 1000%nat -> length (flat_kde s g) = 1000%nat /\ density (flat_kde s g).
Proof.
  intros HG. assert (LG : length (flat_kde s g) = 1000%nat) by (unfold flat_kde; rewrite map_length; exact HG). split; [exact LG|]. split; [|rewrite LG].
  - intros x Hx. apply in_map_iff in Hx as (_ & <- & _). reflexivity.
  - change (flat_kde s g) with (flat_kde [] g). rewrite flat_mass by (rewrite HG; lia). split; [apply ofZ_lt; lia | apply ofZ_fin; lia].
Qed.
Definition sx_times : list f64 := [n0; n1; nofZ 2; nofZ 3; nofZ 2; nofZ 4; nofZ 5].
Lemma fpos_Z z : 1 <= z <= 1000 -> fpos (nofZ z).
Proof.
  intros Hz. cbn [nofZ F64num]. destruct (fofZ_exact z ltac:(lia)) as (F & B). split; [exact F|]. rewrite B. apply Rle_trans with 1%R; [|apply IZR_le; lia].
  change 1%R with (bpow radix2 0). apply bpow_le. lia.
Qed.
Example C62_example :
  (forall x, In x sx_times -> recorded x) /\ five_distinct fpos sx_times /\ ~ five_distinct fpos [n1 : f64; nofZ 2] /\
  exists a b c, chunk_percentiles flat_kde (nofZ 60) (Some sx_times) = Ok [a; b; c] /\ nleb a b = true.
Proof.
  assert (R : forall x, In x sx_times -> recorded x).
  { intros x [<-|[<-|[<-|[<-|[<-|[<-|[<-|[]]]]]]]]; try (right; right; apply fpos_Z; lia). left. reflexivity. }
  assert (F : five_distinct fpos sx_times).
  { exists [nofZ 1; nofZ 2; nofZ 3; nofZ 4; nofZ 5]. split; [|split; [reflexivity|]].
    - assert (INJ : forall a b, 1 <= a <= 5 -> 1 <= b <= 5 -> a <> b -> (nofZ a : f64) <> nofZ b).
      { intros a b Ha Hb NE E. apply (f_equal (fun x : f64 => B2R x)) in E. cbn [nofZ F64num] in E. rewrite (proj2 (fofZ_exact a ltac:(lia))), (proj2 (fofZ_exact b ltac:(lia))) in E. apply eq_IZR in E. contradiction. }
      repeat constructor; cbn [In]; intuition (try contradiction); match goal with H : nofZ ?a = nofZ ?b |- _ => apply (INJ a b) in H; [exact H | lia | lia | lia] end.
    - intros x [<-|[<-|[<-|[<-|[<-|[]]]]]]; (split; [cbn; tauto | apply fpos_Z; lia]). }
  split; [exact R|]. split; [exact F|]. split.
  - intros (s & D & L & I). assert (X : (length s <= length [n1 : f64; nofZ 2])%nat) by (apply NoDup_incl_length; [exact D | intros x Hx; apply I, Hx]). cbn in X. lia.
  - destruct (C62_quantiles flat_kde (nofZ 60) sx_times R) as (Q & _); [apply ofZ_lt; lia | apply ofZ_fin; lia | intros; apply flat_density; assumption|].
    destruct (Q F) as (a & b & c & g & i & j & h & E & LG & _ & GM & IJ & R1 & R2 & R3 & -> & -> & ->). do 3 eexists. split; [exact E|].
    destruct R2 as (H2 & _). rewrite (proj1 (flat_density _ g LG)) in H2. apply f_div_mono; [apply GM; lia | apply ofZ_lt; lia | apply ofZ_fin; lia].
Qed.
