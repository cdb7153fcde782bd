(** Properties C109, C110: the nourishment maps do not depend on the order of the particles. *)
From Coq Require Import ZArith Bool String List Lia Permutation QArith Qcanon.
From Verif Require Import Num NumFacts NumMore NumPost F64 F64Laws XQ XQLaws XQFacts Py Walker ParticleTrack SpecWalk SpecPost SpecOrder PostProc ProofPost ProofNour ProofSym Examples P_Post P_Nour.
Import ListNotations.
Open Scope Z_scope.

Section Order.
Context {T : Type} {N : Num T}.
Definition row_visits (x y : Z) (r : prow T) : Z := Z.of_nat (length (filter (fun i => (xat r i =? x) && (yat r i =? y)) (seq 0 (length (r_x r))))).
Lemma flat_len {A B} (f : A -> list B) l : Z.of_nat (length (flat_map f l)) = zsum (map (fun a => Z.of_nat (length (f a))) l).
Proof. induction l as [|a l IH]; [reflexivity|]. cbn [flat_map map zsum fold_right]. rewrite app_length, Nat2Z.inj_add, IH. reflexivity. Qed.
Lemma visits_rows (w : walk T) x y : visits w x y = zsum (map (row_visits x y) (paths w)).
Proof.
  unfold visits, record_ids, paths. rewrite filter_flat_map, flat_len, map_map. f_equal. apply map_ext. intros q. unfold row_visits. rewrite filter_map, map_length. reflexivity.
Qed.
Lemma zsum_perm l l' : Permutation l l' -> zsum l = zsum l'.
Proof. unfold zsum. intros H. induction H; cbn [fold_right] in *; lia. Qed.
Lemma visits_order (w w' : walk T) x y : reordered w w' -> visits w x y = visits w' x y.
Proof. intros R. rewrite !visits_rows. apply zsum_perm, Permutation_map, R. Qed.
Lemma records_order (w w' : walk T) : reordered w w' -> length (record_ids w) = length (record_ids w').
Proof.
  intros R. assert (E : forall v : walk T, Z.of_nat (length (record_ids v)) = zsum (map (fun r => Z.of_nat (length (r_x r))) (paths v))).
  { intros v. unfold record_ids, paths. rewrite flat_len, map_map. f_equal. apply map_ext. intros q. rewrite map_length, seq_length. reflexivity. }
  apply Nat2Z.inj. rewrite !E. apply zsum_perm, Permutation_map, R.
Qed.
Lemma walk_on_order (w w' : walk T) L W : reordered w w' -> walk_on L W w -> shaped [] w' -> walk_on L W w'.
Proof.
  intros R (_ & H) S'. split; [exact S'|]. intros q Hq. assert (I : In (path w' q) (paths w')) by (apply in_map, in_seq; lia).
  apply (Permutation_in _ (Permutation_sym R)) in I. apply in_map_iff in I as (q0 & <- & I). apply H. apply in_seq in I. lia.
Qed.
Definition row_stays (x y : Z) (r : prow T) : list T :=
  map (fun i => nmul nhalf (nadd (nsub (tat r i) (tat r (i - 1))) (nsub (tat r (S i)) (tat r i))))
      (filter (fun i => (xat r i =? x) && (yat r i =? y)) (filter (fun i => (1 <=? i)%nat && (S i <? length (r_x r))%nat) (seq 0 (length (r_x r))))).
Lemma stays_rows (w : walk T) x y : stays w x y = flat_map (row_stays x y) (paths w).
Proof.
  unfold stays, interior_ids, record_ids, paths. rewrite !filter_flat_map, flat_map_map, flat_map_of_map. apply flat_map_ext. intros q. unfold row_stays. rewrite !filter_map, map_map. reflexivity.
Qed.
Lemma stays_order (w w' : walk T) x y : reordered w w' -> Permutation (stays w x y) (stays w' x y).
Proof. intros R. rewrite !stays_rows. apply Permutation_flat_map, R. Qed.

Lemma same_amap_in (f : T -> T) a b : same_raster a b -> same_raster (amap f a) (amap f b).
Proof. intros (A & B & C). split; [exact A|]. split; [exact B|]. intros x y Hx Hy. cbn [amap cell] in *. rewrite (C x y Hx Hy). reflexivity. Qed.
Lemma same_cells (a b : arr T) : same_raster a b -> cells a = cells b.
Proof. intros (A & B & C). apply cells_ext; assumption. Qed.
Lemma finish_same gaussian sigma (a b : arr T) : looks_at_values gaussian -> same_raster a b ->
  same_raster (if nltb n0 sigma then let g := gaussian sigma a in nan_where (np_min (cells g)) g else nan_where n0 a)
              (if nltb n0 sigma then let g := gaussian sigma b in nan_where (np_min (cells g)) g else nan_where n0 b).
Proof.
  intros G S. destruct (nltb n0 sigma); cbv zeta; [|apply same_amap_in, S]. specialize (G sigma a b S). rewrite (same_cells _ _ G). apply same_amap_in, G.
Qed.
Context {NL : NumLaws T} {NM : NumMore T} {NP : NumPost T}.
Lemma area_same gaussian (w w' : walk T) L W sigma clip : looks_at_values gaussian -> walk_on L W w -> walk_on L W w' ->
  Z.of_nat (length (record_ids w)) <= 2 ^ 53 -> Z.of_nat (length (record_ids w')) <= 2 ^ 53 -> (forall x y, 0 <= x < L -> 0 <= y < W -> visits w x y = visits w' x y) ->
  same_outcome (nourishment_area gaussian w (L, W) sigma clip) (nourishment_area gaussian w' (L, W) sigma clip).
Proof.
  intros G On On' B B' V. destruct (visit_count_ok w L W On B) as (v & E & A1 & A2 & A3). destruct (visit_count_ok w' L W On' B') as (v' & E' & A1' & A2' & A3').
  assert (S : same_raster v v') by (split; [congruence|]; split; [congruence|]; intros x y Hx Hy; rewrite A1 in Hx; rewrite A2 in Hy; rewrite A3, A3', V by assumption; reflexivity).
  unfold nourishment_area. rewrite E, E'. cbn [bind]. rewrite <- (same_cells _ _ S). destruct (np_nanpercentile (cells v) clip) as [vmax|e]; [|reflexivity]. cbn [bind].
  pose proof (finish_same gaussian sigma _ _ G (same_amap_in (np_clip vmax) _ _ S)) as F. cbv zeta in *.
  match goal with |- context [match cells ?a with _ => _ end] => set (r := a) in *; match goal with |- same_outcome _ (match cells ?b with _ => _ end) => set (r' := b) in * end end.
  rewrite <- (same_cells _ _ F). destruct (cells r); [reflexivity|]. apply same_amap_in, F.
Qed.
Lemma time_same gaussian (w w' : walk T) L W sigma clip : looks_at_values gaussian -> walk_on L W w -> walk_on L W w' ->
  Z.of_nat (length (record_ids w)) <= 2 ^ 53 -> Z.of_nat (length (record_ids w')) <= 2 ^ 53 ->
  (forall x y, 0 <= x < L -> 0 <= y < W -> length (stays w x y) = length (stays w' x y) /\ fold_left nadd (stays w x y) n0 = fold_left nadd (stays w' x y) n0) ->
  same_outcome (nourishment_time gaussian w (L, W) sigma clip) (nourishment_time gaussian w' (L, W) sigma clip).
Proof.
  intros G On On' B B' V. destruct (occupation_ok w L W On B) as (v & t & E & A1 & A2 & A3 & A4 & A5). destruct (occupation_ok w' L W On' B') as (v' & t' & E' & A1' & A2' & A3' & A4' & A5').
  unfold nourishment_time. rewrite E, E'. cbn [bind].
  assert (S : same_raster (amap2 (fun t n => if neqb n n0 then n0 else ndiv t n) t v) (amap2 (fun t n => if neqb n n0 then n0 else ndiv t n) t' v')).
  { split; [cbn; congruence|]. split; [cbn; congruence|]. intros x y Hx Hy. cbn [amap2 nrow ncol cell] in *. rewrite A3 in Hx. rewrite A4 in Hy.
    destruct (A5 x y Hx Hy) as (-> & ->). destruct (A5' x y Hx Hy) as (-> & ->). destruct (V x y Hx Hy) as (-> & ->). reflexivity. }
  rewrite <- (same_cells _ _ S). destruct (np_nanpercentile _ clip) as [vmax|e]; [|reflexivity]. cbn [bind]. exact (finish_same gaussian sigma _ _ G (same_amap_in (np_clip vmax) _ _ S)).
Qed.
End Order.

Lemma fold_right_zadd l z : fold_right Z.add z l = fold_right Z.add 0 l + z.
Proof. induction l as [|a l IH]; cbn [fold_right]; [reflexivity | rewrite IH; lia]. Qed.
Lemma seq_shift_by n k j : map (Nat.add n) (seq j k) = seq (n + j) k.
Proof. revert j. induction k as [|k IH]; intros j; [reflexivity|]. cbn [seq map]. rewrite IH. f_equal. f_equal. lia. Qed.
Lemma app_paths {T} {N : Num T} (w1 w2 : walk T) : shaped [] w1 -> paths (walk_app w1 w2) = paths w1 ++ paths w2.
Proof.
  intros S1. unfold paths. replace (count (walk_app w1 w2)) with (count w1 + count w2)%nat by (unfold count, walk_app; cbn [xinds]; rewrite app_length; reflexivity).
  rewrite seq_app, map_app. f_equal.
  - apply map_ext_in. intros q Hq. apply in_seq in Hq. rewrite path_app by exact S1. rewrite (proj2 (Nat.ltb_lt _ _)) by lia. reflexivity.
  - change (seq (0 + count w1) (count w2)) with (seq (count w1) (count w2)). replace (seq (count w1) (count w2)) with (map (Nat.add (count w1)) (seq 0 (count w2))) by (rewrite seq_shift_by, Nat.add_0_r; reflexivity). rewrite map_map. apply map_ext. intros q. rewrite path_app by exact S1.
    rewrite (proj2 (Nat.ltb_ge _ _)) by lia. f_equal. lia.
Qed.
Lemma xadd_assoc (x y z : xq) : nadd x (nadd y z) = nadd (nadd x y) z.
Proof. destruct x as [|[|]|a], y as [|[|]|b], z as [|[|]|c]; try reflexivity. cbn. apply f_equal. ring. Qed.
Lemma fold_perm (l l' : list xq) : Permutation l l' -> forall a, fold_left nadd l a = fold_left nadd l' a.
Proof.
  induction 1; intros b; cbn [fold_left]; [reflexivity | auto | | congruence].
  f_equal. rewrite <- !xadd_assoc. f_equal. apply xadd_comm.
Qed.

(** C109 The nourishment map of a set of particles depends on nothing but how often each cell was recorded, ... *)
Theorem C109_area_from_counts :
  forall gaussian (w w' : walk f64) L W sigma clip,
    looks_at_values gaussian -> walk_on L W w -> walk_on L W w' -> Z.of_nat (length (record_ids w)) <= 2 ^ 53 -> Z.of_nat (length (record_ids w')) <= 2 ^ 53 ->
    (forall x y, 0 <= x < L -> 0 <= y < W -> visits w x y = visits w' x y) ->
    same_outcome (nourishment_area gaussian w (L, W) sigma clip) (nourishment_area gaussian w' (L, W) sigma clip).
Proof. exact area_same. Qed.
Print Assumptions C109_area_from_counts.
(** ... so it is the same whatever order the particles are in, ... *)
Theorem C109_particle_order :
  forall gaussian (w w' : walk f64) L W sigma clip,
    looks_at_values gaussian -> walk_on L W w -> shaped [] w' -> reordered w w' -> Z.of_nat (length (record_ids w)) <= 2 ^ 53 ->
    same_outcome (nourishment_area gaussian w (L, W) sigma clip) (nourishment_area gaussian w' (L, W) sigma clip).
Proof.
  intros gaussian w w' L W sigma clip G On S' R B. apply area_same; try assumption.
  - exact (walk_on_order w w' L W R On S').
  - rewrite <- (records_order w w' R). exact B.
  - intros x y _ _. exact (visits_order w w' x y R).
Qed.
Print Assumptions C109_particle_order.
(** ... whichever of two batches of particles comes first, the counts of the batches being added. *)
Theorem C109_batches :
  forall gaussian (w1 w2 : walk f64) L W sigma clip,
    looks_at_values gaussian -> walk_on L W w1 -> walk_on L W w2 -> Z.of_nat (length (record_ids w1)) + Z.of_nat (length (record_ids w2)) <= 2 ^ 53 ->
    same_outcome (nourishment_area gaussian (walk_app w1 w2) (L, W) sigma clip) (nourishment_area gaussian (walk_app w2 w1) (L, W) sigma clip) /\
    forall x y, visits (walk_app w1 w2) x y = visits w1 x y + visits w2 x y.
Proof.
  intros gaussian w1 w2 L W sigma clip G On1 On2 B.
  assert (R : reordered (walk_app w1 w2) (walk_app w2 w1)) by (unfold reordered; rewrite !app_paths by (first [apply On1 | apply On2]); apply Permutation_app_comm).
  split.
  - apply C109_particle_order; try assumption; [apply walk_app_on; assumption | apply (walk_app_on L W); assumption |].
    assert (E : forall v : walk f64, Z.of_nat (length (record_ids v)) = zsum (map (fun r => Z.of_nat (length (r_x r))) (paths v))).
    { intros v. unfold record_ids, paths. rewrite flat_len, map_map. f_equal. apply map_ext. intros q. rewrite map_length, seq_length. reflexivity. }
    rewrite E, app_paths, map_app by apply On1. rewrite E, E in B. unfold zsum in *. rewrite fold_right_app.
    rewrite (fold_right_zadd _ (fold_right Z.add 0 _)). lia.
  - intros x y. rewrite !visits_rows, app_paths, map_app by apply On1. unfold zsum. rewrite fold_right_app. apply fold_right_zadd.
Qed.
Print Assumptions C109_batches.

(** C110 In exact arithmetic the map of mean residence times does not depend on the order of the particles either. *)
Theorem C110_particle_order_partial :
  forall gaussian (w w' : walk xq) L W sigma clip,
    looks_at_values gaussian -> walk_on L W w -> shaped [] w' -> reordered w w' -> Z.of_nat (length (record_ids w)) <= 2 ^ 53 ->
    same_outcome (nourishment_time gaussian w (L, W) sigma clip) (nourishment_time gaussian w' (L, W) sigma clip).
Proof.
  intros gaussian w w' L W sigma clip G On S' R B. apply time_same; try assumption.
  - exact (walk_on_order w w' L W R On S').
  - rewrite <- (records_order w w' R). exact B.
  - intros x y _ _. pose proof (stays_order w w' x y R) as P. split; [exact (Permutation_length P) | exact (fold_perm _ _ P n0)].
Qed.
Print Assumptions C110_particle_order_partial.

(** Refuted in floating point: the times of a cell are added one particle after the other, so the order of the particles can change the mean. Three
    particles rest in one cell, one of them for 1 and two of them for 2^-53. *)
Definition tiny : f64 := ndiv n1 (nofZ (2 ^ 53)).
Definition or_rest (t : f64) : list f64 := [n0; t; nadd t t].
Definition or_walk (ts : list f64) : walk f64 :=
  {| xinds := map (fun _ => [0; 0; 0]) ts; yinds := map (fun _ => [0; 0; 0]) ts; times := map or_rest ts; opts := [] |}.
Definition or_a : walk f64 := or_walk [n1; tiny; tiny].
Definition or_b : walk f64 := or_walk [tiny; tiny; n1].
Lemma or_on : walk_on 1 1 or_a /\ walk_on 1 1 or_b.
Proof.
  split; (split; [repeat split; intros; cbn in *; try contradiction; repeat constructor|]); intros q Hq; change (q < 3)%nat in Hq;
    destruct q as [|[|[|q]]]; try lia; (split; [repeat split; cbn; lia|]); intros i Hi; change (i < 3)%nat in Hi; destruct i as [|[|[|i]]]; try lia; cbn; lia.
Qed.
Lemma or_reordered : reordered or_a or_b.
Proof.
  unfold reordered. change (paths or_a) with ([path or_a 0] ++ [path or_a 1; path or_a 2]). change (paths or_b) with ([path or_a 1; path or_a 2] ++ [path or_a 0]).
  apply Permutation_app_comm.
Qed.
Theorem C110_rounding_refuted :
  walk_on 1 1 or_a /\ walk_on 1 1 or_b /\ reordered or_a or_b /\ forall gaussian,
    match nourishment_time gaussian or_a (1, 1) n0 (nofZ 100), nourishment_time gaussian or_b (1, 1) n0 (nofZ 100) with
    | Ok a, Ok b => nltb (cell a 0 0) (cell b 0 0) = true | _, _ => False end.
Proof.
  split; [exact (proj1 or_on)|]. split; [exact (proj2 or_on)|]. split; [exact or_reordered|]. intros gaussian. vm_compute. reflexivity.
Qed.
Print Assumptions C110_rounding_refuted.

(** The hypotheses hold: two batches of particles on a 4 x 4 raster in both orders, a filter that does nothing, and the maps that come out. *)
Example C109_example :
  looks_at_values (fun (_ : f64) a => a) /\ walk_on 4 4 (walk_app px_walk or_a) /\ walk_on 4 4 (walk_app or_a px_walk) /\
  reordered (walk_app px_walk or_a) (walk_app or_a px_walk) /\ paths (walk_app px_walk or_a) <> paths (walk_app or_a px_walk) /\
  visits (walk_app px_walk or_a) 0 0 = 10 /\ visits (walk_app px_walk or_a) 1 2 = 1 /\
  match nourishment_area (fun _ a => a) (walk_app or_a px_walk) (4, 4) n0 (nofZ 100) with Ok a => neqb (cell a 1 2) (ndiv n1 (nofZ 10)) = true /\ nisnan (cell a 3 3) = true | Err _ => False end.
Proof.
  assert (A : walk_on 4 4 or_a).
  { destruct or_on as ((S & H) & _). split; [exact S|]. intros q Hq. destruct (H q Hq) as (R & P). split; [exact R|]. intros i Hi. specialize (P i Hi). lia. }
  split; [intros s a b H; exact H|]. split; [apply walk_app_on; [exact px_on | exact A]|]. split; [apply walk_app_on; [exact A | exact px_on]|].
  split; [unfold reordered; rewrite !app_paths by (first [apply A | apply (px_on (T := f64))]); apply Permutation_app_comm|].
  split; [|vm_compute; auto 10]. intros E. apply (f_equal (fun l => match l with r :: _ => r_x r | [] => [] end)) in E. vm_compute in E. discriminate E.
Qed.
(** ... and two particles in exact arithmetic, in both orders. *)
Definition or_px (l : list nat) : walk xq :=
  {| xinds := map (fun q => nth q (xinds px_walk) []) l; yinds := map (fun q => nth q (yinds px_walk) []) l; times := map (fun q => nth q (times px_walk) []) l; opts := [] |}.
Example C110_example :
  looks_at_values (fun (_ : xq) a => a) /\ walk_on 4 4 (or_px [0; 1]%nat) /\ shaped [] (or_px [1; 0]%nat) /\ reordered (or_px [0; 1]%nat) (or_px [1; 0]%nat) /\
  Z.of_nat (length (record_ids (or_px [0; 1]%nat))) = 6 /\
  match nourishment_time (fun _ a => a) (or_px [1; 0]%nat) (4, 4) n0 (nofZ 100) with Ok a => neqb (cell a 1 2) (ndec 15 1) = true /\ nisnan (cell a 1 3) = true | Err _ => False end.
Proof.
  split; [intros s a b H; exact H|]. split; [exact px_on|]. split; [repeat split; intros; cbn in *; try contradiction; repeat constructor|].
  split; [apply perm_swap|]. vm_compute. auto 10.
Qed.
