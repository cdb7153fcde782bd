(** Properties C52 - C55 and C72 - C74: flux-proportional seeding and gridding of unstructured data (exact arithmetic). *)
From Coq Require Import ZArith Bool String List Lia QArith Qcanon Qround.
From Verif Require Import Num XQ XQLaws XQFacts Py Walker ParticleTrack PostProc SpecPost Grid SpecGrid ProofSeedFlux ProofGrid.
Import ListNotations.
Open Scope Z_scope.

(** C52 For every discharge series with a non-zero sum the counts add up to N_total, none is negative, each is the share rounded down or one more,
    and an entry that gets one more has a remainder at least as large as every entry that does not. *)
Theorem C52_counts_proportional :
  forall argsort (D : list Qc) n steps,
    sorts argsort -> total D <> 0%Qc -> 0 <= n -> steps <= Z.of_nat (length D) ->
    exists out, flux_proportional_seeding argsort (map XFin D) n steps = Ok out /\ length out = length D /\ fold_right Z.add 0 out = n /\
      forall i, (i < length D)%nat -> 0 <= nth i out 0 /\
        (nth i out 0 = Qfloor (this (share D n i)) \/
         (nth i out 0 = Qfloor (this (share D n i)) + 1 /\
          forall j, (j < length D)%nat -> nth j out 0 = Qfloor (this (share D n j)) -> (remainder_of D n j <= remainder_of D n i)%Q)).
Proof. exact seeding_ok. Qed.
Print Assumptions C52_counts_proportional.
(** Hence every count is within one of the ideal share. *)
Theorem C52_within_one :
  forall argsort (D : list Qc) n steps out i,
    sorts argsort -> total D <> 0%Qc -> 0 <= n -> steps <= Z.of_nat (length D) -> (i < length D)%nat ->
    flux_proportional_seeding argsort (map XFin D) n steps = Ok out ->
    (inject_Z (nth i out 0%Z) - 1 <= this (share D n i))%Q /\ (this (share D n i) < inject_Z (nth i out 0%Z) + 1)%Q.
Proof. exact seeding_within_one. Qed.
Print Assumptions C52_within_one.
(** The documented errors: a series shorter than num_steps, and a series of zeros. *)
Theorem C52_errors :
  forall argsort (D : list Qc) n steps,
    (Z.of_nat (length D) < steps -> flux_proportional_seeding argsort (map XFin D) n steps = Err ValueError) /\
    (total D = 0%Qc -> flux_proportional_seeding argsort (map XFin D) n steps = Err ValueError).
Proof. exact seeding_errors. Qed.
Print Assumptions C52_errors.
Definition c52_D : list Qc := [Q2Qc 1; Q2Qc (-3); Q2Qc 2; Q2Qc 0].
Example C52_hypotheses : sorts argsort_ins /\ total c52_D <> 0%Qc /\ flux_proportional_seeding argsort_ins (map XFin c52_D) 10 4 = Ok [2; 5; 3; 0].
Proof. split; [exact argsort_ins_sorts|]. split; [discriminate | vm_compute; reflexivity]. Qed.

(** C53 The documented layout - one row per time step, one column - is sorted along its last axis, which has length one.  The exact behaviour: whole
    shares are returned; one left-over particle goes to the first row; two or more left-over particles fail the final check. *)
Theorem C53_column_behaviour_partial :
  forall (D : list Qc) n steps,
    total D <> 0%Qc -> 0 <= n -> steps <= Z.of_nat (length D) ->
    let fl := map (fun i => Qfloor (this (share D n i))) (seq 0 (length D)) in
    let left := n - fold_right Z.add 0 fl in
    0 <= left < Z.of_nat (length D) /\
    flux_proportional_seeding_column (map XFin D) n steps =
      if left =? 0 then Ok fl else if left =? 1 then Ok (inc_at [0%nat] fl) else Err AssertionError.
Proof. exact column_ok. Qed.
Print Assumptions C53_column_behaviour_partial.
(** Three equal discharges and five particles: two are left over after rounding down, and the call fails. *)
Theorem C53_column_fails_refuted :
  exists (D : list Qc) n, total D <> 0%Qc /\ 0 <= n /\
    flux_proportional_seeding_column (map XFin D) n (Z.of_nat (length D)) = Err AssertionError /\
    exists out, flux_proportional_seeding argsort_ins (map XFin D) n (Z.of_nat (length D)) = Ok out.
Proof. exists [1; 1; 1]%Qc, 5. split; [discriminate|]. split; [lia|]. split; [vm_compute; reflexivity|]. eexists. vm_compute. reflexivity. Qed.
Print Assumptions C53_column_fails_refuted.
(** Discharges 1 and 2 and one particle: it goes to the first row, although the second has the larger remainder. *)
Theorem C53_column_misallocates_refuted :
  exists (D : list Qc) n, total D <> 0%Qc /\ 0 <= n /\ (remainder_of D n 0 < remainder_of D n 1)%Q /\
    flux_proportional_seeding_column (map XFin D) n 2 = Ok [1; 0] /\ flux_proportional_seeding argsort_ins (map XFin D) n 2 = Ok [0; 1].
Proof. exists [Q2Qc 1; Q2Qc 2], 1. split; [discriminate|]. split; [lia|]. split; [vm_compute; reflexivity|]. split; vm_compute; reflexivity. Qed.
Print Assumptions C53_column_misallocates_refuted.
Example C53_hypotheses : total c52_D <> 0%Qc /\ flux_proportional_seeding_column (map XFin c52_D) 12 4 = Ok [2; 6; 4; 0].
Proof. split; [discriminate | vm_compute; reflexivity]. Qed.

(** C73 A series longer than num_steps is not cut: all its entries receive particles. *)
Theorem C73_longer_series_refuted :
  exists (D : list Qc) n steps out, 0 <= steps /\
    flux_proportional_seeding argsort_ins (map XFin D) n steps = Ok out /\ Z.of_nat (length out) <> steps /\
    fold_right Z.add 0 (firstn (Z.to_nat steps) out) <> n.
Proof. exists [1; 1; 1]%Qc, 6, 2, [2; 2; 2]. split; [lia|]. split; [vm_compute; reflexivity|]. split; discriminate. Qed.
Print Assumptions C73_longer_series_refuted.
Theorem C73_exact_length_partial :
  forall argsort (D : list Qc) n, sorts argsort -> total D <> 0%Qc -> 0 <= n ->
    exists out, flux_proportional_seeding argsort (map XFin D) n (Z.of_nat (length D)) = Ok out /\ length out = length D /\ fold_right Z.add 0 out = n.
Proof. exact seeding_exact_length. Qed.
Print Assumptions C73_exact_length_partial.

(** C54 Inverse-distance gridding (k >= 2): every raster value inside the boundary is a number between the smallest and the largest of the data values of
    the k nearest points reported for its node; outside the boundary it is NaN.  [query] is the KD-tree; the only assumption is that it
    reports at least one point, with finite non-negative distances and valid indices. *)
Theorem C54_between :
  forall query nearest (t : Qc) pts cs k boundary (vs : list Qc),
    (0 < t)%Qc -> (0 < cs)%Qc -> pts <> [] -> length vs = length pts -> 2 <= k ->
    (forall x y, neighbours (length vs) (query k (XFin x, XFin y))) ->
    exists x0 y0 g, least x0 (map fst pts) /\ least y0 (map snd pts) /\
      unstruct2grid query nearest (XFin t) (points pts) (map XFin vs) (XFin cs) k boundary false = Ok g /\
      forall i j, 0 <= i < nrow g -> 0 <= j < ncol g ->
        let p := raster_node x0 y0 cs (nrow g) i j in
        match boundary with Some inside => inside p = false -> cell g i j = XNaN | None => True end /\
        (match boundary with Some inside => inside p = true | None => True end ->
         exists v, cell g i j = XFin v /\
           forall lo hi, (forall d n, In (d, n) (query k p) -> (lo <= nth (Z.to_nat n) vs 0)%Qc /\ (nth (Z.to_nat n) vs 0 <= hi)%Qc) -> (lo <= v)%Qc /\ (v <= hi)%Qc).
Proof. intros. apply grid_between; assumption. Qed.
Print Assumptions C54_between.
(** A constant is reproduced wherever there is a value. *)
Theorem C54_constant :
  forall query nearest (t : Qc) pts cs k (vs : list Qc) c,
    (0 < t)%Qc -> (0 < cs)%Qc -> pts <> [] -> length vs = length pts -> 2 <= k ->
    (forall x y, neighbours (length vs) (query k (XFin x, XFin y))) -> (forall v, In v vs -> v = c) ->
    exists g, unstruct2grid query nearest (XFin t) (points pts) (map XFin vs) (XFin cs) k None true = Ok g /\
      forall i j, 0 <= i < nrow g -> 0 <= j < ncol g -> cell g i j = XFin c.
Proof. intros. apply grid_constant; assumption. Qed.
Print Assumptions C54_constant.
(** The raster of a linear combination of two data sets is the linear combination of their rasters. *)
Theorem C54_linear :
  forall query nearest (t : Qc) pts cs k boundary (vs ws us : list Qc) a b,
    (0 < t)%Qc -> (0 < cs)%Qc -> pts <> [] -> length vs = length pts -> length ws = length pts -> length us = length pts -> 2 <= k ->
    (forall x y, neighbours (length vs) (query k (XFin x, XFin y))) ->
    (forall i, (i < length pts)%nat -> nth i us 0%Qc = (a * nth i vs 0 + b * nth i ws 0)%Qc) ->
    exists g h f, unstruct2grid query nearest (XFin t) (points pts) (map XFin vs) (XFin cs) k boundary false = Ok g /\
      unstruct2grid query nearest (XFin t) (points pts) (map XFin ws) (XFin cs) k boundary false = Ok h /\
      unstruct2grid query nearest (XFin t) (points pts) (map XFin us) (XFin cs) k boundary false = Ok f /\
      nrow f = nrow g /\ nrow h = nrow g /\ ncol f = ncol g /\ ncol h = ncol g /\
      forall i j, 0 <= i < nrow g -> 0 <= j < ncol g ->
        (cell g i j = XNaN /\ cell h i j = XNaN /\ cell f i j = XNaN) \/
        (exists v w, cell g i j = XFin v /\ cell h i j = XFin w /\ cell f i j = XFin (a * v + b * w)%Qc).
Proof. intros. apply grid_linear; assumption. Qed.
Print Assumptions C54_linear.
(** k = 1: the datum of the nearest point. *)
Theorem C54_nearest :
  forall query nearest t pts cs boundary (vs : list Qc),
    (0 < cs)%Qc -> pts <> [] -> length vs = length pts -> (forall x y, 0 <= nearest (XFin x, XFin y) < Z.of_nat (length vs)) ->
    exists x0 y0 g, least x0 (map fst pts) /\ least y0 (map snd pts) /\
      unstruct2grid query nearest (XFin t) (points pts) (map XFin vs) (XFin cs) 1 boundary false = Ok g /\
      forall i j, 0 <= i < nrow g -> 0 <= j < ncol g ->
        let p := raster_node x0 y0 cs (nrow g) i j in
        cell g i j = match boundary with
                     | Some inside => if inside p then XFin (nth (Z.to_nat (nearest p)) vs 0%Qc) else XNaN
                     | None => XFin (nth (Z.to_nat (nearest p)) vs 0%Qc)
                     end.
Proof. intros. apply grid_nearest; assumption. Qed.
Print Assumptions C54_nearest.
(** Two points on a line, nodes one apart: the nodes on the points take (almost exactly) their values, the middle node their mean. *)
Definition gx_pts : list (Qc * Qc) := [(0, 0); (1 + 1, 0)]%Qc.
Definition gx_query (k : Z) (p : xq * xq) : list (xq * Z) := [(nabs (fst p), 0); (nabs (nsub (fst p) (nofZ 2)), 1)].
Definition gx_nearest (p : xq * xq) : Z := if nleb (fst p) n1 then 0 else 1.
Definition gx_vs : list Qc := [Q2Qc 5; Q2Qc 7].
Lemma gx_neighbours : forall k x y, neighbours (length gx_vs) (gx_query k (XFin x, XFin y)).
Proof.
  intros k x y. split; [discriminate|]. intros d i [E|[E|[]]]; injection E as <- <-; (split; [cbn; lia|]); cbn [fst].
  - eexists. split; [apply abs_xq | apply qabs_nn].
  - exists (qabs (x - Qcofz 2)). split; [exact (abs_xq (x - Qcofz 2)) | apply qabs_nn].
Qed.
Example C54_hypotheses : (0 < 1)%Qc /\ gx_pts <> [] /\ (forall k x y, neighbours (length gx_vs) (gx_query k (XFin x, XFin y))) /\
  exists g, unstruct2grid gx_query gx_nearest (XFin 1) (points gx_pts) (map XFin gx_vs) (XFin 1) 2 None true = Ok g /\ nrow g = 1 /\ ncol g = 3 /\
    cell g 0 1 = XFin (Q2Qc 6).
Proof.
  split; [reflexivity|]. split; [discriminate|]. split; [exact gx_neighbours|]. eexists. split; [vm_compute; reflexivity|]. split; [reflexivity|]. split; [reflexivity|]. vm_compute. f_equal.
Qed.

(** C55 The raster has ceil(extent / cellsize) + 1 rows and columns, node (i, j) lies at (min x + j*cellsize, min y + (rows-1-i)*cellsize) - row 0 is the
    northernmost, columns run east - and the nodes span all data points.  The raster's values are those computed at these nodes (C54). *)
Theorem C55_extent :
  forall query nearest (t : Qc) pts cs k (vs : list Qc),
    (0 < t)%Qc -> (0 < cs)%Qc -> pts <> [] -> length vs = length pts -> 2 <= k ->
    (forall x y, neighbours (length vs) (query k (XFin x, XFin y))) ->
    exists x0 x1 y0 y1 cx cy g,
      least x0 (map fst pts) /\ greatest x1 (map fst pts) /\ least y0 (map snd pts) /\ greatest y1 (map snd pts) /\
      is_ceiling cx ((x1 - x0) / cs) /\ is_ceiling cy ((y1 - y0) / cs) /\
      unstruct2grid query nearest (XFin t) (points pts) (map XFin vs) (XFin cs) k None true = Ok g /\
      nrow g = cy + 1 /\ ncol g = cx + 1 /\ 0 <= cx /\ 0 <= cy /\
      (forall p, In p pts -> (x0 <= fst p)%Qc /\ (fst p <= x0 + Qcofz (ncol g - 1) * cs)%Qc /\ (y0 <= snd p)%Qc /\ (snd p <= y0 + Qcofz (nrow g - 1) * cs)%Qc) /\
      (forall i j, 0 <= i < nrow g -> 0 <= j < ncol g ->
         Ok (cell g i j) = idw (XFin t) (query k (raster_node x0 y0 cs (nrow g) i j)) (map XFin vs)).
Proof. intros. apply grid_extent; assumption. Qed.
Print Assumptions C55_extent.
(** C72 Cropping removes exactly the rows and columns of the uncropped raster without a number; what is kept stays in order and no number is lost ... *)
Definition row_has_number (g : arr xq) (i : Z) : Prop := 0 <= i < nrow g /\ exists j, 0 <= j < ncol g /\ nisnan (cell g i j) = false.
Definition col_has_number (g : arr xq) (j : Z) : Prop := 0 <= j < ncol g /\ exists i, 0 <= i < nrow g /\ nisnan (cell g i j) = false.
Lemma crop_of_uncropped query nearest (tiny : xq) coords vs cs k inside g c :
  unstruct2grid query nearest tiny coords vs cs k (Some inside) false = Ok g -> unstruct2grid query nearest tiny coords vs cs k (Some inside) true = Ok c -> c = crop_nan g.
Proof.
  unfold unstruct2grid, interp_func. destruct (negb _); [discriminate|]. unfold bind. destruct (grid_axes coords cs) as [[xv yv]|e]; [|discriminate].
  destruct (_ || _); [discriminate|]. cbv zeta. destruct (mapM _ yv) as [rows|e]; [|discriminate]. intros A B. injection A as <-. injection B as <-. reflexivity.
Qed.
Theorem C72_crop_keeps_numbers_partial :
  forall query nearest (tiny : xq) coords vs cs k inside g c,
  unstruct2grid query nearest tiny coords vs cs k (Some inside) false = Ok g -> unstruct2grid query nearest tiny coords vs cs k (Some inside) true = Ok c ->
  exists rows cols : list Z,
    (forall i, In i rows <-> row_has_number g i) /\ (forall j, In j cols <-> col_has_number g j) /\
    (forall a b, (a < b < length rows)%nat -> nth a rows 0 < nth b rows 0) /\ (forall a b, (a < b < length cols)%nat -> nth a cols 0 < nth b cols 0) /\
    nrow c = Z.of_nat (length rows) /\ ncol c = Z.of_nat (length cols) /\
    (forall i j, 0 <= i < nrow c -> 0 <= j < ncol c -> cell c i j = cell g (nth (Z.to_nat i) rows 0) (nth (Z.to_nat j) cols 0)).
Proof. intros query nearest tiny coords vs cs k inside g c A B. rewrite (crop_of_uncropped _ _ _ _ _ _ _ _ _ _ A B). exact (crop_spec g). Qed.
Print Assumptions C72_crop_keeps_numbers_partial.
(** ... so if the rows with a number are contiguous, and the columns too, the cropped raster is a rectangular part of the uncropped one and as regularly spaced. *)
Lemma contiguous_list (l : list Z) : (forall a b, (a < b < length l)%nat -> nth a l 0 < nth b l 0) -> (forall x y z, In x l -> In z l -> x <= y <= z -> In y l) ->
  forall a, (a < length l)%nat -> nth a l 0 = nth 0 l 0 + Z.of_nat a.
Proof.
  intros SO C. induction a as [|a IH]; intros Ha; [lia|]. specialize (IH ltac:(lia)). assert (L1 : nth a l 0 < nth (S a) l 0) by (apply SO; lia).
  assert (I : In (nth a l 0 + 1) l) by (apply (C (nth a l 0) _ (nth (S a) l 0)); [apply nth_In; lia | apply nth_In; lia | lia]).
  destruct (In_nth _ _ 0 I) as (b & Hb & E). assert (b = S a); [|subst b; lia].
  destruct (Nat.lt_trichotomy b (S a)) as [X|[X|X]]; [|exact X|].
  - assert (b = a \/ (b < a)%nat) as [->|Y] by lia; [lia|]. specialize (SO b a ltac:(lia)). lia.
  - specialize (SO (S a) b ltac:(lia)). lia.
Qed.
Theorem C72_regular_partial :
  forall query nearest (tiny : xq) coords vs cs k inside g c,
  unstruct2grid query nearest tiny coords vs cs k (Some inside) false = Ok g -> unstruct2grid query nearest tiny coords vs cs k (Some inside) true = Ok c ->
  (forall i i' i'', row_has_number g i -> row_has_number g i'' -> i <= i' <= i'' -> row_has_number g i') ->
  (forall j j' j'', col_has_number g j -> col_has_number g j'' -> j <= j' <= j'' -> col_has_number g j') ->
  exists i0 j0, (forall i, row_has_number g i <-> i0 <= i < i0 + nrow c) /\ (forall j, col_has_number g j <-> j0 <= j < j0 + ncol c) /\
    forall i j, 0 <= i < nrow c -> 0 <= j < ncol c -> cell c i j = cell g (i0 + i) (j0 + j).
Proof.
  intros query nearest tiny coords vs cs k inside g c A B CR CC.
  destruct (C72_crop_keeps_numbers_partial _ _ _ _ _ _ _ _ _ _ A B) as (rows & cols & RI & CI & RS & CS & RN & CN & E).
  assert (KR : forall a, (a < length rows)%nat -> nth a rows 0 = nth 0 rows 0 + Z.of_nat a).
  { apply contiguous_list; [exact RS|]. intros x y z X Z0 Y. apply RI. apply (CR x y z); [apply RI, X | apply RI, Z0 | exact Y]. }
  assert (KC : forall a, (a < length cols)%nat -> nth a cols 0 = nth 0 cols 0 + Z.of_nat a).
  { apply contiguous_list; [exact CS|]. intros x y z X Z0 Y. apply CI. apply (CC x y z); [apply CI, X | apply CI, Z0 | exact Y]. }
  exists (nth 0 rows 0), (nth 0 cols 0). split; [|split].
  - intros i. rewrite <- RI. split.
    + intros H. destruct (In_nth _ _ 0 H) as (a & Ha & <-). rewrite (KR a Ha). lia.
    + intros H. replace i with (nth (Z.to_nat (i - nth 0 rows 0)) rows 0); [apply nth_In; lia|]. rewrite KR by lia. lia.
  - intros j. rewrite <- CI. split.
    + intros H. destruct (In_nth _ _ 0 H) as (a & Ha & <-). rewrite (KC a Ha). lia.
    + intros H. replace j with (nth (Z.to_nat (j - nth 0 cols 0)) cols 0); [apply nth_In; lia|]. rewrite KC by lia. lia.
  - intros i j Hi Hj. rewrite (E i j Hi Hj), KR, KC by lia. f_equal; lia.
Qed.
Print Assumptions C72_regular_partial.
(** Without a boundary crop has no effect. *)
Theorem C72_no_boundary :
  forall query nearest (tiny : xq) coords vs cs k, unstruct2grid query nearest tiny coords vs cs k None true = unstruct2grid query nearest tiny coords vs cs k None false.
Proof. reflexivity. Qed.
Print Assumptions C72_no_boundary.
(** ... but it also removes rows and columns in the middle of the raster, so that neighbouring entries need not be neighbouring nodes: with a boundary
    that leaves out the middle node of three, the outer two become adjacent. *)
Theorem C72_crop_interior_refuted :
  exists pts cs vs inside g c, unstruct2grid gx_query gx_nearest (XFin 1) (points pts) vs (XFin cs) 2 (Some inside) false = Ok g /\
    unstruct2grid gx_query gx_nearest (XFin 1) (points pts) vs (XFin cs) 2 (Some inside) true = Ok c /\
    ncol g = 3 /\ nisnan (cell g 0 0) = false /\ nisnan (cell g 0 2) = false /\ ncol c = 2 /\ cell c 0 1 = cell g 0 2.
Proof.
  exists gx_pts, 1%Qc, (map XFin gx_vs), (fun p => negb (neqb (fst p) n1)). eexists. eexists. split; [vm_compute; reflexivity|]. split; [vm_compute; reflexivity|].
  repeat split; vm_compute; reflexivity.
Qed.
Print Assumptions C72_crop_interior_refuted.
(** A boundary that leaves out the last node: one border column is removed. *)
Example C72_example : exists g c,
  unstruct2grid gx_query gx_nearest (XFin 1) (points gx_pts) (map XFin gx_vs) (XFin 1) 2 (Some (fun p => nltb (fst p) (nofZ 2))) false = Ok g /\
  unstruct2grid gx_query gx_nearest (XFin 1) (points gx_pts) (map XFin gx_vs) (XFin 1) 2 (Some (fun p => nltb (fst p) (nofZ 2))) true = Ok c /\
  nrow g = 1 /\ ncol g = 3 /\ nisnan (cell g 0 0) = false /\ nisnan (cell g 0 1) = false /\ nisnan (cell g 0 2) = true /\ ncol c = 2.
Proof. eexists. eexists. split; [vm_compute; reflexivity|]. split; [vm_compute; reflexivity|]. repeat split; vm_compute; reflexivity. Qed.

(** C74 With fewer data points than k_nearest_neighbors (default 3), the KD-tree pads its answer with the index n, and gridding fails. *)
Theorem C74_too_few_points_refuted :
  forall query nearest t pts cs k boundary crop (data : list xq),
    pts <> [] -> (0 < cs)%Qc -> length data = length pts -> 2 <= k ->
    (forall x y, padded_neighbours (length data) (query k (XFin x, XFin y))) ->
    unstruct2grid query nearest (XFin t) (points pts) data (XFin cs) k boundary crop = Err IndexError.
Proof. exact u2g_bad. Qed.
Print Assumptions C74_too_few_points_refuted.
Example C74_hypotheses : let query := fun (k : Z) p => gx_query k p ++ [(XInf false, 2)] in
  (forall x y, padded_neighbours (length (map XFin gx_vs)) (query 3 (XFin x, XFin y))) /\
  unstruct2grid query gx_nearest (XFin 1) (points gx_pts) (map XFin gx_vs) (XFin 1) 3 None true = Err IndexError.
Proof.
  split; [|vm_compute; reflexivity]. intros x y. split; [|right; right; left; reflexivity]. intros d i [E|[E|[E|[]]]]; injection E as <- <-; cbn; lia.
Qed.
(** With enough points it returns a raster. *)
Theorem C74_enough_points_partial :
  forall query nearest (t : Qc) pts cs k boundary crop (vs : list Qc),
    (0 < t)%Qc -> (0 < cs)%Qc -> pts <> [] -> length vs = length pts -> 2 <= k ->
    (forall x y, neighbours (length vs) (query k (XFin x, XFin y))) ->
    exists g, unstruct2grid query nearest (XFin t) (points pts) (map XFin vs) (XFin cs) k boundary crop = Ok g.
Proof. intros. apply grid_total; assumption. Qed.
Print Assumptions C74_enough_points_partial.
