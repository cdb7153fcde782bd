(** Properties C44, C45: conversion between raster indices and coordinates. *)
From Coq Require Import ZArith Bool String List Lia QArith Qcanon Reals Lra.
From Flocq Require Import Core IEEE754.BinarySingleNaN.
From Verif Require Import Num XQ XQLaws F64 F64Laws Py NumFacts Walker ParticleTrack SpecWeights SpecPick SpecWalk SpecPost PostProc ProofCoord P_Post.
Import ListNotations.
Open Scope Z_scope.

(** C44 In doubles: for walk data on an L x W raster, ind2coord adds one list of coordinates per particle, and coord2ind of a
    particle's coordinates gives back its recorded indices, all of them, exactly.  The cell size is between 2^-100 and 2^100, the raster has
    at most 2^40 rows and columns and the origin is at most 2^40 cells away from (0, 0). *)
Theorem C44_index_round_trip :
  forall (w : walk f64) L W (x0 y0 cs : f64),
    walk_on L W w -> L <= 2 ^ 40 -> W <= 2 ^ 40 ->
    is_finite x0 = true -> is_finite y0 = true -> is_finite cs = true ->
    (bpow radix2 (-100) <= B2R cs <= bpow radix2 100)%R ->
    (Rabs (B2R x0) <= bpow radix2 40 * B2R cs)%R -> (Rabs (B2R y0) <= bpow radix2 40 * B2R cs)%R ->
    exists g, ind2coord w (x0, y0) (L, W) cs = Ok g /\ g_walk g = w /\ length (xcoord g) = count w /\ length (ycoord g) = count w /\
      forall q, (q < count w)%nat ->
        coord2ind (combine (nth q (xcoord g) []) (nth q (ycoord g) [])) (x0, y0) (L, W) cs
        = Ok (combine (r_x (path w q)) (r_y (path w q))).
Proof.
  intros w L W x0 y0 cs On HL HW Fx Fy Fc C X Y. change (2 ^ 40) with 1099511627776 in *.
  replace (bpow radix2 40) with 1099511627776%R in * by (simpl; lra).
  apply coord_api; [exact On|]. intros i j Hi Hj. apply round_trip_f64; try assumption; try lia. split; assumption.
Qed.
Print Assumptions C44_index_round_trip.
(** In exact arithmetic the same holds for every finite origin and every finite non-zero cell size. *)
Theorem C44_index_round_trip_exact :
  forall (w : walk xq) L W x0 y0 c,
    walk_on L W w -> c <> 0%Qc ->
    exists g, ind2coord w (XFin x0, XFin y0) (L, W) (XFin c) = Ok g /\ g_walk g = w /\ length (xcoord g) = count w /\ length (ycoord g) = count w /\
      forall q, (q < count w)%nat ->
        coord2ind (combine (nth q (xcoord g) []) (nth q (ycoord g) [])) (XFin x0, XFin y0) (L, W) (XFin c)
        = Ok (combine (r_x (path w q)) (r_y (path w q))).
Proof. intros w L W x0 y0 c On C. apply coord_api; [exact On|]. intros i j _ _. apply round_trip_exact. exact C. Qed.
Print Assumptions C44_index_round_trip_exact.
(** The coordinates of the cell found for a point, as ind2coord gives them for a particle recorded there, are at most half a cell away
    from the point on each axis. *)
Theorem C44_half_cell :
  forall x0 y0 c L W x y i j t,
    (0 < c)%Qc ->
    coord2ind [(XFin x, XFin y)] (XFin x0, XFin y0) (L, W) (XFin c) = Ok [(i, j)] ->
    exists g x' y',
      ind2coord {| xinds := [[i]]; yinds := [[j]]; times := [[t]]; opts := [] |} (XFin x0, XFin y0) (L, W) (XFin c) = Ok g /\
      xcoord g = [[XFin x']] /\ ycoord g = [[XFin y']] /\
      (2 * Qabs.Qabs (this x' - this x) <= this c)%Q /\ (2 * Qabs.Qabs (this y' - this y) <= this c)%Q.
Proof.
  intros x0 y0 c L W x y i j t P E. unfold coord2ind in E. cbn [mapM fst] in E.
  destruct (coord2ind1 (XFin x0, XFin y0) L (XFin c) (XFin x, XFin y)) as [[i' j']|] eqn:E1; [|discriminate E]. cbn [bind] in E. injection E as -> ->.
  destruct (half_cell _ _ _ _ _ _ _ _ P E1) as (x' & y' & Ex & Ey & H). rewrite ind2coord_ok by reflexivity.
  eexists. exists x', y'. split; [reflexivity|]. cbn [xcoord ycoord xinds yinds map fst]. rewrite Ex, Ey. split; [reflexivity|]. split; [reflexivity | exact H].
Qed.
Print Assumptions C44_half_cell.
Example C44_example :
  let cs : f64 := nofZ 30 in let x0 : f64 := nofZ 652000 in let y0 : f64 := nofZ (-3) in
  walk_on 4 4 (px_walk : walk f64) /\ is_finite cs = true /\ (bpow radix2 (-100) <= B2R cs <= bpow radix2 100)%R /\
  (Rabs (B2R x0) <= bpow radix2 40 * B2R cs)%R /\ (Rabs (B2R y0) <= bpow radix2 40 * B2R cs)%R /\
  match ind2coord px_walk (x0, y0) (4, 4) cs with
  | Ok g => forallb (fun p => neqb (fst p) (snd p)) (combine (nth 0 (ycoord g) []) (map nofZ [87; 87; 57; 27])) = true /\ length (ycoord g) = 2%nat
  | Err _ => False end /\
  match coord2ind [(XFin (Q2Qc (7 # 3)), XFin (Q2Qc (5 # 2)))] (XFin 0%Qc, XFin 0%Qc) (4, 4) (XFin 1%Qc) with
  | Ok l => l = [(2, 2)] | Err _ => False end.
Proof.
  cbv zeta. split; [exact px_on|]. split; [reflexivity|].
  destruct (ofZ_exact 30 ltac:(lia)) as (_ & E1). destruct (ofZ_exact 652000 ltac:(lia)) as (_ & E2). destruct (ofZ_exact (-3) ltac:(lia)) as (_ & E3).
  change (B2R (nofZ 30 : f64)) with (B2R (fofZ 30)). change (B2R (nofZ 652000 : f64)) with (B2R (fofZ 652000)). change (B2R (nofZ (-3) : f64)) with (B2R (fofZ (-3))).
  rewrite E1, E2, E3. split; [|split; [|split; [|split; vm_compute; auto]]].
  - split; [apply Rle_trans with (bpow radix2 0); [apply bpow_le; lia | simpl; lra] | apply Rle_trans with (bpow radix2 5); [simpl; lra | apply bpow_le; lia]].
  - replace (bpow radix2 40) with 1099511627776%R by (simpl; lra). apply Rabs_le. lra.
  - replace (bpow radix2 40) with 1099511627776%R by (simpl; lra). apply Rabs_le. lra.
Qed.

(** C45 Refuted: (3/4, 1/4) is inside the extent of a 4 x 4 raster with origin (0, 0) and cell size 1, but is given row 4. *)
Theorem C45_refuted :
  exists (x y cs : f64),
    nltb n0 x = true /\ nltb x (nofZ 4) = true /\ nltb n0 y = true /\ nltb y (nofZ 4) = true /\ neqb cs n1 = true /\
    coord2ind [(x, y)] (n0, n0) (4, 4) cs = Ok [(4, 1)].
Proof.
  exists (ndiv (nofZ 3) (nofZ 4)), (ndiv (nofZ 1) (nofZ 4)), n1. vm_compute. tauto.
Qed.
Print Assumptions C45_refuted.
(** Not an isolated case: every point of the lowest half row gets the row L, every point of the rightmost half column the column W. *)
Theorem C45_lower_strip_refuted :
  forall x0 y0 c L W x y,
    (0 < c)%Qc -> (y0 <= y)%Qc -> (2 * (this y - this y0) < this c)%Q ->
    exists j, coord2ind [(XFin x, XFin y)] (XFin x0, XFin y0) (L, W) (XFin c) = Ok [(L, j)].
Proof.
  intros x0 y0 c L W x y P A B. destruct (bottom_strip x0 y0 c L x y P A B) as (j & E). exists j. unfold coord2ind. cbn [mapM fst]. rewrite E. reflexivity.
Qed.
Print Assumptions C45_lower_strip_refuted.
Theorem C45_right_strip_refuted :
  forall x0 y0 c L W x y,
    (0 < c)%Qc -> ((2 * inject_Z W - 1) * this c < 2 * (this x - this x0))%Q -> (this x - this x0 <= inject_Z W * this c)%Q ->
    exists i, coord2ind [(XFin x, XFin y)] (XFin x0, XFin y0) (L, W) (XFin c) = Ok [(i, W)].
Proof.
  intros x0 y0 c L W x y P A B. destruct (right_strip x0 y0 c L W x y P A B) as (i & E). exists i. unfold coord2ind. cbn [mapM fst]. rewrite E. reflexivity.
Qed.
Print Assumptions C45_right_strip_refuted.
(** Everywhere else in the extent the indices are on the raster. *)
Theorem C45_in_range_partial :
  forall x0 y0 c L W x y,
    (0 < c)%Qc -> (x0 <= x)%Qc -> (2 * (this x - this x0) < (2 * inject_Z W - 1) * this c)%Q ->
    (this c < 2 * (this y - this y0))%Q -> (2 * (this y - this y0) <= 2 * inject_Z L * this c)%Q ->
    exists i j, coord2ind [(XFin x, XFin y)] (XFin x0, XFin y0) (L, W) (XFin c) = Ok [(i, j)] /\ 0 <= i < L /\ 0 <= j < W.
Proof.
  intros x0 y0 c L W x y P A B C D. destruct (in_range_exact x0 y0 c L W x y P A B C D) as (i & j & E & H). exists i, j. split; [|exact H].
  unfold coord2ind. cbn [mapM fst]. rewrite E. reflexivity.
Qed.
Print Assumptions C45_in_range_partial.
Example C45_example :
  (0 < Q2Qc 1)%Qc /\ (0 <= Q2Qc (3 # 4))%Qc /\ (2 * (this (Q2Qc (3 # 4)) - this 0%Qc) < (2 * inject_Z 4 - 1) * this (Q2Qc 1))%Q /\
  (this (Q2Qc 1) < 2 * (this (Q2Qc (7 # 2)) - this 0%Qc))%Q.
Proof. vm_compute. repeat split; discriminate. Qed.
