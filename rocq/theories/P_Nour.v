(** Properties C46 - C48: nourishment area and nourishment time. *)
From Coq Require Import ZArith Bool String List Lia QArith Qcanon.
From Verif Require Import Num XQ XQLaws F64 F64Laws Py NumFacts NumMore NumPost NumFrac Walker ParticleTrack SpecWeights SpecPick SpecWalk
  SpecPost PostProc ProofNour ProofNourQ P_Post.
Import ListNotations.
Open Scope Z_scope.

(** C46 Every recorded position is counted once: the visit counts of the raster add up to the number of records, and with clip = 100 and no
    smoothing the map is the visit count of the cell divided by the largest visit count, NaN where nothing was recorded.
    [gaussian] is the external smoothing function (not used when sigma <= 0). *)
Theorem C46_counts :
  forall gaussian (w : walk f64) L W sigma,
    walk_on L W w -> 0 < L -> 0 < W -> L * W <= 2 ^ 53 -> Z.of_nat (length (record_ids w)) <= 2 ^ 53 -> nltb n0 sigma = false ->
    zsum (map (fun c => visits w (fst c) (snd c)) (list_prod (zrange 0 L) (zrange 0 W))) = Z.of_nat (length (record_ids w)) /\
    ((exists x y, 0 <= x < L /\ 0 <= y < W /\ 0 < visits w x y) ->
     exists a X Y, nourishment_area gaussian w (L, W) sigma (nofZ 100) = Ok a /\ nrow a = L /\ ncol a = W /\ 0 <= X < L /\ 0 <= Y < W /\
       forall x y, 0 <= x < L -> 0 <= y < W ->
         visits w x y <= visits w X Y /\
         cell a x y = if visits w x y =? 0 then nnan else ndiv (nofZ (visits w x y)) (nofZ (visits w X Y))).
Proof.
  intros gaussian w L W sigma On HL HW HS B Hs. split; [exact (visits_total w L W On)|].
  intros V. exact (area_100 gaussian w L W sigma On B HL HW HS Hs V).
Qed.
Print Assumptions C46_counts.
(** For every other clip percentile: if the percentile of the visit counts is positive, the map is NaN exactly at the cells never visited and
    in (0, 1] elsewhere, and 1 is reached. *)
Theorem C46_normalised :
  forall gaussian (w : walk f64) L W sigma clip vmax,
    walk_on L W w -> Z.of_nat (length (record_ids w)) <= 2 ^ 53 -> 0 < L -> 0 < W -> nltb n0 sigma = false ->
    np_nanpercentile (cells (visit_map w L W)) clip = Ok vmax -> nltb n0 vmax = true ->
    exists a, nourishment_area gaussian w (L, W) sigma clip = Ok a /\ nrow a = L /\ ncol a = W /\
      (forall x y, 0 <= x < L -> 0 <= y < W ->
         (visits w x y = 0 -> cell a x y = nnan) /\
         (0 < visits w x y -> nltb n0 (cell a x y) = true /\ nleb (cell a x y) n1 = true)) /\
      ((exists x y, 0 <= x < L /\ 0 <= y < W /\ 0 < visits w x y) -> exists x y, 0 <= x < L /\ 0 <= y < W /\ cell a x y = n1).
Proof. exact area_summary. Qed.
Print Assumptions C46_normalised.
(** The percentile exists for every clip between 0 and 100. *)
Theorem C46_percentile_defined :
  forall (w : walk f64) L W clip,
    Z.of_nat (length (record_ids w)) <= 2 ^ 53 -> 0 < L -> 0 < W -> L * W <= 2 ^ 53 -> nleb n0 clip = true -> nleb clip (nofZ 100) = true ->
    exists vmax, np_nanpercentile (cells (visit_map w L W)) clip = Ok vmax.
Proof.
  intros w L W clip B HL HW HS C0 C1. apply percentile_ok; [| rewrite cells_len by (cbn; lia); exact HS | apply cells_ne; assumption | exact C0 | exact C1].
  intros v Hv. apply cells_in in Hv as (x & y & _ & _ & ->). cbn [visit_map cell]. pose proof (visits_nn w x y). pose proof (visits_le w x y).
  apply fin_notnan, ofZ_fin. change (2 ^ 53) with 9007199254740992 in B. lia.
Qed.
Print Assumptions C46_percentile_defined.
Example C46_example :
  walk_on 4 4 (px_walk : walk f64) /\ Z.of_nat (length (record_ids (px_walk : walk f64))) = 6 /\ visits (px_walk : walk f64) 1 2 = 1 /\
  match np_nanpercentile (cells (visit_map (px_walk : walk f64) 4 4)) (ndec 995 1) with Ok v => nltb n0 v = true | Err _ => False end /\
  match nourishment_area (fun _ a => a) (px_walk : walk f64) (4, 4) n0 (ndec 995 1) with Ok a => neqb (cell a 1 3) n1 = true /\ nisnan (cell a 3 3) = true | Err _ => False end.
Proof. split; [exact px_on|]. vm_compute. auto 10. Qed.

(** C47 Refuted: with the default clip percentile 99.5, walk data of one particle that stays in one cell of a 15 x 15 raster gives a map without any
    number. *)
Definition px_still : walk f64 := {| xinds := [[7; 7; 7]]; yinds := [[4; 4; 4]]; times := [[n0; n1; nofZ 2]]; opts := [] |}.
Theorem C47_refuted :
  exists w : walk f64, walk_on 15 15 w /\ visits w 7 4 = 3 /\
    forall gaussian, match nourishment_area gaussian w (15, 15) n0 (ndec 995 1) with
                     | Ok a => forallb nisnan (cells a) = true | Err _ => False end.
Proof.
  exists px_still. split; [|split; [reflexivity|]].
  - split; [split; [reflexivity|]; split; [reflexivity | intros v []]|]. intros q Hq. change (q < 1)%nat in Hq. destruct q; [|lia].
    split; [split; [cbn; lia|]; split; [reflexivity|]; split; [reflexivity | intros kv []]|]. intros i Hi. cbn in Hi. do 3 (destruct i as [|i]; [cbn; lia|]). lia.
  - intros gaussian. vm_compute. reflexivity.
Qed.
Print Assumptions C47_refuted.
(** Exactly when the signal survives (exact arithmetic): some cell is a number if and only if (cells - 1) * clip / 100 exceeds the number of unvisited
    cells minus one. *)
Theorem C47_signal_kept_iff :
  forall gaussian (w : walk xq) L W sigma (c : Qc),
    walk_on L W w -> Z.of_nat (length (record_ids w)) <= 2 ^ 53 -> 0 < L -> 0 < W -> nltb n0 sigma = false -> (0 <= c)%Qc -> (this c <= 100)%Q ->
    (exists x y, 0 <= x < L /\ 0 <= y < W /\ 0 < visits w x y) ->
    exists a, nourishment_area gaussian w (L, W) sigma (XFin c) = Ok a /\ nrow a = L /\ ncol a = W /\
      ((exists x y, 0 <= x < L /\ 0 <= y < W /\ nisnan (cell a x y) = false) <->
       (100 * inject_Z (unvisited w L W - 1) < inject_Z (L * W - 1) * this c)%Q).
Proof. exact area_signal. Qed.
Print Assumptions C47_signal_kept_iff.
(** With clip = 100 the signal is never lost, in doubles. *)
Theorem C47_clip100_partial :
  forall gaussian (w : walk f64) L W sigma x y,
    walk_on L W w -> 0 < L -> 0 < W -> L * W <= 2 ^ 53 -> Z.of_nat (length (record_ids w)) <= 2 ^ 53 -> nltb n0 sigma = false ->
    0 <= x < L -> 0 <= y < W -> 0 < visits w x y ->
    exists a, nourishment_area gaussian w (L, W) sigma (nofZ 100) = Ok a /\ nisnan (cell a x y) = false.
Proof.
  intros gaussian w L W sigma x y On HL HW HS B Hs Hx Hy P.
  destruct (area_100 gaussian w L W sigma On B HL HW HS Hs (ex_intro _ x (ex_intro _ y (conj Hx (conj Hy P))))) as (a & X & Y & E & _ & _ & HX & HY & H).
  exists a. split; [exact E|]. destruct (H x y Hx Hy) as (LE & ->). destruct (Z.eqb_spec (visits w x y) 0); [lia|].
  pose proof (visits_le w X Y). change (2 ^ 53) with 9007199254740992 in B. apply (leb_nan_l _ n1). apply div_unit; [apply ofZ_le; lia | apply ofZ_le; lia | apply ofZ_lt; lia | apply ofZ_fin; lia].
Qed.
Print Assumptions C47_clip100_partial.
Example C47_example : walk_on 4 4 (px_walk : walk xq) /\ 0 < visits (px_walk : walk xq) 1 2 /\ unvisited (px_walk : walk xq) 4 4 = 10 /\
  (100 * inject_Z (10 - 1) < inject_Z (4 * 4 - 1) * this (Q2Qc (995 # 10)))%Q.
Proof. split; [exact px_on|]. vm_compute. auto. Qed.

(** C48 With clip = 100 and no smoothing, nourishment_time is the mean, over the interior records at the cell, of half the step before plus half the step
    after; NaN where there is no interior record or the mean is zero. *)
Theorem C48_mean_stay :
  forall gaussian (w : walk f64) L W sigma,
    walk_on L W w -> Z.of_nat (length (record_ids w)) <= 2 ^ 53 -> 0 < L -> 0 < W -> L * W <= 2 ^ 53 -> nltb n0 sigma = false ->
    (forall q i, (q < count w)%nat -> (i < length (r_x (path w q)))%nat -> nisfin (tat (path w q) i) = true) ->
    (forall q i, (q < count w)%nat -> (S i < length (r_x (path w q)))%nat -> nleb (tat (path w q) i) (tat (path w q) (S i)) = true) ->
    exists a, nourishment_time gaussian w (L, W) sigma (nofZ 100) = Ok a /\ nrow a = L /\ ncol a = W /\
      forall x y, 0 <= x < L -> 0 <= y < W ->
        (stays w x y = [] -> cell a x y = nnan) /\
        (stays w x y <> [] -> neqb (mean_stay w x y) n0 = true -> cell a x y = nnan) /\
        (stays w x y <> [] -> neqb (mean_stay w x y) n0 = false -> cell a x y = mean_stay w x y).
Proof. exact time_100. Qed.
Print Assumptions C48_mean_stay.
(** Other clip percentiles cut these means off at the percentile. *)
Theorem C48_clipped :
  forall gaussian (w : walk f64) L W sigma clip vmax,
    walk_on L W w -> Z.of_nat (length (record_ids w)) <= 2 ^ 53 -> nltb n0 sigma = false ->
    (forall q i, (q < count w)%nat -> (i < length (r_x (path w q)))%nat -> nisfin (tat (path w q) i) = true) ->
    (forall q i, (q < count w)%nat -> (S i < length (r_x (path w q)))%nat -> nleb (tat (path w q) i) (tat (path w q) (S i)) = true) ->
    np_nanpercentile (cells (stay_map w L W)) clip = Ok vmax -> nisnan vmax = false ->
    exists a, nourishment_time gaussian w (L, W) sigma clip = Ok a /\ nrow a = L /\ ncol a = W /\
      forall x y, 0 <= x < L -> 0 <= y < W ->
        let m := cell (stay_map w L W) x y in let c := if nltb vmax m then vmax else m in cell a x y = if neqb c n0 then nnan else c.
Proof. exact time_ok. Qed.
Print Assumptions C48_clipped.
Example C48_example :
  walk_on 4 4 (px_walk : walk f64) /\ length (stays (px_walk : walk f64) 1 2) = 1%nat /\ neqb (mean_stay (px_walk : walk f64) 1 2) (ndec 15 1) = true /\
  match nourishment_time (fun _ a => a) (px_walk : walk f64) (4, 4) n0 (nofZ 100) with Ok a => neqb (cell a 1 2) (ndec 15 1) = true /\ nisnan (cell a 1 1) = true | Err _ => False end.
Proof. split; [exact px_on|]. vm_compute. auto 10. Qed.
