(** Specification vocabulary for the post-processing functions, independent of their model. *)
From Coq Require Import ZArith Bool String List QArith Qcanon.
From Verif Require Import Num XQ Py Walker ParticleTrack SpecWeights SpecPick SpecWalk SpecExact.
Import ListNotations.
Open Scope Z_scope.

(** Sum of f 0, ..., f (n-1). *)
Fixpoint qsum (n : nat) (f : nat -> Qc) : Qc := match n with O => 0%Qc | S k => (qsum k f + f k)%Qc end.

Section Spec.
Context {T : Type} {N : Num T}.

(** One particle's positions and times in walk data, tracked variables left out. *)
Definition path (w : walk T) (q : nat) : prow T := row [] w q.

(** A particle's path on a raster of L rows and W columns: at least one record, lists equally long, every
    recorded position on the raster. *)
Definition on_raster (L W : Z) (r : prow T) : Prop :=
  row_rect r /\ forall i, (i < length (r_x r))%nat -> 0 <= xat r i < L /\ 0 <= yat r i < W.
(** Walk data of particles on the raster. *)
Definition walk_on (L W : Z) (w : walk T) : Prop :=
  shaped [] w /\ forall q, (q < count w)%nat -> on_raster L W (path w q).

(** Walk data of the particles of w1 followed by those of w2. *)
Definition walk_app (w1 w2 : walk T) : walk T :=
  {| xinds := xinds w1 ++ xinds w2; yinds := yinds w1 ++ yinds w2; times := times w1 ++ times w2; opts := [] |}.

(** ** Regions *)
(** A 0/1 map, its members, its complement, the union of two of them. *)
Definition binary (roi : arr Z) : Prop :=
  forall i j, 0 <= i < nrow roi -> 0 <= j < ncol roi -> cell roi i j = 0 \/ cell roi i j = 1.
Definition in_region (roi : arr Z) (x y : Z) : Prop := cell roi x y = 1.
Definition inregion (roi : arr Z) (r : prow T) (i : nat) : bool := cell roi (xat r i) (yat r i) =? 1.

End Spec.

(** Times are the finite numbers tq. *)
Definition finite_times (r : prow xq) (tq : nat -> Qc) : Prop :=
  forall i, (i < length (r_x r))%nat -> tat r i = XFin (tq i).

(** Trapezoidal occupation time of a region: every step counts with its duration times the mean of the region
    indicator at its two ends. *)
Definition ind (roi : arr Z) (r : prow xq) (i : nat) : Qc := if inregion roi r i then 1%Qc else 0%Qc.
Definition occupation_time (roi : arr Z) (r : prow xq) (tq : nat -> Qc) : Qc :=
  qsum (length (r_x r) - 1) (fun i => ((tq (S i) - tq i) * ((ind roi r i + ind roi r (S i)) * qhalf))%Qc).

Definition complement_of (roi roi' : arr Z) : Prop :=
  nrow roi' = nrow roi /\ ncol roi' = ncol roi /\
  forall i j, 0 <= i < nrow roi -> 0 <= j < ncol roi -> cell roi' i j = 1 - cell roi i j.
(** a and b are disjoint and u is their union. *)
Definition disjoint_union (a b u : arr Z) : Prop :=
  nrow a = nrow u /\ ncol a = ncol u /\ nrow b = nrow u /\ ncol b = ncol u /\
  forall i j, 0 <= i < nrow u -> 0 <= j < ncol u -> cell u i j = cell a i j + cell b i j.

(** ** Recorded positions *)
Section Records.
Context {T : Type} {N : Num T}.
(** All records: pairs of a particle and the number of one of its records, in order. *)
Definition record_ids (w : walk T) : list (nat * nat) :=
  flat_map (fun q => map (fun i => (q, i)) (seq 0 (length (r_x (path w q))))) (seq 0 (count w)).
(** Records other than a particle's first and last one. *)
Definition interior_ids (w : walk T) : list (nat * nat) :=
  filter (fun p => (1 <=? snd p)%nat && (S (snd p) <? length (r_x (path w (fst p))))%nat) (record_ids w).
Definition recorded_at (w : walk T) (x y : Z) (p : nat * nat) : bool :=
  (xat (path w (fst p)) (snd p) =? x) && (yat (path w (fst p)) (snd p) =? y).
(** How often a position was recorded at (x, y). *)
Definition visits (w : walk T) (x y : Z) : Z := Z.of_nat (length (filter (recorded_at w x y) (record_ids w))).
Definition visit_map (w : walk T) (L W : Z) : arr T := Arr L W (fun x y => nofZ (visits w x y)).
(** The residence times of the interior records at (x, y): half the step before plus half the step after. *)
Definition stays (w : walk T) (x y : Z) : list T :=
  map (fun p => let r := path w (fst p) in let i := snd p in
                nmul nhalf (nadd (nsub (tat r i) (tat r (i - 1))) (nsub (tat r (S i)) (tat r i))))
      (filter (recorded_at w x y) (interior_ids w)).
(** Their mean, summed in record order. *)
Definition mean_stay (w : walk T) (x y : Z) : T :=
  ndiv (fold_left nadd (stays w x y) n0) (nofZ (Z.of_nat (length (stays w x y)))).
End Records.
(** Mean residence times of all cells, zero where there is no interior record. *)
Definition stay_map {T} {N : Num T} (w : walk T) (L W : Z) : arr T :=
  Arr L W (fun x y => match stays w x y with [] => n0 | _ => mean_stay w x y end).
(** Number of cells of an L x W raster where no position was recorded. *)
Definition unvisited {T} {N : Num T} (w : walk T) (L W : Z) : Z :=
  Z.of_nat (length (filter (fun c => visits w (fst c) (snd c) =? 0) (list_prod (zrange 0 L) (zrange 0 W)))).
