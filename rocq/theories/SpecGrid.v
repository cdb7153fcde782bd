(** Specification vocabulary for gridding and flux-proportional seeding. *)
From Coq Require Import ZArith Bool List QArith Qcanon Qround Permutation.
From Verif Require Import Num XQ Py.
Import ListNotations.
Open Scope Z_scope.

(** ** Seeding *)
(** What np.argsort promises for a list of finite numbers: a permutation of the indices that lists the numbers in ascending order. *)
Definition sorts (argsort : list xq -> list nat) : Prop :=
  forall l : list Qc, let p := argsort (map XFin l) in
    Permutation p (seq 0 (length l)) /\
    forall a b, (a <= b < length l)%nat -> (nth (nth a p 0%nat) l 0 <= nth (nth b p 0%nat) l 0)%Qc.
Definition qabs (q : Qc) : Qc := if Qclt_le_dec q 0 then (- q)%Qc else q.
Definition total (D : list Qc) : Qc := fold_right Qcplus 0%Qc (map qabs D).
(** The ideal, fractional share of entry i. *)
Definition share (D : list Qc) (n_total : Z) (i : nat) : Qc := (qabs (nth i D 0) / total D * Q2Qc (inject_Z n_total))%Qc.
(** What is left of the share after giving out whole particles. *)
Definition remainder_of (D : list Qc) (n_total : Z) (i : nat) : Q := (this (share D n_total i) - inject_Z (Qround.Qfloor (this (share D n_total i))))%Q.

(** ** Gridding *)
(** The k nearest points as a KD-tree reports them for a finite query point: finite, non-negative distances and indices of data points. *)
Definition neighbours (n : nat) (nb : list (xq * Z)) : Prop :=
  nb <> [] /\ forall d i, In (d, i) nb -> 0 <= i < Z.of_nat n /\ exists q, d = XFin q /\ (0 <= q)%Qc.
Definition least (m : Qc) (l : list Qc) : Prop := In m l /\ forall x, In x l -> (m <= x)%Qc.
Definition greatest (m : Qc) (l : list Qc) : Prop := In m l /\ forall x, In x l -> (x <= m)%Qc.
(** The smallest integer not below q. *)
Definition is_ceiling (c : Z) (q : Qc) : Prop := (this q <= inject_Z c)%Q /\ (inject_Z c < this q + 1)%Q.
(** An axis of regularly spaced coordinates starting at a. *)
Definition regular_axis (a cs : Qc) (n : Z) (v : list xq) : Prop :=
  Z.of_nat (length v) = n /\ forall j, 0 <= j < n -> nth (Z.to_nat j) v XNaN = XFin (a + Qcofz j * cs)%Qc.
(** Points with finite coordinates. *)
Definition points (pts : list (Qc * Qc)) : list (xq * xq) := map (fun p => (XFin (fst p), XFin (snd p))) pts.
(** Position of entry (i, j) of a raster with R rows whose lower left node is (x0, y0): columns run east, rows run south from the north edge. *)
Definition raster_node (x0 y0 cs : Qc) (R i j : Z) : xq * xq := (XFin (x0 + Qcofz j * cs)%Qc, XFin (y0 + Qcofz (R - 1 - i) * cs)%Qc).
(** The KD-tree's padding: with fewer than k points the missing ones are reported at infinite distance with the index n. *)
Definition padded_neighbours (n : nat) (nb : list (xq * Z)) : Prop :=
  (forall d i, In (d, i) nb -> 0 <= i <= Z.of_nat n) /\ In (XInf false, Z.of_nat n) nb.
