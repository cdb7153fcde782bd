(** Specification vocabulary for the spatial exposure maps, independent of their model. *)
From Coq Require Import ZArith Bool String List QArith Qcanon Permutation Sorted.
From Verif Require Import Num XQ Py Walker ParticleTrack SpecWalk SpecPost.
Import ListNotations.
Open Scope Z_scope.

(** An axis of n cells is cut every k cells; what remains at the end belongs to the last of the n/k parts.  [part n k r i]: cell i is in part r. *)
Definition part (n k r i : Z) : Prop := 0 <= r < n / k /\ r * k <= i /\ (if r =? n / k - 1 then i < n else i < (r + 1) * k).
(** A particle is counted for part r if it starts there or on the first cell behind it. *)
Definition counted (n k r i : Z) : bool := (r * k <=? i) && (i <=? (if r =? n / k - 1 then n else (r + 1) * k)).
(** Position on the axis where one part ends and another one begins. *)
Definition inner_boundary (n k i : Z) : bool := (0 <? i) && (i mod k =? 0) && (i / k <? n / k).

Section Spec.
Context {T : Type} {N : Num T}.
(** The particles counted for chunk (r, c), in order. *)
Definition members (w : walk T) (L W k r c : Z) : list nat :=
  filter (fun q => counted L k r (xat (path w q) 0) && counted W k c (yat (path w q) 0)) (seq 0 (count w)).
(** The chunk contains a cell of the region of interest (type 1). *)
Definition has_roi (ct : arr Z) (L W k r c : Z) : Prop := exists i j, part L k r i /\ part W k c j /\ cell ct i j = 1.
(** The region of interest as a 0/1 map, and its part inside chunk (r, c). *)
Definition region_of (ct : arr Z) (L W : Z) (m : arr Z) : Prop :=
  nrow m = L /\ ncol m = W /\ forall i j, 0 <= i < L -> 0 <= j < W -> (cell m i j = 0 \/ cell m i j = 1) /\ (cell m i j = 1 <-> cell ct i j = 1).
Definition region_in (ct : arr Z) (L W k r c : Z) (m : arr Z) : Prop :=
  nrow m = L /\ ncol m = W /\ forall i j, 0 <= i < L -> 0 <= j < W ->
    (cell m i j = 0 \/ cell m i j = 1) /\ (cell m i j = 1 <-> cell ct i j = 1 /\ part L k r i /\ part W k c j).
(** Entry of chunk (r, c) in the returned list (chunks are listed row by row). *)
Definition entry {A} (out : list (option A)) (W k r c : Z) : option A := nth (Z.to_nat (r * (W / k) + c)) out None.
End Spec.

(** ** Outlier filter *)
(** Cell (p, q) is in the window of the given size around (i, j). *)
Definition in_window {A} (a : arr A) (size i j p q : Z) : Prop :=
  0 <= p < nrow a /\ 0 <= q < ncol a /\ Z.abs (p - i) <= size / 2 /\ Z.abs (q - j) <= size / 2.
(** Every entry is a number or NaN. *)
Definition finite_or_nan (a : arr xq) : Prop :=
  forall i j, 0 <= i < nrow a -> 0 <= j < ncol a -> cell a i j = XNaN \/ exists v, cell a i j = XFin v.
(** The numbers in the window around (i, j), row by row. *)
Definition window_vals (a : arr xq) (size i j : Z) : list Qc :=
  flat_map (fun p => flat_map (fun q => if (Z.abs (p - i) <=? size / 2) && (Z.abs (q - j) <=? size / 2)
                                        then match cell a p q with XFin v => [v] | _ => [] end else []) (zrange 0 (ncol a))) (zrange 0 (nrow a)).
(** m is the median of l: of the values in increasing order the middle one, or the mean of the two middle ones. *)
Definition is_median (l : list Qc) (m : Qc) : Prop :=
  exists s, Permutation l s /\ StronglySorted Qcle s /\
  if Nat.even (length l) then (m * Qcofz 2 = nth (length l / 2 - 1) s 0 + nth (length l / 2) s 0)%Qc else m = nth (length l / 2) s 0%Qc.
Definition dist (m x : Qc) : Qc := if Qclt_le_dec (x - m) 0 then (m - x)%Qc else (x - m)%Qc.
Definition qtotal (l : list Qc) : Qc := fold_right Qcplus 0%Qc l.
(** v is the mean of the non-empty list l. *)
Definition is_mean (l : list Qc) (v : Qc) : Prop := l <> [] /\ (v * Qcofz (Z.of_nat (length l)) = qtotal l)%Qc.

(** ** Percentiles *)
(** d 0 + ... + d i, and its share of the total *)
Definition mass {T} {N : Num T} (d : list T) (i : nat) : T := fold_left nadd (firstn i (tl d)) (hd nnan d).
Definition share {T} {N : Num T} (d : list T) (i : nat) : T := ndiv (mass d i) (mass d (length d - 1)).
(** i is the first index at which the share reaches p *)
Definition first_reaching {T} {N : Num T} (d : list T) (p : T) (i : nat) : Prop :=
  (i < length d)%nat /\ nleb p (share d i) = true /\ forall j, (j < i)%nat -> nltb (share d j) p = true.
(** Density values that add up to a positive finite number. *)
Definition density {T} {N : Num T} (d : list T) : Prop :=
  (forall x, In x d -> nleb n0 x = true) /\ nltb n0 (mass d (length d - 1)) = true /\ nisfin (mass d (length d - 1)) = true.
(** At least five different values of l are selected by p. *)
Definition five_distinct {T} (p : T -> Prop) (l : list T) : Prop := exists s, NoDup s /\ length s = 5%nat /\ forall x, In x s -> In x l /\ p x.
