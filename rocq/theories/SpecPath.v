(** The walk as a Markov chain: cells visited by a sequence of directions, and the draws that choose a direction. *)
From Coq Require Import ZArith Bool String List QArith Qcanon.
From Verif Require Import Num XQ Py Walker ParticleTrack SpecWeights SpecPick SpecWalk SpecHist SpecInit SpecApi SpecDraw.
Import ListNotations.
Open Scope Z_scope.

(** The cell reached from c by moving in the directions ks (row and column steps as listed in the step tables). *)
Fixpoint after {T} (P : pobj T) (c : Z * Z) (ks : list nat) : Z * Z :=
  match ks with
  | [] => c
  | k :: ks => after P (fst c + nth k (o_jwalk P) 0, snd c + nth k (o_iwalk P) 0) ks
  end.
(** The weights from which a direction is picked at cell c (NaN counts as 0), as rational numbers. *)
Definition weighs (lm : Libm xq) (P : pobj xq) (c : Z * Z) (w : list Qc) : Prop :=
  map nanz (weights_of lm P (fst c) (snd c)) = map XFin w /\ Forall (fun x => (0 <= x)%Qc) w /\ (0 < Qcsum w)%Qc.
(** Lower and upper end of the interval of draws that choose direction k. *)
Definition lo_draw (w : list Qc) (k : nat) : Qc := (prefix_sum w k / Qcsum w)%Qc.
Definition hi_draw (w : list Qc) (k : nat) : Qc := (prefix_sum w (S k) / Qcsum w)%Qc.
Definition chooses (w : list Qc) (k : nat) (u : xq) : Prop :=
  exists v, u = XFin v /\ (k = 0%nat \/ (lo_draw w k < v)%Qc) /\ (v <= hi_draw w k)%Qc.
(** The documented probability of direction k: its share of the weights. *)
Definition share (w : list Qc) (k : nat) : Qc := (nth k w 0 / Qcsum w)%Qc.
Definition product (l : list Qc) : Qc := fold_right Qcmult 1%Qc l.
(** Where particle q is. *)
Definition place {T} {N : Num T} (P : pobj T) (w : walk T) (q : nat) : Z * Z := (last_x (hist P w q), last_y (hist P w q)).
(** The direction number of particle q in the next iteration (C79). *)
Definition direction_draw {T} {N : Num T} (P : pobj T) (draws : nat -> T) (s : psim T) (w : walk T) (q : nat) : T :=
  draws (w_pos (s_wst s) + tally (awake P w) q)%nat.
