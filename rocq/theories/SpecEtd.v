(** Specification vocabulary for the exposure-time distribution plots, independent of their model. *)
From Coq Require Import ZArith Bool String List.
From Verif Require Import Num Py Walker ParticleTrack SpecWalk SpecRout.
Import ListNotations.
Open Scope Z_scope.

Section Spec.
Context {T : Type} {N : Num T}.
(** Travel time of particle q in its last record. *)
Definition final_time (w : walk T) (q : nat) : T := tat (record_of w q) (length (r_x (record_of w q)) - 1).
(** End of the curve: the smallest final travel time, or the largest for uniform time steps. *)
Definition end_time_of (uniform : bool) (w : walk T) (e : T) : Prop :=
  (exists q, (q < count w)%nat /\ e = final_time w q) /\
  forall q, (q < count w)%nat -> (if uniform then nleb (final_time w q) e else nleb e (final_time w q)) = true.
(** The particles that entered the region and left it before the end: their exposure times. *)
Definition left_region (ets : list T) (e : T) : list T := filter (fun t => nltb (ndec 1 6) t && nltb t (nmul (ndec 99 2) e)) ets.
(** How many of them had left by time t. *)
Definition left_by (ets : list T) (e t : T) : nat := length (filter (fun s => nleb s t) (left_region ets e)).
(** [nondecreasing l] *)
Definition nondecreasing (l : list T) : Prop := forall i j, (i <= j)%nat -> (j < length l)%nat -> nleb (nth i l nnan) (nth j l nnan) = true.
(** The fraction a/b of np particles has left by time t. *)
Definition reached (a b : Z) (ets : list T) (e : T) (np : Z) (t : T) : Prop := a * np <= b * Z.of_nat (left_by ets e t).
(** k of np particles, as a double. *)
Definition share (k : nat) (np : Z) : T := ndiv (nofZ (Z.of_nat k)) (nofZ np).
(** What is reported for the fraction a/b: nothing if it is never reached, otherwise the smallest recorded time at which it is, in units of td. *)
Definition quantile_report (ets : list T) (e : T) (np : Z) (td : T) (ab : Z * Z) (o : option T) : Prop :=
  match o with
  | None => forall t, ~ reached (fst ab) (snd ab) ets e np t
  | Some v => exists t, v = ndiv t td /\ In t (left_region ets e) /\ reached (fst ab) (snd ab) ets e np t /\
      forall u, nltb u t = true -> ~ reached (fst ab) (snd ab) ets e np u
  end.
Definition half_three_quarters_nine_tenths : list (Z * Z) := [(1, 2); (3, 4); (9, 10)].
End Spec.
