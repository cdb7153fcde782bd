(** A session with the API: construct an object from a standard parameter set, then call generate_particles,
    run_iteration and clear_walk_data in any order and number. *)
From Coq Require Import ZArith Bool String List.
From Verif Require Import Num Py Walker ParticleTrack SpecWeights SpecPick SpecWalk SpecHist SpecInit.
Import ListNotations.
Open Scope Z_scope.

Section Spec.
Context {T : Type} {N : Num T}.
Variable G : T -> Prop.   (* the values that the generator may deliver, see SpecWalk *)

(** P was constructed from p, and the calls made so far (draws being the random stream) led to state s. *)
Definition session (lm : Libm T) (L W : Z) (p : params T) (P : pobj T) (draws : nat -> T) (s : psim T) : Prop :=
  standard lm L W p /\ (exists p', init lm p = Ok (P, p')) /\ unit_stream G draws /\ reached G lm P draws s.

(** Same, with all particles seeded strictly inside the outer ring. *)
Definition session_inside (lm : Libm T) (L W : Z) (p : params T) (P : pobj T) (draws : nat -> T) (s : psim T) : Prop :=
  standard lm L W p /\ (exists p', init lm p = Ok (P, p')) /\ unit_stream G draws /\
  exists pos os, Forall (fun o => op_ok G lm P o /\ seeds_inside P o) os /\ do_ops lm P draws os (init_sim lm P pos) = Ok s.

(** What the time theorems need beyond a standard set-up: the cosine never exceeds one, dx is a number >= 0 with
    sqrt(2)*dx finite, diff_coeff is a number <= 2 (negative values are clipped by the code). *)
Definition time_params (lm : Libm T) (p : params T) : Prop :=
  (forall a, nltb n1 (m_cos lm a) = false) /\
  (forall dx, p_dx p = Some dx -> nn dx /\ nisfin dx = true /\ nisfin (nmul (m_sqrt lm (nofZ 2)) dx) = true) /\
  (forall d, p_diff p = Some d -> nleb d (nofZ 2) = true).

(** The history of particle q in walk data w. *)
Definition hist (P : pobj T) (w : walk T) (q : nat) : prow T := row (tvars P) w q.
(** Its last record. *)
Definition last_x (r : prow T) : Z := xat r (last_ix r).
Definition last_y (r : prow T) : Z := yat r (last_ix r).
(** Every list of r is a prefix of the corresponding list of r', longer by exactly n entries. *)
Definition grown (n : nat) (r r' : prow T) : Prop :=
  (exists l, r_x r' = r_x r ++ l /\ length l = n) /\ (exists l, r_y r' = r_y r ++ l /\ length l = n) /\
  (exists l, r_t r' = r_t r ++ l /\ length l = n) /\
  map fst (r_o r') = map fst (r_o r) /\
  forall k v l, nth_error (r_o r) k = Some (v, l) -> exists l', nth_error (r_o r') k = Some (v, l ++ l') /\ length l' = n.
End Spec.
(** Calls of run_iteration, with and without a target time. *)
Definition is_run {T} (o : op T) : Prop := match o with OpRun => True | OpRunTo _ _ => True | _ => False end.
