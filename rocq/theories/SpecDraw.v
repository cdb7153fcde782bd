(** Which random number decides what: the full effect of one step on one particle. *)
From Coq Require Import ZArith Bool String List.
From Verif Require Import Num Py Walker ParticleTrack SpecWeights SpecPick SpecWalk SpecHist SpecInit SpecApi.
Import ListNotations.
Open Scope Z_scope.

Section Spec.
Context {T : Type} {N : Num T}.

(** r with one record appended, the tracked values being those of the new position. *)
Definition with_record (P : pobj T) (r : prow T) (x y : Z) (t : T) : prow T :=
  {| r_x := r_x r ++ [x]; r_y := r_y r ++ [y]; r_t := r_t r ++ [t];
     r_o := map (fun kv => (fst kv, snd kv ++ [field_value P (fst kv) x y])) (r_o r) |}.

(** The effect of one step on a particle's history r, if u is the number drawn for the direction and v the number drawn for
    the diffusion.  A particle at (0,0), next to an edge, or for which u selects its own cell, keeps its history; any other
    particle moves in the direction that u selects and gets one record. *)
Definition one_step (lm : Libm T) (P : pobj T) (r : prow T) (u v : T) (r' : prow T) : Prop :=
  let x := last_x r in let y := last_y r in let t := tat r (last_ix r) in
  (((x, y) = (0, 0) \/ edge_nearby P x y \/
    exists k, (k < 9)%nat /\ selects lm P x y u k /\ (k = 4%nat \/ (nth k (o_jwalk P) 0 = 0 /\ nth k (o_iwalk P) 0 = 0))) /\ r' = r) \/
  ((x, y) <> (0, 0) /\ ~ edge_nearby P x y /\
   exists k, (k < 9)%nat /\ k <> 4%nat /\ selects lm P x y u k /\
     let x' := x + nth k (o_jwalk P) 0 in let y' := y + nth k (o_iwalk P) 0 in
     (x', y') <> (x, y) /\ r' = with_record P r x' y' (nadd t (travel_time lm P k x y x' y' v))).

(** Number of particles p < q with a property. *)
Definition tally (f : nat -> bool) (q : nat) : nat := length (filter f (seq 0 q)).
(** Particle p is not at (0,0). *)
Definition awake (P : pobj T) (w : walk T) (p : nat) : bool :=
  negb ((last_x (hist P w p) =? 0) && (last_y (hist P w p) =? 0)).
(** Particle p has more records in w' than in w. *)
Definition grew (P : pobj T) (w w' : walk T) (p : nat) : bool :=
  (length (r_x (hist P w p)) <? length (r_x (hist P w' p)))%nat.

(** One particle in a target-time run: m records were appended so far, the next random number is number a of the stream; the run
    leaves the particle with history r' and the stream at b.  Every move uses the next number for the direction and, with
    diffusion, the one after it for the diffusion. *)
Definition per_move (P : pobj T) : nat := if nltb n0 (o_diff P) then 2%nat else 1%nat.
Inductive journey (lm : Libm T) (P : pobj T) (draws : nat -> T) (target : T) (max_iter : Z) : nat -> nat -> prow T -> nat -> prow T -> Prop :=
| j_full m a r : (0 < m)%nat -> max_iter <= Z.of_nat m -> journey lm P draws target max_iter m a r a r
| j_time m a r : ~ goes_on target m r -> journey lm P draws target max_iter m a r a r
| j_zero m a r : (last_x r, last_y r) = (0, 0) -> journey lm P draws target max_iter m a r a r
| j_edge a r : edge_nearby P (last_x r) (last_y r) -> journey lm P draws target max_iter 0 a r a r
| j_stay m a r : (m = 0%nat \/ Z.of_nat m < max_iter) -> goes_on target m r -> (last_x r, last_y r) <> (0, 0) ->
    ~ (m = 0%nat /\ edge_nearby P (last_x r) (last_y r)) ->
    one_step lm P r (draws a) (draws (S a)) r -> journey lm P draws target max_iter m a r (S a) r
| j_move m a r r1 b r2 : (m = 0%nat \/ Z.of_nat m < max_iter) -> goes_on target m r ->
    one_step lm P r (draws a) (draws (S a)) r1 -> length (r_x r1) = S (length (r_x r)) ->
    journey lm P draws target max_iter (S m) (a + per_move P) r1 b r2 -> journey lm P draws target max_iter m a r b r2.
End Spec.
