(** Specification vocabulary for particle motion and histories. *)
From Coq Require Import ZArith Bool String List.
From Verif Require Import Num Py Walker ParticleTrack SpecWeights SpecPick.
Import ListNotations.
Open Scope Z_scope.

Section Spec.
Context {T : Type} {N : Num T}.

(** Some cell of the 3x3 block around (x, y) (clipped to the grid) is an edge cell, type -1. *)
Definition edge_nearby (P : pobj T) (x y : Z) : Prop :=
  exists x' y', in_grid P x' y' /\ x - 1 <= x' <= x + 1 /\ y - 1 <= y' <= y + 1 /\ cell (o_ct P) x' y' = -1.

(** The direction that a draw u selects from the routing weights of the freshly constructed object. *)
Definition selects (lm : Libm T) (P : pobj T) (x y : Z) (u : T) (k : nat) : Prop :=
  exists v, (if o_steep P then steep_descent else random_pick) (weights_of lm P x y) u = Ok (k, v).

(** Documented travel time of a move in direction k: projected distance times the mean inverse velocity times
    (1 + diffusion), w being the draw used for diffusion. *)
Definition diffusion (P : pobj T) (w : T) : T :=
  if nltb n0 (o_diff P) then nmul (nsub nhalf w) (o_diff P) else n0.
Definition projected (lm : Libm T) (P : pobj T) (k : nat) (x y : Z) : T :=
  let along := m_cos lm (nsub (nth k (o_angles P) n0) (cell (o_vang P) x y)) in
  nmul (nmul (nth k (o_dist P) n0) (o_dx P)) (if nltb n0 along then along else n0).
Definition travel_time (lm : Libm T) (P : pobj T) (k : nat) (x y x' y' : Z) (w : T) : T :=
  nmul (nmul (nmul nhalf (projected lm P k x y))
             (nadd (ndiv n1 (cell (o_vel P) x y)) (ndiv n1 (cell (o_vel P) x' y'))))
       (nadd n1 (diffusion P w)).

(** The values that the generator may deliver.  Theorems hold for every such set; taking the set of all numbers
    in [0,1) gives the weakest requirement, taking the values of one stream ties a step to that stream. *)
Variable G : T -> Prop.

(** A documented move from record (x,y,t) to record (x',y',t'). *)
Definition documented_step (lm : Libm T) (P : pobj T) (x y : Z) (t : T) (x' y' : Z) (t' : T) : Prop :=
  exists k u w,
    (k < 9)%nat /\ k <> 4%nat /\ unit_draw u /\ unit_draw w /\
    ~ edge_nearby P x y /\ (x, y) <> (0, 0) /\
    selects lm P x y u k /\
    x' = x + nth k (o_jwalk P) 0 /\ y' = y + nth k (o_iwalk P) 0 /\ (x', y') <> (x, y) /\
    t' = nadd t (travel_time lm P k x y x' y' w) /\ G u /\ G w.

(** Why a particle at (x, y) may stay where it is in one step: it is at (0,0), next to an edge, or the direction
    picked is the cell itself. *)
Definition may_stay (lm : Libm T) (P : pobj T) (x y : Z) : Prop :=
  (x, y) = (0, 0) \/ edge_nearby P x y \/
  exists k u, (k < 9)%nat /\ unit_draw u /\ selects lm P x y u k /\
              (k = 4%nat \/ (nth k (o_jwalk P) 0 = 0 /\ nth k (o_iwalk P) 0 = 0)) /\ G u.

(** Input conditions used by the motion theorems. *)
(* every outer-ring cell is an edge cell *)
Definition ring_closed (P : pobj T) : Prop := forall i j, on_ring P i j -> cell (o_ct P) i j = -1.
(* the step tables move by at most one cell, and no step length is zero *)
Definition tables_ok (P : pobj T) : Prop :=
  forall k, (k < 9)%nat ->
    -1 <= nth k (o_iwalk P) 0 <= 1 /\ -1 <= nth k (o_jwalk P) 0 <= 1 /\
    neqb (nmul (nth k (o_dist P) n0) (o_dx P)) n0 = false.
Definition field_ok (lm : Libm T) (P : pobj T) : Prop :=
  wf_obj P /\ gamma_ok P /\ pow_ok lm P /\ ring_closed P /\ tables_ok P /\
  3 <= nrow (o_depth P) /\ 3 <= ncol (o_depth P).
(* the nine weights of every cell have a finite sum, in the order the pick adds them *)
Definition pick_vector (P : pobj T) (v : list T) : list T := if o_steep P then steep_prune v else map nanz v.
Definition weights_finite (lm : Libm T) (P : pobj T) : Prop :=
  forall i j, in_grid P i j -> nisfin (nth 8 (cumsum (pick_vector P (weights_of lm P i j))) nnan) = true.
(* a stream of numbers in [0,1) that the generator may deliver *)
Definition unit_stream (draws : nat -> T) : Prop := forall n, unit_draw (draws n) /\ G (draws n).

(** Positions that the code handles safely: interior cells, the bottom row and right column of the ring, and the
    cell (0,0). *)
Definition safe_pos (P : pobj T) (x y : Z) : Prop :=
  (x, y) = (0, 0) \/ (1 <= x < nrow (o_depth P) /\ 1 <= y < ncol (o_depth P)).

(** The value of a tracked variable at a cell. *)
Definition field_value (P : pobj T) (var : string) (x y : Z) : option T :=
  match o_roi P, String.eqb var "roi_flag" with
  | Some roi, true => Some (if cell roi x y =? 1 then n1 else n0)
  | _, _ => match dget var (avail_vars P) with Some g => Some (cell g x y) | None => None end
  end.
(** Tracked variable names: non-base names of particle_variables, without repetition, first occurrence kept. *)
Definition tvars (P : pobj T) : list string :=
  fold_left (fun acc v => if str_in v base_vars || str_in v acc then acc else (acc ++ [v])) (o_vars P) [].

(** A variable that can be tracked: 'roi_flag' if there is a roi grid, or one of the available grids. *)
Definition legit (P : pobj T) (v : string) : Prop :=
  o_roi P <> None /\ v = "roi_flag"%string \/ exists g, dget v (avail_vars P) = Some g.
Definition vars_ok (P : pobj T) : Prop := forall v, In v (tvars P) -> legit P v.

(** One particle's history in a walk dictionary. *)
Definition row (vars : list string) (w : walk T) (p : nat) : prow T :=
  {| r_x := nth p (xinds w) []; r_y := nth p (yinds w) []; r_t := nth p (times w) [];
     r_o := map (fun v => (v, nth p (dflt (dget v (opts w)) []) [])) vars |}.
Definition count (w : walk T) : nat := length (xinds w).
(** All fields list the same number of particles, and every tracked variable is present. *)
Definition shaped (vars : list string) (w : walk T) : Prop :=
  length (yinds w) = count w /\ length (times w) = count w /\
  forall v, In v vars -> exists l, dget v (opts w) = Some l /\ length l = count w.

(** All lists of one particle have the same, non-zero length. *)
Definition row_rect (r : prow T) : Prop :=
  (0 < length (r_x r))%nat /\ length (r_y r) = length (r_x r) /\ length (r_t r) = length (r_x r) /\
  forall kv, In kv (r_o r) -> length (snd kv) = length (r_x r).
Definition xat (r : prow T) (i : nat) : Z := nth i (r_x r) 0.
Definition yat (r : prow T) (i : nat) : Z := nth i (r_y r) 0.
Definition tat (r : prow T) (i : nat) : T := nth i (r_t r) n0.
Definition last_ix (r : prow T) : nat := (length (r_x r) - 1)%nat.

(** r' is r with one record appended to every list; the record is a documented move from the last one. *)
Definition extend1 (lm : Libm T) (P : pobj T) (r r' : prow T) : Prop :=
  exists x' y' t',
    documented_step lm P (xat r (last_ix r)) (yat r (last_ix r)) (tat r (last_ix r)) x' y' t' /\
    r_x r' = r_x r ++ [x'] /\ r_y r' = r_y r ++ [y'] /\ r_t r' = r_t r ++ [t'] /\
    r_o r' = map (fun kv => (fst kv, snd kv ++ [field_value P (fst kv) x' y'])) (r_o r).
Inductive extends (lm : Libm T) (P : pobj T) : nat -> prow T -> prow T -> Prop :=
| ext_refl r : extends lm P 0 r r
| ext_step n r r1 r2 : extends lm P n r r1 -> extend1 lm P r1 r2 -> extends lm P (S n) r r2.

(** The estimate of the next time step used by a target-time run for a particle to which the current call has
    appended n records: the last time difference, at least 0.1 once the call has moved the particle; 0.1 for a
    particle with a single record. *)
Definition next_dt (n : nat) (r : prow T) : T :=
  match n with
  | O => if (1 <? length (r_t r))%nat then nsub (tat r (last_ix r)) (tat r (last_ix r - 1)) else ntenth
  | S _ => py_max ntenth (nsub (tat r (last_ix r)) (tat r (last_ix r - 1)))
  end.
(** One more step is estimated to bring the particle at least as close to the target time. *)
Definition goes_on (target : T) (n : nat) (r : prow T) : Prop :=
  nleb (nabs (nsub (nadd (tat r (last_ix r)) (next_dt n r)) target)) (nabs (nsub (tat r (last_ix r)) target)) = true.
(** Why a target-time run that appended n records to a particle stopped there. *)
Definition stopped (lm : Libm T) (P : pobj T) (target : T) (max_iter : Z) (n : nat) (r : prow T) : Prop :=
  Z.of_nat n = Z.max 1 max_iter \/
  may_stay lm P (xat r (last_ix r)) (yat r (last_ix r)) \/
  ~ goes_on target n r.

(** A fresh particle. *)
Definition seed_row (P : pobj T) (vars : list string) (x y : Z) (t0 : T) : prow T :=
  {| r_x := [x]; r_y := [y]; r_t := [t0]; r_o := map (fun v => (v, [field_value P v x y])) vars |}.

(** API calls on one Particles object. *)
Inductive op :=
| OpGen (np : Z) (xl yl : list Z) (t0 : T) (m : method) (prev : option (walk T))
| OpRun
| OpRunTo (target : T) (max_iter : Z)
| OpClear.
Definition do_op (lm : Libm T) (P : pobj T) (draws : nat -> T) (o : op) (s : psim T) : res (psim T) :=
  match o with
  | OpGen np xl yl t0 m prev => generate_particles P draws np xl yl t0 m prev s
  | OpRun => match run_step lm P draws s with Ok (_, s') => Ok s' | Err e => Err e end
  | OpRunTo target max_iter => match run_target lm P draws target max_iter s with Ok (_, _, s') => Ok s' | Err e => Err e end
  | OpClear => Ok (clear_walk_data s)
  end.
(** A program: a sequence of calls, all of which return normally. *)
Fixpoint do_ops (lm : Libm T) (P : pobj T) (draws : nat -> T) (os : list op) (s : psim T) : res (psim T) :=
  match os with
  | [] => Ok s
  | o :: rest => (s' <- do_op lm P draws o s ;; do_ops lm P draws rest s')%res
  end.
(** Seeds of a call: only positions that the code handles safely are requested, and their number is not negative (with 'random', every combination
    of a listed row and a listed column can occur). *)
Definition seeds_ok (P : pobj T) (o : op) : Prop :=
  match o with
  | OpGen np xl yl _ Random _ => 0 <= np /\ forall x y, In x xl -> In y yl -> safe_pos P x y
  | OpGen np xl yl _ Exact _ => 0 <= np /\ length yl = length xl /\ forall x y, In (x, y) (combine xl yl) -> safe_pos P x y
  | _ => True
  end.
Definition prev_of (o : op) : option (walk T) := match o with OpGen _ _ _ _ _ prev => prev | _ => None end.
End Spec.
Arguments op : clear implicits.
