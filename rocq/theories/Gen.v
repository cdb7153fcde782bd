(** Model of generate_particles as a call with side effects, including its input check (dorado/particle_track.py,
    cited as pt).  A call returns a value or an exception and leaves a state in both cases. *)
From Coq Require Import ZArith Bool String List.
From Verif Require Import Num Py Walker ParticleTrack.
Import ListNotations.
Open Scope Z_scope.

Section Gen.
Context {T : Type} {N : Num T}.

(** Statements that may raise, over the mutable state of one Particles object. *)
Definition call (A : Type) := psim T -> res A * psim T.
Definition ret {A} (a : A) : call A := fun s => (Ok a, s).
Definition raise {A} (e : exn) : call A := fun s => (Err e, s).
Definition seqc {A B} (c : call A) (k : A -> call B) : call B :=
  fun s => match c s with (Ok a, s') => k a s' | (Err e, s') => (Err e, s') end.
Definition pure {A} (r : res A) : call A := fun s => (r, s).
Definition get_walk : call (option (walk T)) := fun s => (Ok (s_walk s), s).
(* self.Np_tracer = n *)
Definition set_np (n : Z) : call unit := fun s => (Ok tt, {| s_np := n; s_walk := s_walk s; s_wst := s_wst s |}).
(* self.walk_data = w *)
Definition set_walk (w : walk T) : call unit := fun s => (Ok tt, {| s_np := s_np s; s_walk := Some w; s_wst := s_wst s |}).
(* one draw of the generator: it is consumed even if what follows raises *)
Definition draw (draws : nat -> T) : call T := fun s =>
  (Ok (draws (w_pos (s_wst s))),
   {| s_np := s_np s; s_walk := s_walk s; s_wst := {| w_arr := w_arr (s_wst s); w_pos := S (w_pos (s_wst s)) |} |}).

(** A seeding request as the user writes it.  Python's conversions are represented by their outcome: [None] means
    that int(Np_tracer), or flattening and [int(x) for x in list(...)] of a location argument, raised; that
    seed_time is neither a float nor an int; that method is not a string. *)
Record request := {
  q_np : option Z; q_x : option (list Z); q_y : option (list Z); q_time : option T; q_method : option string
}.

(** pt:792-861 gen_input_check, in the order of its tests. *)
Definition gen_input_check (q : request) : res (Z * list Z * list Z * T * method) :=
  match q_np q with
  | None => Err TypeError
  | Some np =>
    match q_x q with
    | None => Err TypeError
    | Some xl =>
      match q_y q with
      | None => Err TypeError
      | Some yl =>
        match q_time q with
        | None => Err TypeError
        | Some t =>
          match q_method q with
          | None => Err TypeError
          | Some m => if String.eqb m "random" then Ok (np, xl, yl, t, Random)
                      else if String.eqb m "exact" then Ok (np, xl, yl, t, Exact)
                      else Err ValueError
          end
        end
      end
    end
  end.

(** lw:32-39 random_pick_seed: cutoffs[-1] (IndexError for an empty list) is evaluated before the draw. *)
Definition call_pick_seed (draws : nat -> T) (locs : list Z) : call Z :=
  match locs with
  | [] => raise IndexError
  | _ => seqc (draw draws) (fun u => pure (random_pick_seed locs u))
  end.
Fixpoint call_pick_seeds (draws : nat -> T) (locs : list Z) (n : nat) : call (list Z) :=
  match n with
  | O => ret []
  | S n' => seqc (call_pick_seed draws locs) (fun x =>
            seqc (call_pick_seeds draws locs n') (fun xs => ret (x :: xs)))
  end.

(** pt:451-623 generate_particles.  The two assignments to self are the last statements (pt:604-615). *)
Definition call_generate (P : pobj T) (draws : nat -> T) (q : request) (prev : option (walk T)) : call unit :=
  seqc (pure (gen_input_check q)) (fun a => let '(np, xl, yl, t0, m) := a in
  seqc (match m with
        | Random => seqc (call_pick_seeds draws xl (Z.to_nat np)) (fun xs =>
                    seqc (call_pick_seeds draws yl (Z.to_nat np)) (fun ys => ret (xs, ys)))
        | Exact => pure (exact_seeds np xl yl)
        end) (fun xys => let '(xs, ys) := xys in
  seqc (pure (mapM (fun i => (x <- py_nth xs i ;; Ok [x])%res) (zrange 0 np))) (fun new_x =>
  seqc (pure (mapM (fun i => (y <- py_nth ys i ;; Ok [y])%res) (zrange 0 np))) (fun new_y =>
  seqc (pure (start_vars P (o_vars P) (combine xs ys) [])) (fun ov =>
  seqc get_walk (fun stored =>
  let w0 := {| xinds := new_x; yinds := new_y; times := repeat [t0] (Z.to_nat np); opts := ov |} in
  let w1 := match stored with Some w => merge_walk w w0 | None => w0 end in
  let w2 := match prev with Some w => merge_walk w w1 | None => w1 end in
  seqc (set_np (Z.of_nat (length (xinds w2)))) (fun _ => set_walk w2))))))).

End Gen.
Arguments request : clear implicits.
