(** Model of /repo/dorado/parallel_routing.py (cited as pr:N). *)
From Coq Require Import ZArith Bool String List.
From Verif Require Import Num Py Walker ParticleTrack PostProc.
Import ListNotations.
Open Scope Z_scope.
Open Scope res_scope.

Section Par.
Context {T : Type} {N : Num T}.

(** pr:40-44: the loop; [last] is the variable all_walk, unbound before the first iteration. *)
Fixpoint iterate (lm : Libm T) (P : pobj T) (draws : nat -> T) (n : nat) (last : option (walk T)) (s : psim T) : res (option (walk T) * psim T) :=
  match n with
  | O => Ok (last, s)
  | S n' => '(w, s') <- run_step lm P draws s ;; iterate lm P draws n' (Some w) s'
  end.
(** pr:19-46 run_iter: generate_particles with its defaults (method 'random', start time 0, no previous data), then num_iter
    iterations; the last returned dictionary is the result. *)
Definition run_iter (lm : Libm T) (P : pobj T) (draws : nat -> T) (num_iter np : Z) (xl yl : list Z) (s : psim T) : res (walk T * psim T) :=
  s1 <- generate_particles P draws np xl yl n0 Random None s ;;
  '(last, s2) <- iterate lm P draws (Z.to_nat num_iter) None s1 ;;
  match last with Some w => Ok (w, s2) | None => Err UnboundLocalError end.

(** pr:49-75 combine_result. *)
Definition extend_vars (o : list (string * list (list (option T)))) (acc : list (string * list (list (option T)))) : res (list (string * list (list (option T)))) :=
  foldM (fun acc kv => match dget (fst kv) acc with Some l => Ok (dset (fst kv) (l ++ snd kv) acc) | None => Err KeyError end) o acc.
Definition extend_walk (acc r : walk T) : res (walk T) :=
  o <- extend_vars (opts r) (opts acc) ;;
  Ok {| xinds := xinds acc ++ xinds r; yinds := yinds acc ++ yinds r; times := times acc ++ times r; opts := o |}.
Definition combine_result (rs : list (walk T)) : res (walk T) :=
  match rs with
  | [] => Err IndexError
  | r0 :: _ => foldM extend_walk rs {| xinds := []; yinds := []; times := []; opts := map (fun kv => (fst kv, [])) (opts r0) |}
  end.

(** ** The worker pool (pr:135-143)
    p_list holds num_cores times the same object; Pool.map with as many processes hands out one task at a time (chunk size 1), in order,
    to whichever worker is free, pickling the object anew for every task, so that every task starts from a copy of the caller's object.
    What a worker keeps between tasks is the state of its random number generator, here the position in its stream.  An execution is
    a sequence of events: a free worker takes the next task, a busy worker finishes and delivers its result.  After an exception
    the worker's generator position is not tracked (the call fails in any case). *)
Inductive event := Take (w : nat) | Done (w : nat).
Record pool := { p_next : nat; p_busy : nat -> option nat; p_rng : nat -> nat; p_out : list (option (res (walk T))) }.
Definition set_at {A} (f : nat -> A) (w : nat) (a : A) : nat -> A := fun v => if Nat.eqb v w then a else f v.
(** [run w pos]: a task executed by worker w with its generator at pos: the result and the new position. *)
Definition pool_step (run : nat -> nat -> res (walk T * nat)) (c : nat) (e : event) (p : pool) : option pool :=
  match e with
  | Take w => if Nat.ltb w c && Nat.ltb (p_next p) c then
                match p_busy p w with
                | None => Some {| p_next := S (p_next p); p_busy := set_at (p_busy p) w (Some (p_next p)); p_rng := p_rng p; p_out := p_out p |}
                | Some _ => None end
              else None
  | Done w => match p_busy p w with
              | Some t =>
                  Some match run w (p_rng p w) with
                       | Ok (wd, pos) => {| p_next := p_next p; p_busy := set_at (p_busy p) w None; p_rng := set_at (p_rng p) w pos; p_out := upd_nth t (Some (Ok wd)) (p_out p) |}
                       | Err e => {| p_next := p_next p; p_busy := set_at (p_busy p) w None; p_rng := p_rng p; p_out := upd_nth t (Some (Err e)) (p_out p) |}
                       end
              | None => None
              end
  end.
Fixpoint pool_run (run : nat -> nat -> res (walk T * nat)) (c : nat) (es : list event) (p : pool) : option pool :=
  match es with [] => Some p | e :: r => match pool_step run c e p with Some p' => pool_run run c r p' | None => None end end.
Definition pool_init (c : nat) (start : nat -> nat) : pool := {| p_next := 0; p_busy := fun _ => None; p_rng := start; p_out := repeat None c |}.
(** Pool.map returns when every task has delivered, with the results in task order; it raises if a task failed. *)
Fixpoint gather (l : list (option (res (walk T)))) : option (res (list (walk T))) :=
  match l with
  | [] => Some (Ok [])
  | None :: _ => None
  | Some r :: l' => match gather l' with None => None | Some rs => Some (w <- r ;; ws <- rs ;; Ok (w :: ws)) end
  end.

(** pr:95-151 parallel_routing under the execution [es]; None if [es] is not a complete execution.  Worker w draws from the stream [draws w],
    starting at position [start w].  With the 'fork' start method every worker inherits the caller's NumPy generator: draws w and start w are
    then those of the caller, for every w. *)
Definition with_pos (s : psim T) (n : nat) : psim T :=
  {| s_np := s_np s; s_walk := s_walk s; s_wst := {| w_arr := w_arr (s_wst s); w_pos := n |} |}.
Definition task (lm : Libm T) (P : pobj T) (draws : nat -> nat -> T) (num_iter np : Z) (xl yl : list Z) (s : psim T) (w pos : nat) : res (walk T * nat) :=
  '(wd, s') <- run_iter lm P (draws w) num_iter np xl yl (with_pos s pos) ;; Ok (wd, w_pos (s_wst s')).
Definition parallel_routing (lm : Libm T) (P : pobj T) (draws : nat -> nat -> T) (start : nat -> nat) (num_iter np : Z) (xl yl : list Z)
    (num_cores : Z) (s : psim T) (es : list event) : option (res (walk T)) :=
  if num_cores <? 1 then Some (Err ValueError)   (* Pool(processes) *)
  else
    match pool_run (task lm P draws num_iter np xl yl s) (Z.to_nat num_cores) es (pool_init (Z.to_nat num_cores) start) with
    | None => None
    | Some p => match gather (p_out p) with None => None | Some rs => Some (ws <- rs ;; combine_result ws) end
    end.
End Par.
Arguments pool : clear implicits.
