(** run_iteration as the sequence of its changes to the walk data.  The walk data are Python lists shared between Particles.walk_data and the local names all_xinds,
    all_yinds, all_times and optional_vars (particle_track.py:672-689), and they are changed by list.append only.  An exception or an interrupt (KeyboardInterrupt)
    between two appends leaves the lists as they are at that point.  The functions below are run_iteration with the appends made explicit: they return the list of
    appends made, in order, and the result. *)
From Coq Require Import ZArith Bool String List.
From Verif Require Import Num Py Walker ParticleTrack.
Import ListNotations.
Open Scope Z_scope.

Section Interrupt.
Context {T : Type} {N : Num T}.

(** One append to a list of particle i (pt:709-713, 754-758). *)
Inductive event := AX (i : nat) (v : Z) | AY (i : nat) (v : Z) | AT (i : nat) (v : T) | AV (var : string) (i : nat) (v : option T).
Definition push {A} (i : nat) (v : A) (l : list (list A)) : list (list A) := upd_nth i (nth i l [] ++ [v]) l.
Definition apply_ev (m : walk T) (e : event) : walk T :=
  match e with
  | AX i v => {| xinds := push i v (xinds m); yinds := yinds m; times := times m; opts := opts m |}
  | AY i v => {| xinds := xinds m; yinds := push i v (yinds m); times := times m; opts := opts m |}
  | AT i v => {| xinds := xinds m; yinds := yinds m; times := push i v (times m); opts := opts m |}
  | AV var i v => {| xinds := xinds m; yinds := yinds m; times := times m;
                     opts := map (fun kv => if String.eqb (fst kv) var then (fst kv, push i v (snd kv)) else kv) (opts m) |}
  end.
(** The walk data after a list of appends. *)
Definition replay (m : walk T) (es : list event) : walk T := fold_left apply_ev es m.

(** A computation with its appends; after an error no append follows. *)
Definition log (A : Type) : Type := (list event * res A)%type.
Definition lret {A} (a : A) : log A := ([], Ok a).
Definition lift {A} (r : res A) : log A := ([], r).
Definition emit (e : event) : log unit := ([e], Ok tt).
Definition lbind {A B} (x : log A) (k : A -> log B) : log B :=
  match snd x with Ok a => (fst x ++ fst (k a), snd (k a)) | Err e => (fst x, Err e) end.
Fixpoint lforeach {A} (f : A -> log unit) (l : list A) : log unit :=
  match l with [] => lret tt | a :: r => lbind (f a) (fun _ => lforeach f r) end.

(** pt:709-713 and 754-758: one record of particle i; k is the index into the lists of the stepper. *)
Definition record_log (i : nat) (p : Z * Z) (k : Z) (tts : list T) (keys : list string) (upd : list (string * list (option T))) : log unit :=
  lbind (emit (AX i (fst p))) (fun _ =>
  lbind (emit (AY i (snd p))) (fun _ =>
  lbind (lift (py_nth tts k)) (fun t =>
  lbind (emit (AT i t)) (fun _ =>
  lforeach (fun var => lbind (lift (match dget var upd with Some vs => py_nth vs k | None => Err KeyError end)) (fun v => emit (AV var i v))) keys)))).

(** pt:658-720 run_iteration(target_time=None). *)
Definition step_log (lm : Libm T) (P : pobj T) (draws : nat -> T) (s : psim T) : log unit :=
  match s_walk s with
  | None => lift (Err ValueError)
  | Some wd =>
    let np := if s_np s =? 0 then Z.of_nat (length (xinds wd)) else s_np s in
    let idx := zrange 0 np in
    lbind (lift (mapM (last_of (xinds wd)) idx)) (fun sx =>
    lbind (lift (mapM (last_of (yinds wd)) idx)) (fun sy =>
    lbind (lift (mapM (last_of (times wd)) idx)) (fun st =>
    let ov := read_opts np (o_vars P) (opts wd) [] in
    lbind (lift (mapM (fun kv => mapM (last_of (snd kv)) idx) ov)) (fun _ =>
    let pairs := combine sx sy in
    lbind (lift (particle_stepper lm P draws pairs st (map fst ov) (s_wst s))) (fun r =>
    let '(new_inds, tts, upd, ws) := r in
    lforeach (fun ii =>
      lbind (lift (py_nth new_inds ii)) (fun p =>
      lbind (lift (py_nth pairs ii)) (fun q =>
      if negb (pair_eqb p q) then record_log (Z.to_nat ii) p ii tts (map fst ov) upd else lret tt))) idx)))))
  end.

(** pt:744-769 the loop of particle i; m is the walk data as they are now, with all optional variables. *)
Fixpoint loop_log (fuel : nat) (lm : Libm T) (P : pobj T) (draws : nat -> T) (target : T) (max_iter : Z)
    (ii : Z) (m : walk T) (est : T) (count : Z) (s : wst T) : log (walk T * wst T) :=
  match fuel with
  | O => lift (Err FuelError)
  | S fuel' =>
    lbind (lift (last_of (xinds m) ii)) (fun x =>
    lbind (lift (last_of (yinds m) ii)) (fun y =>
    lbind (lift (last_of (times m) ii)) (fun t =>
    if nleb (nabs (nsub (nadd t est) target)) (nabs (nsub t target)) then
      lbind (lift (mapM (fun kv => last_of (snd kv) ii) (opts m))) (fun _ =>
      lbind (lift (particle_stepper lm P draws [(x, y)] [t] (map fst (opts m)) s)) (fun r =>
      let '(ni, tts, upd, s') := r in
      lbind (lift (py_nth ni 0)) (fun p =>
      if negb (pair_eqb p (x, y)) then
        let rl := record_log (Z.to_nat ii) p 0 tts (map fst (opts m)) upd in
        lbind rl (fun _ =>
        let m' := replay m (fst rl) in
        lbind (lift (last_of (times m') ii)) (fun t' =>
        if max_iter <? count + 1 then lret (m', s')
        else loop_log fuel' lm P draws target max_iter ii m' (py_max ntenth (nsub t' t)) (count + 1) s'))
      else lret (m, s'))))
    else lret (m, s))))
  end.
(** pt:726-769 all particles. *)
Fixpoint particles_log (lm : Libm T) (P : pobj T) (draws : nat -> T) (target : T) (max_iter : Z) (idx : list Z) (m : walk T) (s : wst T) : log (walk T * wst T) :=
  match idx with
  | [] => lret (m, s)
  | ii :: rest =>
    lbind (lift (py_nth (times m) ii)) (fun ts =>
    lbind (lift (if 1 <? Z.of_nat (length ts) then (a <- py_nth ts (-1) ;; b <- py_nth ts (-2) ;; Ok (nsub a b))%res else Ok ntenth)) (fun est =>
    lbind (lift (last_of (xinds m) ii)) (fun x =>
    lbind (lift (last_of (yinds m) ii)) (fun y =>
    lbind (if near_edge (o_ct P) x y then lret (m, s)
           else loop_log (S (Z.to_nat max_iter)) lm P draws target max_iter ii m est 1 s) (fun ms =>
    particles_log lm P draws target max_iter rest (fst ms) (snd ms))))))
  end.
(** pt:658-776 run_iteration(target_time, max_iter), up to the point where all_walk_data is complete. *)
Definition target_log (lm : Libm T) (P : pobj T) (draws : nat -> T) (target : T) (max_iter : Z) (s : psim T) : log unit :=
  match s_walk s with
  | None => lift (Err ValueError)
  | Some wd =>
    let np := if s_np s =? 0 then Z.of_nat (length (xinds wd)) else s_np s in
    let idx := zrange 0 np in
    lbind (lift (mapM (last_of (xinds wd)) idx)) (fun _ =>
    lbind (lift (mapM (last_of (yinds wd)) idx)) (fun _ =>
    lbind (lift (mapM (last_of (times wd)) idx)) (fun _ =>
    let ov := read_opts np (o_vars P) (opts wd) [] in
    lbind (lift (mapM (fun kv => mapM (last_of (snd kv)) idx) ov)) (fun _ =>
    lbind (particles_log lm P draws target max_iter idx {| xinds := xinds wd; yinds := yinds wd; times := times wd; opts := ov |} (s_wst s)) (fun _ => lret tt)))))
  end.
End Interrupt.
Arguments event : clear implicits.
Arguments log : clear implicits.
