(** Walk data as Python objects.  A walk-data dictionary holds lists of lists; the inner lists (one per field and particle) are mutable and can be shared between
    dictionaries: `internal_xinds + start_xindices` (dorado/particle_track.py, cited as pt, 582-591 and 600-611) copies references, run_iteration returns a dictionary
    with the lists of the stored one (pt:672-689, 715-720, 770-776), and appends to them in place.  Here the inner lists live in a heap and dictionaries hold their
    locations.  The outer lists and the dictionaries are never changed after they were built (the code builds new ones with + and dict()), so they are values. *)
From Coq Require Import ZArith Bool String List.
From Verif Require Import Num Py Walker ParticleTrack Interrupt.
Import ListNotations.
Open Scope Z_scope.

Section Heap.
Context {T : Type} {N : Num T}.

(** The heap: three stores of lists (indices, times, tracked variables); a location is a position in its store. *)
Record heap := { h_z : list (list Z); h_t : list (list T); h_o : list (list (option T)) }.
Definition sread {A} (st : list (list A)) (l : nat) : list A := nth l st [].

(** A walk-data dictionary. *)
Record dict := { d_x : list nat; d_y : list nat; d_t : list nat; d_o : list (string * list nat) }.
Definition view_opts (h : heap) (o : list (string * list nat)) : list (string * list (list (option T))) := map (fun kv => (fst kv, map (sread (h_o h)) (snd kv))) o.
(** What a user reads in a dictionary. *)
Definition view (h : heap) (d : dict) : walk T :=
  {| xinds := map (sread (h_z h)) (d_x d); yinds := map (sread (h_z h)) (d_y d); times := map (sread (h_t h)) (d_t d); opts := view_opts h (d_o d) |}.

(** Statements over the heap; an exception leaves the heap as it is at that point. *)
Definition hm (A : Type) : Type := heap -> heap * res A.
Definition hret {A} (a : A) : hm A := fun h => (h, Ok a).
Definition hlift {A} (r : res A) : hm A := fun h => (h, r).
Definition hbind {A B} (c : hm A) (k : A -> hm B) : hm B := fun h => match c h with (h', Ok a) => k a h' | (h', Err e) => (h', Err e) end.
Definition hread {A} (f : heap -> A) : hm A := fun h => (h, Ok (f h)).

(** New lists. *)
Definition alloc_o (rows : list (list (option T))) : hm (list nat) := fun h =>
  ({| h_z := h_z h; h_t := h_t h; h_o := h_o h ++ rows |}, Ok (seq (length (h_o h)) (length rows))).
Definition alloc_z (rows : list (list Z)) : hm (list nat) := fun h =>
  ({| h_z := h_z h ++ rows; h_t := h_t h; h_o := h_o h |}, Ok (seq (length (h_z h)) (length rows))).
Definition alloc_t (rows : list (list T)) : hm (list nat) := fun h =>
  ({| h_z := h_z h; h_t := h_t h ++ rows; h_o := h_o h |}, Ok (seq (length (h_t h)) (length rows))).
Fixpoint alloc_opts (o : list (string * list (list (option T)))) : hm (list (string * list nat)) :=
  match o with
  | [] => hret []
  | (k, rows) :: r => hbind (alloc_o rows) (fun ls => hbind (alloc_opts r) (fun d => hret ((k, ls) :: d)))
  end.
Definition alloc_walk (w : walk T) : hm dict :=
  hbind (alloc_z (xinds w)) (fun x => hbind (alloc_z (yinds w)) (fun y => hbind (alloc_t (times w)) (fun t =>
  hbind (alloc_opts (opts w)) (fun o => hret {| d_x := x; d_y := y; d_t := t; d_o := o |})))).

(** list.append through a dictionary (pt:709-713, 754-758).  run_iteration only appends for particles that it has read before, so the location exists. *)
Definition happly (d : dict) (h : heap) (e : event T) : heap :=
  match e with
  | AX i v => match nth_error (d_x d) i with Some l => {| h_z := push l v (h_z h); h_t := h_t h; h_o := h_o h |} | None => h end
  | AY i v => match nth_error (d_y d) i with Some l => {| h_z := push l v (h_z h); h_t := h_t h; h_o := h_o h |} | None => h end
  | AT i v => match nth_error (d_t d) i with Some l => {| h_z := h_z h; h_t := push l v (h_t h); h_o := h_o h |} | None => h end
  | AV var i v => match dget var (d_o d) with
                  | Some ls => match nth_error ls i with Some l => {| h_z := h_z h; h_t := h_t h; h_o := push l v (h_o h) |} | None => h end
                  | None => h end
  end.
Definition happend {A} (d : dict) (l : log T A) : hm A := fun h => (fold_left (happly d) (fst l) h, snd l).

(** State of a Particles object. *)
Record hsim := { hs_np : Z; hs_walk : option dict; hs_wst : wst T }.

(** pt:582-591, 600-611: references to the old lists, then the new ones. *)
Definition hmerge (old new : dict) : dict :=
  {| d_x := d_x old ++ d_x new; d_y := d_y old ++ d_y new; d_t := d_t old ++ d_t new;
     d_o := map (fun kv => match dget (fst kv) (d_o old) with Some l => (fst kv, l ++ snd kv) | None => kv end) (d_o new) |}.

(** pt:451-623 generate_particles.  The lists of the new particles are made as if there were no other particles (pt:514-571), then the references are put together. *)
Definition hgenerate (P : pobj T) (draws : nat -> T) (np : Z) (xl yl : list Z) (t0 : T) (m : method) (prev : option dict) (s : hsim) : hm hsim :=
  hbind (hlift (generate_particles P draws np xl yl t0 m None {| s_np := hs_np s; s_walk := None; s_wst := hs_wst s |})) (fun s0 =>
  match s_walk s0 with
  | None => hlift (Err ValueError)   (* does not happen: generate_particles stores the data *)
  | Some w0 =>
    hbind (alloc_walk w0) (fun d0 =>
    let d1 := match hs_walk s with Some d => hmerge d d0 | None => d0 end in
    let d2 := match prev with Some d => hmerge d d1 | None => d1 end in
    hret {| hs_np := Z.of_nat (length (d_x d2)); hs_walk := Some d2; hs_wst := s_wst s0 |})
  end).

(** pt:683-689: a tracked variable that the dictionary lacks gets new lists [None]. *)
Fixpoint hread_opts (np : Z) (vars : list string) (o acc : list (string * list nat)) : hm (list (string * list nat)) :=
  match vars with
  | [] => hret acc
  | var :: rest =>
      if str_in var base_vars then hread_opts np rest o acc
      else match dget var o with
           | Some l => hread_opts np rest o (dset var l acc)
           | None => hbind (alloc_o (repeat [None] (Z.to_nat np))) (fun l => hread_opts np rest o (dset var l acc))
           end
  end.

(** pt:658-720, 791 run_iteration(target_time=None): the returned dictionary and the new state.  The stored dictionary stays the same object. *)
Definition hrun_step (lm : Libm T) (P : pobj T) (draws : nat -> T) (s : hsim) : hm (dict * hsim) :=
  match hs_walk s with
  | None => hlift (Err ValueError)
  | Some d =>
    let np := if hs_np s =? 0 then Z.of_nat (length (d_x d)) else hs_np s in
    let idx := zrange 0 np in
    hbind (hread (fun h => view h d)) (fun wd =>
    hbind (hlift (mapM (last_of (xinds wd)) idx)) (fun sx =>
    hbind (hlift (mapM (last_of (yinds wd)) idx)) (fun sy =>
    hbind (hlift (mapM (last_of (times wd)) idx)) (fun st =>
    hbind (hread_opts np (o_vars P) (d_o d) []) (fun od =>
    hbind (hread (fun h => view_opts h od)) (fun ov =>
    hbind (hlift (mapM (fun kv => mapM (last_of (snd kv)) idx) ov)) (fun _ =>
    let pairs := combine sx sy in
    hbind (hlift (particle_stepper lm P draws pairs st (map fst ov) (hs_wst s))) (fun r =>
    let '(new_inds, tts, upd, ws) := r in
    let d' := {| d_x := d_x d; d_y := d_y d; d_t := d_t d; d_o := od |} in
    hbind (happend d' (lforeach (fun ii =>
      lbind (lift (py_nth new_inds ii)) (fun p =>
      lbind (lift (py_nth pairs ii)) (fun q =>
      if negb (pair_eqb p q) then record_log (Z.to_nat ii) p ii tts (map fst ov) upd else lret tt))) idx)) (fun _ =>
    hret (d', {| hs_np := np; hs_walk := Some d; hs_wst := ws |}))))))))))
  end.

(** pt:744-769 the loop of particle ii: the lists are read again at every turn. *)
Fixpoint hloop (fuel : nat) (lm : Libm T) (P : pobj T) (draws : nat -> T) (target : T) (max_iter : Z)
    (ii : Z) (d : dict) (est : T) (count : Z) (s : wst T) : hm (wst T) :=
  match fuel with
  | O => hlift (Err FuelError)
  | S fuel' =>
    hbind (hread (fun h => view h d)) (fun m =>
    hbind (hlift (last_of (xinds m) ii)) (fun x =>
    hbind (hlift (last_of (yinds m) ii)) (fun y =>
    hbind (hlift (last_of (times m) ii)) (fun t =>
    if nleb (nabs (nsub (nadd t est) target)) (nabs (nsub t target)) then
      hbind (hlift (mapM (fun kv => last_of (snd kv) ii) (opts m))) (fun _ =>
      hbind (hlift (particle_stepper lm P draws [(x, y)] [t] (map fst (opts m)) s)) (fun r =>
      let '(ni, tts, upd, s') := r in
      hbind (hlift (py_nth ni 0)) (fun p =>
      if negb (pair_eqb p (x, y)) then
        hbind (happend d (record_log (Z.to_nat ii) p 0 tts (map fst (opts m)) upd)) (fun _ =>
        hbind (hread (fun h => view h d)) (fun m' =>
        hbind (hlift (last_of (times m') ii)) (fun t' =>
        (* all_times[ii][-2] is t: one entry was appended *)
        if max_iter <? count + 1 then hret s'
        else hloop fuel' lm P draws target max_iter ii d (py_max ntenth (nsub t' t)) (count + 1) s')))
      else hret s')))
    else hret s))))
  end.
(** pt:726-769 all particles. *)
Fixpoint hparticles (lm : Libm T) (P : pobj T) (draws : nat -> T) (target : T) (max_iter : Z) (idx : list Z) (d : dict) (s : wst T) : hm (wst T) :=
  match idx with
  | [] => hret s
  | ii :: rest =>
    hbind (hread (fun h => view h d)) (fun m =>
    hbind (hlift (py_nth (times m) ii)) (fun ts =>
    hbind (hlift (if 1 <? Z.of_nat (length ts) then (a <- py_nth ts (-1) ;; b <- py_nth ts (-2) ;; Ok (nsub a b))%res else Ok ntenth)) (fun est =>
    hbind (hlift (last_of (xinds m) ii)) (fun x =>
    hbind (hlift (last_of (yinds m) ii)) (fun y =>
    hbind (if near_edge (o_ct P) x y then hret s
           else hloop (S (Z.to_nat max_iter)) lm P draws target max_iter ii d est 1 s) (fun s' =>
    hparticles lm P draws target max_iter rest d s'))))))
  end.
(** pt:658-697, 722-791 run_iteration(target_time, max_iter): the returned dictionary is stored. *)
Definition hrun_target (lm : Libm T) (P : pobj T) (draws : nat -> T) (target : T) (max_iter : Z) (s : hsim) : hm (dict * hsim) :=
  match hs_walk s with
  | None => hlift (Err ValueError)
  | Some d =>
    let np := if hs_np s =? 0 then Z.of_nat (length (d_x d)) else hs_np s in
    let idx := zrange 0 np in
    hbind (hread (fun h => view h d)) (fun wd =>
    hbind (hlift (mapM (last_of (xinds wd)) idx)) (fun _ =>
    hbind (hlift (mapM (last_of (yinds wd)) idx)) (fun _ =>
    hbind (hlift (mapM (last_of (times wd)) idx)) (fun _ =>
    hbind (hread_opts np (o_vars P) (d_o d) []) (fun od =>
    hbind (hread (fun h => view_opts h od)) (fun ov =>
    hbind (hlift (mapM (fun kv => mapM (last_of (snd kv)) idx) ov)) (fun _ =>
    let d' := {| d_x := d_x d; d_y := d_y d; d_t := d_t d; d_o := od |} in
    hbind (hparticles lm P draws target max_iter idx d' (hs_wst s)) (fun ws =>
    (* 779: _iter_particles is not assigned if the loop never ran *)
    hbind (hlift (match idx with [] => Err UnboundLocalError | _ => Ok tt end)) (fun _ =>
    hret (d', {| hs_np := np; hs_walk := Some d'; hs_wst := ws |}))))))))))
  end.

(** Calls on a Particles object; previous_walk_data is a dictionary, which may share lists with others. *)
Inductive hop :=
| HGen (np : Z) (xl yl : list Z) (t0 : T) (m : method) (prev : option dict)
| HRun
| HRunTo (target : T) (max_iter : Z)
| HClear.
(** The dictionary that the call returns (if any), and the new state of the object. *)
Definition hdo (lm : Libm T) (P : pobj T) (draws : nat -> T) (o : hop) (s : hsim) : hm (option dict * hsim) :=
  match o with
  | HGen np xl yl t0 m prev => hbind (hgenerate P draws np xl yl t0 m prev s) (fun s' => hret (None, s'))
  | HRun => hbind (hrun_step lm P draws s) (fun r => hret (Some (fst r), snd r))
  | HRunTo target mi => hbind (hrun_target lm P draws target mi s) (fun r => hret (Some (fst r), snd r))
  | HClear => hret (None, {| hs_np := hs_np s; hs_walk := None; hs_wst := hs_wst s |})
  end.
End Heap.
Arguments heap : clear implicits.
Arguments hm : clear implicits.
Arguments hsim : clear implicits.
Arguments hop : clear implicits.
