(** Sharing of lists between walk-data dictionaries and between Particles objects. *)
From Coq Require Import ZArith Bool String List.
From Verif Require Import Num Py Walker ParticleTrack SpecWeights SpecPick SpecWalk SpecHist SpecInit SpecApi Interrupt SpecInterrupt Heap.
Import ListNotations.
Open Scope nat_scope.

Section Spec.
Context {T : Type} {N : Num T}.

(** The lists of a dictionary: x indices, y indices, times, or variable k, of particle i. *)
Inductive place := PX (i : nat) | PY (i : nat) | PT (i : nat) | PV (k : string) (i : nat).
(** A list object in the heap. *)
Inductive loc := LZ (n : nat) | LT (n : nat) | LO (n : nat).
Definition lookup (d : dict) (p : place) : option loc :=
  match p with
  | PX i => option_map LZ (nth_error (d_x d) i)
  | PY i => option_map LZ (nth_error (d_y d) i)
  | PT i => option_map LT (nth_error (d_t d) i)
  | PV k i => match dget k (d_o d) with Some ls => option_map LO (nth_error ls i) | None => None end
  end.
Definition exists_in (h : heap T) (l : loc) : Prop := match l with LZ n => n < length (h_z h) | LT n => n < length (h_t h) | LO n => n < length (h_o h) end.
(** All lists of the dictionary exist, and its keys are different (a Python dict). *)
Definition valid (h : heap T) (d : dict) : Prop := NoDup (map fst (d_o d)) /\ forall p l, lookup d p = Some l -> exists_in h l.
(** No list occurs at two places of the dictionary. *)
Definition unshared (d : dict) : Prop := forall p q l, lookup d p = Some l -> lookup d q = Some l -> p = q.
(** No list occurs in both dictionaries. *)
Definition apart (d d' : dict) : Prop := forall p q l, lookup d p = Some l -> lookup d' q = Some l -> False.

(** Any number of Particles objects in one program.  Object k was constructed with the data P k; draws k is the stream of random numbers that its calls consume (the
    global generator hands every number to one object; any way of distributing its numbers is a choice of streams).  After an exception the objects are as before the
    call, the lists are not (the generator, the weights and Np_tracer after an exception are not modelled here). *)
Record world := { wh : heap T; wo : nat -> hsim T }.
Definition set_obj (f : nat -> hsim T) (k : nat) (s : hsim T) : nat -> hsim T := fun j => if Nat.eqb j k then s else f j.
Definition wdo (lm : Libm T) (P : nat -> pobj T) (draws : nat -> nat -> T) (k : nat) (o : hop T) (w : world) : world * res (option dict) :=
  match hdo lm (P k) (draws k) o (wo w k) (wh w) with
  | (h', Ok (r, s')) => ({| wh := h'; wo := set_obj (wo w) k s' |}, Ok r)
  | (h', Err e) => ({| wh := h'; wo := wo w |}, Err e)
  end.
(** A program: calls on the objects, in any order; exceptions are caught and the program goes on. *)
Definition wdos (lm : Libm T) (P : nat -> pobj T) (draws : nat -> nat -> T) (prog : list (nat * hop T)) (w : world) : world :=
  fold_left (fun w ko => fst (wdo lm P draws (fst ko) (snd ko) w)) prog w.

(** The state of object k as its user sees it, and a call with the contents of the dictionary it is given. *)
Definition value (w : world) (k : nat) : psim T := let s := wo w k in {| s_np := hs_np s; s_walk := option_map (view (wh w)) (hs_walk s); s_wst := hs_wst s |}.
Definition value_op (h : heap T) (o : hop T) : op T :=
  match o with
  | HGen np xl yl t0 m prev => OpGen np xl yl t0 m (option_map (view h) prev)
  | HRun => OpRun
  | HRunTo target mi => OpRunTo target mi
  | HClear => OpClear
  end.
Definition hprev (o : hop T) : option dict := match o with HGen _ _ _ _ _ prev => prev | _ => None end.

(** No list is used twice by the objects. *)
Definition separate (w : world) : Prop :=
  (forall k d, hs_walk (wo w k) = Some d -> valid (wh w) d /\ unshared d) /\
  (forall k j d e, k <> j -> hs_walk (wo w k) = Some d -> hs_walk (wo w j) = Some e -> apart d e).
(** The dictionary handed to a call is not in use: none of its lists is used by an object (its own included). *)
Definition not_in_use (w : world) (o : hop T) : Prop :=
  forall d, hprev o = Some d -> valid (wh w) d /\ unshared d /\ forall k e, hs_walk (wo w k) = Some e -> apart d e.
Definition new_world (lm : Libm T) (P : nat -> pobj T) (pos : nat -> nat) : world :=
  {| wh := {| h_z := []; h_t := []; h_o := [] |}; wo := fun k => {| hs_np := 0%Z; hs_walk := None; hs_wst := {| w_arr := make_weight lm (P k); w_pos := pos k |} |} |}.

(** json.load: walk data m in new lists.  The new dictionary and the world in which it exists. *)
Definition wload (m : walk T) (w : world) : world * res dict := let (h', r) := alloc_walk m (wh w) in ({| wh := h'; wo := wo w |}, r).
(** The worlds that arise when every call gets previous walk data that are not in use.  (An object that is not used any more can be taken as cleared.) *)
Inductive apart_run (G : T -> Prop) (lm : Libm T) (P : nat -> pobj T) (draws : nat -> nat -> T) : world -> Prop :=
| ar_new pos : apart_run G lm P draws (new_world lm P pos)
| ar_load w m : apart_run G lm P draws w -> NoDup (map fst (opts m)) -> apart_run G lm P draws (fst (wload m w))
| ar_call w k o s' : apart_run G lm P draws w -> not_in_use w o -> op_ok G lm (P k) (value_op (wh w) o) ->
    do_op lm (P k) (draws k) (value_op (wh w) o) (value w k) = Ok s' -> apart_run G lm P draws (fst (wdo lm P draws k o w)).

(** Walk data m' contain the walk data m: the same particles, and every list of m is an initial part of the one in m'. *)
Definition lists_grow {A} (l l' : list (list A)) : Prop := Forall2 prefix l l'.
Definition walk_grows (m m' : walk T) : Prop :=
  lists_grow (xinds m) (xinds m') /\ lists_grow (yinds m) (yinds m') /\ lists_grow (times m) (times m') /\
  Forall2 (fun a b => fst a = fst b /\ lists_grow (snd a) (snd b)) (opts m) (opts m').
End Spec.
Arguments world : clear implicits.
