(** Walk data as Python objects, for saving. *)
From Coq Require Import ZArith Bool String Ascii List.
From Flocq Require Import IEEE754.BinarySingleNaN.
From Verif Require Import Num F64 Py Walker ParticleTrack SpecWalk Json.
Import ListNotations.
Open Scope Z_scope.

(** What is needed of float.__repr__ and float(): the text of a finite float consists of digits, signs, decimal points and the letter e, it has a decimal point or an e,
    and it is read back as the same float. *)
Definition float_text (frepr : f64 -> text) (fread : text -> option f64) : Prop :=
  forall x, is_finite x = true -> fread (frepr x) = Some x /\ Forall (fun c => In c (txt "0123456789+-.e")) (frepr x) /\ (In "."%char (frepr x) \/ In "e"%char (frepr x)).

(** A time: a float, or an int if the seed time was given as one. *)
Definition py_time (x : f64) (v : pyv) : Prop := v = PFloat x \/ exists z, v = PInt z /\ nofZ z = x.
(** The value of a tracked variable: None, an int for roi_flag, otherwise an element of the grid: a float if the grid is of type float64 ([dbl]), another NumPy scalar if not. *)
Definition py_value (dbl : string -> bool) (var : string) (o : option f64) (v : pyv) : Prop :=
  match o with
  | None => v = PNone
  | Some x => if String.eqb var "roi_flag" then exists z, v = PInt z /\ nofZ z = x else v = if dbl var then PFloat x else PNumpy x
  end.
(** d is the dictionary with the walk data w. *)
Definition py_walk (dbl : string -> bool) (w : walk f64) (d : pydict) : Prop :=
  exists dx dy dt rest, d = ("xinds"%string, dx) :: ("yinds"%string, dy) :: ("travel_times"%string, dt) :: rest /\
    Forall2 (Forall2 (fun z v => v = PInt z)) (xinds w) dx /\ Forall2 (Forall2 (fun z v => v = PInt z)) (yinds w) dy /\ Forall2 (Forall2 py_time) (times w) dt /\
    Forall2 (fun kv kv' => fst kv' = fst kv /\ Forall2 (Forall2 (py_value dbl (fst kv))) (snd kv) (snd kv')) (opts w) rest.
(** Every grid that is tracked is of type float64. *)
Definition double_grids (dbl : string -> bool) (P : pobj f64) : Prop := forall v, In v (tvars P) -> v <> "roi_flag"%string -> dbl v = true.

(** The same particles, walk data and consumed random numbers. *)
Definition same_data {T} (s t : psim T) : Prop := s_np t = s_np s /\ s_walk t = s_walk s /\ w_pos (s_wst t) = w_pos (s_wst s).
(** The object with the generator at position n. *)
Definition at_pos {T} (n : nat) (s : psim T) : psim T := {| s_np := s_np s; s_walk := s_walk s; s_wst := {| w_arr := w_arr (s_wst s); w_pos := n |} |}.
