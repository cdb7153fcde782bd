(** Transformed walk data: all times by one function, all tracked values by another one; positions unchanged. *)
From Coq Require Import ZArith Bool String List.
From Verif Require Import Num Py Walker ParticleTrack SpecWalk.
Import ListNotations.
Open Scope Z_scope.

(** Both results are errors of the same kind, or both are values related by R. *)
Definition match_res {A B} (R : A -> B -> Prop) (x : res A) (y : res B) : Prop :=
  match x, y with Ok a, Ok b => R a b | Err e, Err e' => e = e' | _, _ => False end.

Section Spec.
Context {T : Type} {N : Num T}.
Variables (f : T -> T) (h : string -> option T -> option T).
(** None (value not recorded) stays None. *)
Definition hval (hv : string -> T -> T) (v : string) (o : option T) : option T := option_map (hv v) o.
Definition map_upd (l : list (string * list (option T))) := map (fun kv => (fst kv, map (h (fst kv)) (snd kv))) l.
Definition map_vals (l : list (string * list (list (option T)))) := map (fun kv => (fst kv, map (map (h (fst kv))) (snd kv))) l.
Definition map_walk (w : walk T) : walk T :=
  {| xinds := xinds w; yinds := yinds w; times := map (map f) (times w); opts := map_vals (opts w) |}.
(** The calls with all times transformed: start times, target times, walk data handed over. *)
Definition map_op (o : op T) : op T :=
  match o with
  | OpGen np xl yl t0 m prev => OpGen np xl yl (f t0) m (option_map map_walk prev)
  | OpRunTo target mi => OpRunTo (f target) mi
  | o => o
  end.
(** Same generator state; the weights of all cells are related by [like]. *)
Definition wsim_by (like : list T -> list T -> Prop) (s t : wst T) : Prop :=
  w_pos t = w_pos s /\ nrow (w_arr t) = nrow (w_arr s) /\ ncol (w_arr t) = ncol (w_arr s) /\
  forall i j, 0 <= i < nrow (w_arr s) -> 0 <= j < ncol (w_arr s) -> like (cell (w_arr s) i j) (cell (w_arr t) i j).
(** State t is state s with transformed walk data. *)
Definition sim_by (like : list T -> list T -> Prop) (s t : psim T) : Prop :=
  s_np t = s_np s /\ s_walk t = option_map map_walk (s_walk s) /\ wsim_by like (s_wst s) (s_wst t).
(** The same weights. *)
Definition same_w (a b : list T) : Prop := b = a.
Definition wsim : wst T -> wst T -> Prop := wsim_by same_w.
Definition sim : psim T -> psim T -> Prop := sim_by same_w.
End Spec.
