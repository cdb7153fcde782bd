(** Walk data that lack tracked variables (they were recorded with fewer tracked variables and assigned to walk_data). *)
From Coq Require Import ZArith Bool String List.
From Verif Require Import Num Py Walker ParticleTrack SpecWalk Heap.
Import ListNotations.

Section Spec.
Context {T : Type} {N : Num T}.
(** The walk data m, without the variables that are not kept. *)
Definition without (keep : string -> bool) (m : walk T) : walk T :=
  {| xinds := xinds m; yinds := yinds m; times := times m; opts := filter (fun kv => keep (fst kv)) (opts m) |}.
(** The values of variable v of particle q. *)
Definition values (m : walk T) (v : string) (q : nat) : list (option T) := nth q (dflt (dget v (opts m)) []) [].
(** w' are the walk data m' that a step made of m, except that the variables that are not kept start with None, followed by what this step recorded. *)
Definition starts_again (keep : string -> bool) (m m' w' : walk T) : Prop :=
  xinds w' = xinds m' /\ yinds w' = yinds m' /\ times w' = times m' /\ map fst (opts w') = map fst (opts m') /\
  forall v q, In v (map fst (opts m')) -> (q < count m)%nat ->
    values w' v q = if keep v then values m' v q else None :: skipn (length (values m v q)) (values m' v q).
(** n calls of run_iteration() on an object. *)
Fixpoint hruns (lm : Libm T) (P : pobj T) (draws : nat -> T) (n : nat) (s : hsim T) : hm T (hsim T) :=
  match n with O => hret s | S n' => hbind (hrun_step lm P draws s) (fun r => hruns lm P draws n' (snd r)) end.
End Spec.
