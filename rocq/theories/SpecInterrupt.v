(** What is left of the walk data when run_iteration is interrupted. *)
From Coq Require Import ZArith Bool String List.
From Verif Require Import Num Py Walker ParticleTrack SpecWalk SpecHist Interrupt.
Import ListNotations.

Section Spec.
Context {T : Type} {N : Num T}.
Definition prefix {A} (l l' : list A) : Prop := exists r, l' = l ++ r.
(** Every list of r is a prefix of the corresponding list of r'. *)
Definition row_prefix (r r' : prow T) : Prop :=
  prefix (r_x r) (r_x r') /\ prefix (r_y r) (r_y r') /\ prefix (r_t r) (r_t r') /\
  Forall2 (fun a b => fst a = fst b /\ prefix (snd a) (snd b)) (r_o r) (r_o r').
(** The lengths of a particle's lists: x, y, time, tracked variables. *)
Definition lens (r : prow T) : list nat := length (r_x r) :: length (r_y r) :: length (r_t r) :: map (fun kv => length (snd kv)) (r_o r).
(** All lists have the same length. *)
Definition even_row (r : prow T) : Prop := forall n, In n (lens r) -> n = length (r_x r).
(** The first lists (in the order x, y, time, tracked variables) may be longer by one than the others. *)
Definition torn_row (n : nat) (r : prow T) : Prop := exists a b, lens r = repeat (S n) a ++ repeat n b.
(** All lists cut to n entries. *)
Definition cut_row (n : nat) (r : prow T) : prow T :=
  {| r_x := firstn n (r_x r); r_y := firstn n (r_y r); r_t := firstn n (r_t r); r_o := map (fun kv => (fst kv, firstn n (snd kv))) (r_o r) |}.

(** The appends of a call of run_iteration and its outcome; the other calls of the API are not considered. *)
Definition call_log (lm : Libm T) (P : pobj T) (draws : nat -> T) (o : op T) (s : psim T) : log T unit :=
  match o with OpRun => step_log lm P draws s | OpRunTo target mi => target_log lm P draws target mi s | _ => lret tt end.
(** The stored walk data (w before the call) when the call stops after k appends. *)
Definition interrupted (lm : Libm T) (P : pobj T) (draws : nat -> T) (o : op T) (s : psim T) (w : walk T) (k : nat) : walk T :=
  replay w (firstn k (fst (call_log lm P draws o s))).
End Spec.
