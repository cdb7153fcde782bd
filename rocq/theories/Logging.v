(** Model of dorado/logging_config.py (abbreviated lg): the package logger and the calls that configure it.

    Simplifications: strings are ASCII (str.upper of other characters is not modelled); of the logger only its level and its list of handlers are kept, the
    format set on the installed handler is a constant and is not modelled; the deprecation warning is counted, and is assumed not to be turned into an
    exception by the caller's warning filters. *)
From Coq Require Import ZArith Bool String Ascii List.
From Verif Require Import Py.
Import ListNotations.
Open Scope Z_scope.
Open Scope string_scope.

(** str.upper on ASCII characters (lg:43). *)
Definition upper_char (c : ascii) : ascii :=
  let n := nat_of_ascii c in if ((97 <=? n) && (n <=? 122))%nat then ascii_of_nat (n - 32) else c.
Fixpoint upper (s : string) : string :=
  match s with EmptyString => EmptyString | String c r => String (upper_char c) (upper r) end.

(** Attributes of the standard module logging whose name has no lower-case letter (lg:43 getattr(logging, level.upper())). *)
Inductive attr := AInt (n : Z) | AStr | ADict.
Definition logging_attrs : list (string * attr) :=
  [("CRITICAL", AInt 50); ("FATAL", AInt 50); ("ERROR", AInt 40); ("WARNING", AInt 30); ("WARN", AInt 30); ("INFO", AInt 20); ("DEBUG", AInt 10);
   ("NOTSET", AInt 0); ("BASIC_FORMAT", AStr); ("_STYLES", ADict)].
Fixpoint get_attr (name : string) (l : list (string * attr)) : option attr :=
  match l with [] => None | (k, a) :: r => if String.eqb name k then Some a else get_attr name r end.
(** Logger.setLevel (lg:48): integers are taken, a string must be a level name (BASIC_FORMAT is not), anything else is a TypeError. *)
Definition check_level (a : attr) : res Z :=
  match a with AInt n => Ok n | AStr => Err ValueError | ADict => Err TypeError end.

(** A handler: the default stream handler (lg:50) or one of the caller's. *)
Inductive handler := Default | Custom (id : Z).
(** The package logger (lg:14), and the number of deprecation warnings issued so far. *)
Record logger := { g_level : Z; g_handlers : list handler; g_warned : Z }.
(** lg:17-54 setup_logging(level, handler).  The result of the call and the logger after it. *)
Definition setup_logging (level : string) (h : option handler) (g : logger) : res unit * logger :=
  match get_attr (upper level) logging_attrs with
  | None => (Err ValueError, g)
  | Some a =>
      match check_level a with
      | Err e => (Err e, g)
      | Ok n =>
          let hs := match g_handlers g with [] => [match h with Some x => x | None => Default end] | l => l end in
          (Ok tt, {| g_level := n; g_handlers := hs; g_warned := g_warned g |})
      end
  end.
(** lg:57-79 handle_verbose_deprecation(verbose); [None] is Python's None, otherwise the truth value. *)
Definition handle_verbose (verbose : option bool) (g : logger) : res unit * logger :=
  match verbose with
  | None => (Ok tt, g)
  | Some v =>
      let g1 := {| g_level := g_level g; g_handlers := g_handlers g; g_warned := g_warned g + 1 |} in
      setup_logging (if v then "INFO" else "ERROR") None g1
  end.

(** A program: configuration calls in some order, exceptions caught by the caller. *)
Inductive call := CSetup (level : string) (h : option handler) | CVerbose (v : option bool).
Definition do_call (g : logger) (c : call) : logger :=
  snd (match c with CSetup l h => setup_logging l h g | CVerbose v => handle_verbose v g end).
Definition do_calls (cs : list call) (g : logger) : logger := fold_left do_call cs g.
(** The logger as Python's logging.getLogger creates it (lg:14): no level, no handler. *)
Definition new_logger : logger := {| g_level := 0; g_handlers := []; g_warned := 0 |}.
(** Logger.isEnabledFor: a message of level l is processed if it reaches the effective level; level 0 defers to the root logger's. *)
Definition processed (root : Z) (g : logger) (l : Z) : bool := ((if g_level g =? 0 then root else g_level g) <=? l)%Z.
