(** Specification vocabulary for the logging set-up: documented level names and their severity, written independently of the model's table. *)
From Coq Require Import ZArith Bool String Ascii List.
Import ListNotations.
Open Scope Z_scope.
Open Scope string_scope.

(** The two spellings of a letter. *)
Definition same_letter (c d : ascii) : Prop :=
  c = d \/ (exists n, (n < 26)%nat /\ ((c = ascii_of_nat (65 + n) /\ d = ascii_of_nat (97 + n)) \/ (c = ascii_of_nat (97 + n) /\ d = ascii_of_nat (65 + n)))).
(** Two strings that differ only in the case of letters. *)
Inductive same_word : string -> string -> Prop :=
| sw_nil : same_word EmptyString EmptyString
| sw_cons c d s t : same_letter c d -> same_word s t -> same_word (String c s) (String d t).
(** The documented names, and their numbers in the standard library. *)
Inductive documented : string -> Z -> Prop :=
| doc_debug : documented "DEBUG" 10 | doc_info : documented "INFO" 20 | doc_warning : documented "WARNING" 30
| doc_error : documented "ERROR" 40 | doc_critical : documented "CRITICAL" 50.
(** Names that are accepted although they are not documented. *)
Inductive undocumented : string -> Z -> Prop :=
| und_notset : undocumented "NOTSET" 0 | und_warn : undocumented "WARN" 30 | und_fatal : undocumented "FATAL" 50.
