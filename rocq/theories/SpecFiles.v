(** Specification vocabulary for folders of model output. *)
From Coq Require Import ZArith NArith Bool String Ascii List Permutation Sorted.
From Verif Require Import Num Py Walker ParticleTrack Unsteady Files.
Import ListNotations.
Open Scope Z_scope.
Open Scope string_scope.

(** Strict order of strings by the first differing byte; a proper prefix comes first. *)
Inductive before : string -> string -> Prop :=
| before_end c s : before EmptyString (String c s)
| before_byte c d r s : (N_of_ascii c < N_of_ascii d)%N -> before (String c r) (String d s)
| before_rest c r s : before r s -> before (String c r) (String c s).
(** A string of decimal digits, and its value. *)
Definition digit (c : ascii) : Prop := (48 <= N_of_ascii c <= 57)%N.
Fixpoint digits (s : string) : Prop := match s with EmptyString => True | String c r => digit c /\ digits r end.
Fixpoint value (acc : Z) (s : string) : Z := match s with EmptyString => acc | String c r => value (10 * acc + (Z.of_N (N_of_ascii c) - 48)) r end.

Section Spec.
Context {T : Type} {N : Num T}.
(** An entry whose name begins with none of the five words. *)
Definition unrelated (n : string) : Prop := forall w, In w ["depth"; "stage"; "qx"; "qy"; "data"] -> String.prefix w n = false.
(** The folder has, for each of the different timestep labels, the files depth<label>, stage<label>, qx<label> and qy<label>, and nothing else that begins with one of the words; listed in any order. *)
Definition four_each (d : folder T) (labels : list string) : Prop :=
  NoDup labels /\ exists others, Forall unrelated others /\
    Permutation (d_names d) (map (append "depth") labels ++ map (append "stage") labels ++ map (append "qx") labels ++ map (append "qy") labels ++ others).
(** The same for files data<label>. *)
Definition data_each (d : folder T) (labels : list string) : Prop :=
  NoDup labels /\ exists others, Forall unrelated others /\ Permutation (d_names d) (map (append "data") labels ++ others).
(** What the files with a label contain. *)
Definition contents (rd : string -> option (arr T)) (l : string) (f : field T) : Prop :=
  rd ("depth" ++ l) = Some (fl_depth f) /\ rd ("stage" ++ l) = Some (fl_stage f) /\ rd ("qx" ++ l) = Some (fl_qx f) /\ rd ("qy" ++ l) = Some (fl_qy f).
(** The folder holds these flow fields under these labels, in one of the three formats. *)
Definition holds_fields (d : folder T) (otype : string) (labels : list string) (fields : list (field T)) : Prop :=
  otype = "csv" /\ four_each d labels /\ Forall2 (contents (d_csv d)) labels fields \/
  otype = "npy" /\ four_each d labels /\ Forall2 (contents (d_npy d)) labels fields \/
  otype = "npz" /\ data_each d labels /\ Forall2 (fun l f => d_npz d ("data" ++ l) = Some f) labels fields.
End Spec.
