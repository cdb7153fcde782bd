(** Model of the file handling of unsteady_plots (dorado/routines.py, cited as rt): which files are read in which step.

    Simplifications: a name is the string of its UTF-8 bytes (their order is the order of Python's str, by code point).  What np.load / np.loadtxt make of a file is
    given ([d_csv], [d_npy], [d_npz]; [None]: the call raises).  Figures and the saved json file are not modelled, nor are failures to create folders. *)
From Coq Require Import ZArith NArith Bool String Ascii List.
From Verif Require Import Num Py Walker ParticleTrack Gen PostProc Grid Routines Unsteady.
Import ListNotations.
Open Scope Z_scope.
Open Scope string_scope.

(** a <= b for Python strings. *)
Fixpoint str_leb (a b : string) : bool :=
  match a, b with
  | EmptyString, _ => true
  | String _ _, EmptyString => false
  | String c r, String d s => if (N_of_ascii c =? N_of_ascii d)%N then str_leb r s else (N_of_ascii c <? N_of_ascii d)%N
  end.
(** sorted(...): a stable sort. *)
Fixpoint insert_name (x : string) (l : list string) : list string :=
  match l with [] => [x] | y :: r => if str_leb x y then x :: l else y :: insert_name x r end.
Definition sort_names (l : list string) : list string := fold_right insert_name [] l.

(** What a call with files can end in: a value, an exception of the modelled code, or an exception raised while reading the file of that name. *)
Inductive fres (A : Type) := Done (a : A) | Raises (e : exn) | NotRead (name : string).
Arguments Done {A} _. Arguments Raises {A} _. Arguments NotRead {A} _.
Definition fbind {A B} (x : fres A) (f : A -> fres B) : fres B := match x with Done a => f a | Raises e => Raises e | NotRead n => NotRead n end.
Definition lift {A} (x : res A) : fres A := match x with Ok a => Done a | Err e => Raises e end.
Notation "x <~ e ;; k" := (fbind e (fun x => k)) (at level 61, e at next level, right associativity).
Notation "' p <~ e ;; k" := (fbind e (fun p => k)) (at level 61, p pattern, e at next level, right associativity).

Section Files.
Context {T : Type} {N : Num T}.
(** The folder output_base: its entries, in the order in which os.listdir gives them, and what reading them as csv, npy or npz gives. *)
Record folder := { d_names : list string; d_csv : string -> option (arr T); d_npy : string -> option (arr T); d_npz : string -> option (field T) }.
(** rt:190-197 the folders figs and data are created in the output folder before the input is listed; [here]: the output folder is output_base. *)
Definition make_dir (name : string) (d : folder) : folder :=
  if existsb (String.eqb name) (d_names d) then d
  else {| d_names := d_names d ++ [name];
          d_csv := fun n => if String.eqb n name then None else d_csv d n;
          d_npy := fun n => if String.eqb n name then None else d_npy d n;
          d_npz := fun n => if String.eqb n name then None else d_npz d n |}.
Definition make_dirs (here : bool) (d : folder) : folder := if here then make_dir "data" (make_dir "figs" d) else d.
(** rt:200-210 the sorted list of the names with a prefix. *)
Definition listed (pre : string) (d : folder) : list string := sort_names (filter (String.prefix pre) (d_names d)).
(** l[i], then the reading function. *)
Definition load_nth {A} (rd : string -> option A) (l : list string) (i : Z) : fres A :=
  n <~ lift (py_nth l i) ;; match rd n with Some a => Done a | None => NotRead n end.
(** rt:226-252 the arrays of step i. *)
Definition load_step (otype : string) (d : folder) (i : Z) : fres (field T) :=
  let four rd :=
    h <~ load_nth rd (listed "depth" d) i ;; s <~ load_nth rd (listed "stage" d) i ;;
    x <~ load_nth rd (listed "qx" d) i ;; y <~ load_nth rd (listed "qy" d) i ;;
    Done {| fl_depth := h; fl_stage := s; fl_qx := x; fl_qy := y |} in
  if String.eqb otype "csv" then four (d_csv d)
  else if String.eqb otype "npy" then four (d_npy d)
  else if String.eqb otype "npz" then load_nth (d_npz d) (listed "data" d) i
  else Raises ValueError.
(** rt:219-289 the loop over the steps; as unsteady_loop, but each field is read when its step begins. *)
Fixpoint files_loop (lm : Libm T) (draws : nat -> T) (otype : string) (d : folder) (tt : list T) (steps : list Z) (q : request T) (prev : option (walk T)) (p : params T) (pos : nat)
  : fres (option (walk T)) :=
  match steps with
  | [] => Done prev
  | i :: rest =>
      f <~ load_step otype d i ;;
      match nth_error tt (Z.to_nat i) with
      | None =>
          '(P, p') <~ lift (init lm (set_field f p)) ;;
          match call_generate P draws q prev (init_sim lm P pos) with (Ok _, _) => Raises IndexError | (Err e, _) => Raises e end
      | Some target =>
          '(w, p', pos') <~ lift (unsteady_step lm draws q f target prev p pos) ;;
          files_loop lm draws otype d tt rest later_request (Some w) p' pos'
      end
  end.
(** rt:121-294 unsteady_plots with its files. *)
Definition unsteady_files (lm : Libm T) (draws : nat -> T) (pos : nat) (dx : T) (np : Z) (xl yl : list Z) (num_steps : Z) (timestep : T) (d : folder) (otype : string) (here : bool)
  : fres (walk T) :=
  let d := make_dirs here d in
  let m := Z.max (Z.of_nat (length (listed "depth" d))) (Z.of_nat (length (listed "data" d))) in
  let n := if (m <? num_steps)%Z then m else num_steps in
  tt <~ lift (np_arange timestep (nmul timestep (nofZ (n + 1)%Z)) timestep) ;;
  r <~ files_loop lm draws otype d tt (zrange 0 n) (first_request np xl yl) None (unsteady_params dx) pos ;;
  match r with Some w => Done w | None => Raises UnboundLocalError end.
End Files.
Arguments folder : clear implicits.
