(** Saving walk data: json.dump(walk_data, open(fpath, 'w')) in dorado/routines.py (cited as rt) 111-113, 287-289, 380-382, and reading them back with json.load as
    the comments there show (rt:115-116, 291-292, 384-385).

    The Python objects in the lists are represented by their types as far as json cares: np.float64 is a subclass of float, other NumPy scalars (elements of float32 or
    integer grids) are not known to json.  Text of numbers: integers in decimal; float.__repr__ and float() are parameters [frepr], [fread].
    Simplifications: the text is a value (json.dump writes it piece by piece; if it raises, a truncated file is left behind); keys are written without escapes (all keys of
    walk data are plain); json.load is only defined on texts of the form that json.dump writes: a dictionary of lists of lists of scalars with ", " and ": ". *)
From Coq Require Decimal.
From Coq Require Import ZArith Bool String Ascii List DecimalString.
From Flocq Require Import IEEE754.BinarySingleNaN.
From Verif Require Import Num F64 Py.
Import ListNotations.
Open Scope Z_scope.
Open Scope char_scope.

Definition text := list ascii.
Definition txt (s : string) : text := list_ascii_of_string s.

(** The scalars in walk data. *)
Inductive pyv := PNone | PInt (z : Z) | PFloat (x : f64) | PNumpy (x : f64).
Definition pydict : Type := list (string * list (list pyv)).

Section Json.
Variables (frepr : f64 -> text) (fread : text -> option f64).

(** json.encoder: int.__repr__, floatstr. *)
Definition show_int (z : Z) : text := txt (NilZero.string_of_int (Z.to_int z)).
Definition show_float (x : f64) : text :=
  match x with B754_nan => txt "NaN" | B754_infinity false => txt "Infinity" | B754_infinity true => txt "-Infinity" | _ => frepr x end.
Definition show_scalar (v : pyv) : res text :=
  match v with PNone => Ok (txt "null") | PInt z => Ok (show_int z) | PFloat x => Ok (show_float x) | PNumpy _ => Err TypeError end.
(** Items with ", " between them. *)
Fixpoint join (l : list text) : text := match l with [] => [] | [a] => a | a :: r => a ++ "," :: " " :: join r end.
Definition show_list {A} (show : A -> res text) (l : list A) : res text := (ts <- mapM show l ;; Ok ("[" :: join ts ++ ["]"]))%res.
Definition quote (k : string) : text := """" :: txt k ++ [""""].
Definition show_entry (kv : string * list (list pyv)) : res text :=
  (t <- show_list (show_list show_scalar) (snd kv) ;; Ok (quote (fst kv) ++ ":" :: " " :: t))%res.
(** rt:113, 289, 382. *)
Definition json_dump (d : pydict) : res text := (ts <- mapM show_entry d ;; Ok ("{" :: join ts ++ ["}"]))%res.

(** json.decoder. *)
Fixpoint strip (p t : text) : option text :=
  match p, t with [], _ => Some t | a :: p', b :: t' => if Ascii.eqb a b then strip p' t' else None | _, [] => None end.
Definition numchar (c : ascii) : bool := existsb (Ascii.eqb c) (txt "0123456789+-.eE").
Definition floatchar (c : ascii) : bool := existsb (Ascii.eqb c) (txt ".eE").
Fixpoint span (f : ascii -> bool) (t : text) : text * text :=
  match t with c :: r => if f c then (c :: fst (span f r), snd (span f r)) else ([], t) | [] => ([], []) end.
(** NUMBER_RE: a float if there is a fraction or an exponent, an int otherwise. *)
Definition read_number (t : text) : option pyv :=
  if existsb floatchar t then option_map PFloat (fread t)
  else option_map (fun d => PInt (Z.of_int d)) (NilZero.int_of_string (string_of_list_ascii t)).
Definition read_scalar (t : text) : option (pyv * text) :=
  match strip (txt "null") t with Some r => Some (PNone, r) | None =>
  match strip (txt "NaN") t with Some r => Some (PFloat B754_nan, r) | None =>
  match strip (txt "Infinity") t with Some r => Some (PFloat (B754_infinity false), r) | None =>
  match strip (txt "-Infinity") t with Some r => Some (PFloat (B754_infinity true), r) | None =>
  let (tok, r) := span numchar t in option_map (fun v => (v, r)) (read_number tok) end end end end.
(** Items up to the closing bracket. *)
Fixpoint read_items {A} (read : text -> option (A * text)) (close : ascii) (fuel : nat) (t : text) : option (list A * text) :=
  match fuel with
  | O => None
  | S f =>
    match read t with
    | Some (a, c :: r) =>
        if Ascii.eqb c close then Some ([a], r)
        else if Ascii.eqb c "," then
          match r with " " :: r' => match read_items read close f r' with Some (l, r'') => Some (a :: l, r'') | None => None end | _ => None end
        else None
    | _ => None
    end
  end.
Definition read_block {A} (read : text -> option (A * text)) (opening close : ascii) (t : text) : option (list A * text) :=
  match t with
  | c :: r => if Ascii.eqb c opening then
                match r with d :: r' => if Ascii.eqb d close then Some ([], r') else read_items read close (length t) r | [] => None end
              else None
  | [] => None
  end.
Definition read_list {A} (read : text -> option (A * text)) : text -> option (list A * text) := read_block read "[" "]".
Definition read_entry (t : text) : option ((string * list (list pyv)) * text) :=
  match t with
  | """" :: r => let (k, r1) := span (fun c => negb (Ascii.eqb c """")) r in
      match r1 with
      | """" :: ":" :: " " :: r2 => match read_list (read_list read_scalar) r2 with Some (v, r3) => Some ((string_of_list_ascii k, v), r3) | None => None end
      | _ => None end
  | _ => None
  end.
(** json.load: ValueError (JSONDecodeError) for other texts and for text after the dictionary. *)
Definition json_load (t : text) : res pydict :=
  match read_block read_entry "{" "}" t with Some (d, []) => Ok d | _ => Err ValueError end.
End Json.
