(** ObjectSymmetry, sumo/semantic/object_symmetry.py, and the symmetry argument of
    the ProjectObject constructor, sumo/semantic/project_object.py. *)
From Coq Require Import List Bool String.
From Verif.Base Require Import Py Xml.
Import ListNotations.
Local Open Scope string_scope.

(** SymmetryType, object_symmetry.py 18-27. *)
Inductive symmetry_type := none | twoFold | fourFold | cylindrical | spherical.

Definition st_eqb (a b : symmetry_type) : bool :=
  match a, b with
  | none, none | twoFold, twoFold | fourFold, fourFold
  | cylindrical, cylindrical | spherical, spherical => true
  | _, _ => false
  end.

(** _valid_symmetries, 240-269, in the order of the source. *)
Definition valid_symmetries : list (symmetry_type * symmetry_type * symmetry_type) :=
  [(none, none, none);
   (twoFold, none, none); (none, twoFold, none); (none, none, twoFold);
   (fourFold, none, none); (none, fourFold, none); (none, none, fourFold);
   (fourFold, twoFold, twoFold); (twoFold, fourFold, twoFold); (twoFold, twoFold, fourFold);
   (fourFold, fourFold, fourFold);
   (twoFold, twoFold, twoFold);
   (cylindrical, none, none); (none, cylindrical, none); (none, none, cylindrical);
   (cylindrical, twoFold, twoFold); (twoFold, cylindrical, twoFold); (twoFold, twoFold, cylindrical);
   (spherical, spherical, spherical)].

(** is_valid, 111-123.  from_xml passes None for a missing or unknown value; None
    is in no listed triple. *)
Definition is_valid (x y z : option symmetry_type) : bool :=
  match x, y, z with
  | Some x, Some y, Some z =>
      existsb (fun t => let '(a, b, c) := t in st_eqb x a && st_eqb y b && st_eqb z c) valid_symmetries
  | _, _, _ => false
  end.

Record symmetry := Symmetry { x_symmetry : symmetry_type; y_symmetry : symmetry_type; z_symmetry : symmetry_type }.

(** __init__, 41-76. *)
Definition mk_symmetry (x y z : option symmetry_type) : res symmetry :=
  if is_valid x y z then
    match x, y, z with
    | Some x, Some y, Some z => Ok (Symmetry x y z)
    | _, _, _ => Err ValueError
    end
  else Err ValueError.

(** Default arguments, 43-45. *)
Definition default_symmetry : res symmetry := mk_symmetry (Some none) (Some none) (Some none).

(** __eq__, 88-93. *)
Definition sym_eqb (a b : symmetry) : bool :=
  st_eqb (x_symmetry a) (x_symmetry b) && st_eqb (y_symmetry a) (y_symmetry b) && st_eqb (z_symmetry a) (z_symmetry b).

(** __ne__, 95-96: returns self != other, which calls __ne__ again.  [depth] is
    the number of stack frames Python still allows. *)
Fixpoint sym_ne (depth : nat) (a b : symmetry) : res bool :=
  match depth with
  | O => Err RecursionError
  | S depth => sym_ne depth a b
  end.

(** _symmetry_type_to_text, 222-228. *)
Definition type_to_text (t : symmetry_type) : string :=
  match t with
  | none => "none" | twoFold => "twoFold" | fourFold => "fourFold"
  | cylindrical => "cylindrical" | spherical => "spherical"
  end.

(** _symmetry_text_to_type, 230-236. *)
Definition text_to_type : list (string * symmetry_type) :=
  [("none", none); ("twoFold", twoFold); ("fourFold", fourFold);
   ("cylindrical", cylindrical); ("spherical", spherical)].

(** from_strings, 126-148: names not in the table are dropped before counting. *)
Definition from_strings (strings : list string) : res symmetry :=
  if negb (Nat.eqb (List.length strings) 3) then Err ValueError
  else
    match flat_map (fun s => match sget s text_to_type with Some t => [t] | None => [] end) strings with
    | a :: b :: c :: _ => mk_symmetry (Some a) (Some b) (Some c)
    | _ => Err ValueError
    end.

(** _symmetry_text_to_type.get(elem.text, None); an element without text has text
    None, which is not a key. *)
Definition lookup_text (s : option string) : option symmetry_type :=
  match s with Some s => sget s text_to_type | None => None end.

(** The loop over the children, 178-185. *)
Definition parse_child (acc : option symmetry_type * option symmetry_type * option symmetry_type) (e : xml) :=
  let '(x, y, z) := acc in
  if String.eqb (tag e) "x" then (lookup_text (text e), y, z)
  else if String.eqb (tag e) "y" then (x, lookup_text (text e), z)
  else if String.eqb (tag e) "z" then (x, y, lookup_text (text e))
  else acc.

(** from_xml, 151-193.  The handler of lines 192-193 builds a RuntimeError without
    raising it, so the function falls off its end and returns None. *)
Definition from_xml (base : xml) : res (option symmetry) :=
  if negb (String.eqb (tag base) "symmetry") then Err RuntimeError
  else
    let '(x, y, z) := fold_left parse_child (children base) (None, None, None) in
    match mk_symmetry x y z with
    | Ok s => Ok (Some s)
    | Err ValueError => Ok None
    | Err e => Err e
    end.

(** to_xml, 195-211. *)
Definition to_xml (s : symmetry) : xml :=
  Elem "symmetry" None
    [leaf "x" (type_to_text (x_symmetry s)); leaf "y" (type_to_text (y_symmetry s));
     leaf "z" (type_to_text (z_symmetry s))].

(** project_object.py 89: symmetry if symmetry is not None else ObjectSymmetry(). *)
Definition object_symmetry (s : option symmetry) : res symmetry :=
  match s with Some s => Ok s | None => default_symmetry end.
