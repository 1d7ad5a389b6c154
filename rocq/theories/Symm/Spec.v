(** The documented rules for symmetries, object_symmetry.py 57-70. *)
From Coq Require Import List String Permutation.
From Verif.Base Require Import Xml.
From Verif.Symm Require Import Model.
Import ListNotations.
Local Open Scope string_scope.

(** The nine rules, each as an unordered triple. *)
Inductive rule : list symmetry_type -> Prop :=
| rule1 : rule [none; none; none]
| rule2 : rule [twoFold; none; none]
| rule3 : rule [fourFold; none; none]
| rule4 : rule [twoFold; twoFold; fourFold]
| rule5 : rule [fourFold; fourFold; fourFold]
| rule6 : rule [twoFold; twoFold; twoFold]
| rule7 : rule [cylindrical; none; none]
| rule8 : rule [cylindrical; twoFold; twoFold]
| rule9 : rule [spherical; spherical; spherical].

Definition documented (x y z : symmetry_type) : Prop := exists r, rule r /\ Permutation r [x; y; z].

(** The names of the types. *)
Inductive named : symmetry_type -> string -> Prop :=
| n_none : named none "none"
| n_two : named twoFold "twoFold"
| n_four : named fourFold "fourFold"
| n_cyl : named cylindrical "cylindrical"
| n_sph : named spherical "spherical".

(** The last child with tag [t] holds the text [s]. *)
Definition last_child (t : string) (s : string) (cs : list xml) : Prop :=
  exists a e b, cs = (a ++ e :: b)%list /\ tag e = t /\ text e = Some s /\ forall e', In e' b -> tag e' <> t.

(** The XML describes the symmetry: its last x, y and z children name the types. *)
Definition describes (base : xml) (x y z : symmetry_type) : Prop :=
  exists sx sy sz, last_child "x" sx (children base) /\ last_child "y" sy (children base) /\
    last_child "z" sz (children base) /\ named x sx /\ named y sy /\ named z sz.
