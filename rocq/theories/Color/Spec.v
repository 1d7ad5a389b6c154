(** Vocabulary for the category color properties. *)
From Coq Require Import List String ZArith.
From Verif.Base Require Import Py.
From Verif.Color Require Import Model.
Import ListNotations.
Local Open Scope Z_scope.

(** Objects obtained from a file by construction and any number of calls. *)
Inductive made_from (rows : list row) : colored_category -> Prop :=
| mf_init : forall c, mk_colored_category (Some rows) = Ok c -> made_from rows c
| mf_lut : forall c l c', made_from rows c -> LUT c = Ok (l, c') -> made_from rows c'
| mf_convert : forall c im out c', made_from rows c -> convert_to_rgb_im c im = Ok (out, c') -> made_from rows c'.

(** The color of the last row with a given name. *)
Definition last_named (rows : list row) (name : string) (col : color) : Prop :=
  exists before r after, rows = before ++ r :: after /\ r_category r = name /\ r_color r = col /\
    forall r', In r' after -> r_category r' <> name.

(** RGB values. *)
Definition rgb (c : color) : Prop := List.length c = 3%nat /\ forall x, In x c -> 0 <= x <= 255.
