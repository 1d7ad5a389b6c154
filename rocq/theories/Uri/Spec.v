(** Base 64 as RFC 4648 defines it, by numbers; and what is assumed of wordexp. *)
From Coq Require Import List Bool ZArith Ascii String.
From Verif.Uri Require Import Model.
Import ListNotations.
Local Open Scope Z_scope.

Definition byte (z : Z) : Prop := 0 <= z < 256.

(** The value of a character: A-Z, a-z, 0-9, + and /. *)
Definition digit (c : ascii) : option Z :=
  let z := code c in
  if (65 <=? z) && (z <=? 90) then Some (z - 65)
  else if (97 <=? z) && (z <=? 122) then Some (z - 97 + 26)
  else if (48 <=? z) && (z <=? 57) then Some (z - 48 + 52)
  else if z =? 43 then Some 62
  else if z =? 47 then Some 63
  else None.

(** A list of digits as one number, the first digit first. *)
Definition number (base : Z) (ds : list Z) : Z := fold_left (fun n d => base * n + d) ds 0.

(** The text [s] consists of characters with the values [ds]. *)
Definition digits (s : text) (ds : list Z) : Prop := map digit s = map Some ds.

(** Nothing, or a character without a value, comes next. *)
Definition ends (s : text) : Prop := match s with [] => True | c :: _ => digit c = None end.

(** The characters of a name that wordexp leaves alone, among others. *)
Definition plain (c : ascii) : Prop :=
  let z := code c in
  48 <= z <= 57 \/ 65 <= z <= 90 \/ 97 <= z <= 122 \/ z = 45 \/ z = 46 \/ z = 47 \/ z = 95.
Definition blank : ascii := " ".

(** wordexp keeps plain names and splits at blanks; ExpandFilePath takes the first
    word. *)
Record expands (expand : text -> text) : Prop := {
  expand_plain : forall p, p <> [] -> Forall plain p -> expand p = p;
  expand_blank : forall p q, p <> [] -> Forall plain p -> Forall plain q -> expand (p ++ blank :: q) = p }.

(** A file name without folder. *)
Definition simple (s : text) : Prop := ~ In "/"%char s /\ ~ In "\"%char s.

(** A folder that can be put before "/": not empty, not ending in "/". *)
Definition folder (d : text) : Prop := d <> [] /\ last d "x"%char <> "/"%char.
Definition in_folder (d name : text) : text := d ++ lit "/" ++ name.
