(** The PLY format with lists and with any spacing, in binary and as text. *)
From Coq Require Import List ZArith NArith Bool String Ascii.
From Verif.Ply Require Import Model Spec.
Import ListNotations.
Local Open Scope string_scope.
Local Open Scope list_scope.

(** * Words and the white space around them *)
Definition space (c : ascii) : Prop := (N_of_ascii c = 32 \/ 9 <= N_of_ascii c <= 13)%N.
(** [spaced B ws l]: l is the words ws with spaces of kind B between them (at least one),
    before and after. *)
Inductive spaced (B : ascii -> Prop) : list bytes -> bytes -> Prop :=
| spaced_end s : Forall B s -> spaced B [] s
| spaced_word s w ws r : Forall B s -> word_ok w -> spaced B ws r -> (r = [] \/ exists c r', r = c :: r' /\ B c) ->
    spaced B (w :: ws) (s ++ w ++ r).
(** Spaces inside a line; a carriage return may end it. *)
Definition blank (c : ascii) : Prop := space c /\ c <> newline.
Definition line (ws : list bytes) (l : bytes) : Prop := exists b, spaced blank ws b /\ l = b ++ [newline].

(** * Header *)
Inductive format := Text | Little | Big.
Definition format_word (f : format) : string := match f with Text => "ascii" | Little => "binary_little_endian" | Big => "binary_big_endian" end.
(** A comment, an obj_info, or an empty line. *)
Definition noise (ws : list bytes) : Prop := match ws with [] => True | w :: _ => w = text "comment" \/ w = text "obj_info" end.
Inductive property_words : property -> list bytes -> Prop :=
| pw_one n t T : spelled t T -> word_ok n -> property_words (Property n t None) [text "property"; text T; n]
| pw_list n t T c C : spelled t T -> spelled c C -> word_ok n ->
    property_words (Property n t (Some c)) [text "property"; text "list"; text C; text T; n].
Inductive properties_lines : list property -> list (list bytes) -> Prop :=
| pl_none : properties_lines [] []
| pl_noise ws ps ls : noise ws -> properties_lines ps ls -> properties_lines ps (ws :: ls)
| pl_more p ws ps ls : property_words p ws -> properties_lines ps ls -> properties_lines (p :: ps) (ws :: ls).
Inductive elements_lines : list element -> list (list bytes) -> Prop :=
| el_none : elements_lines [] []
| el_noise ws els ls : noise ws -> elements_lines els ls -> elements_lines els (ws :: ls)
| el_more e num pl els ls : word_ok (e_name e) -> (e_size e < 18446744073709551616)%N -> number_text num (e_size e) ->
    properties_lines (e_properties e) pl -> elements_lines els ls ->
    elements_lines (e :: els) ([text "element"; e_name e; num] :: pl ++ ls).
Definition ply_header (f : format) (els : list element) (h : bytes) : Prop :=
  exists ls bs version, elements_lines els ls /\ word_ok version /\
    Forall2 line ([[text "ply"]; [text "format"; text (format_word f); version]] ++ ls ++ [[text "end_header"]]) bs /\
    h = List.concat bs.

(** * Values *)

(** Whole numbers for the length of a list. *)
Inductive whole : ptype -> Prop :=
| wh_1 : whole INT8 | wh_2 : whole UINT8 | wh_3 : whole INT16 | wh_4 : whole UINT16 | wh_5 : whole INT32 | wh_6 : whole UINT32.
(** How many values can be counted with the type. *)
Definition counts (t : ptype) : N :=
  match t with INT8 => 128 | UINT8 => 256 | INT16 => 32768 | UINT16 => 65536 | INT32 => 2147483648 | UINT32 => 4294967296 | _ => 0 end.

(** In binary: the bytes of a number in the order of the file. *)
Fixpoint number_of (b : bytes) : N := match b with [] => 0 | c :: b => N_of_ascii c + 256 * number_of b end.
Definition in_order (f : format) (b : bytes) : bytes := match f with Big => rev b | _ => b end.
Inductive binary_value (f : format) : property -> bytes -> Prop :=
| bv_one n t b : width t (List.length b) -> binary_value f (Property n t None) b
| bv_list n t c nb items : width c (List.length nb) -> number_of (in_order f nb) = N.of_nat (List.length items) ->
    Forall (fun b => width t (List.length b)) items -> binary_value f (Property n t (Some c)) (nb ++ List.concat items).

(** As text: words. *)
Inductive text_value : property -> list bytes -> Prop :=
| tv_one n t w : word_ok w -> text_value (Property n t None) [w]
| tv_list n t c nw items : whole c -> number_text nw (N.of_nat (List.length items)) -> (N.of_nat (List.length items) < counts c)%N ->
    Forall word_ok items -> text_value (Property n t (Some c)) (nw :: items).

(** A table of values: for each instance of each element the values of its properties. *)
Definition table {V} (R : property -> V -> Prop) (e : element) (rows : list (list V)) : Prop :=
  N.of_nat (List.length rows) = e_size e /\ Forall (fun row => Forall2 R (e_properties e) row) rows.
(** The value of property k. *)
Definition cell {V} (e : element) (row : list V) (k : string) (v : V) : Prop :=
  exists i p, nth_error (e_properties e) i = Some p /\ p_name p = text k /\ nth_error row i = Some v.

(** * Real numbers as text *)
Definition digits (l : bytes) : Prop := Forall (fun c => 48 <= N_of_ascii c <= 57)%N l.
Definition sign (l : bytes) : Prop := In l [[]; text "+"; text "-"].
Inductive real_text : bytes -> Prop :=
| real_intro s a p b x : sign s -> digits a -> digits b -> (p = text "." \/ p = [] /\ b = []) -> a ++ b <> [] ->
    (x = [] \/ exists e s' d, x = e ++ s' ++ d /\ In e [text "e"; text "E"] /\ sign s' /\ digits d /\ d <> []) ->
    real_text (s ++ a ++ p ++ b ++ x).

(** One word, a number that strtof ([real]) turns into f. *)
Definition reads (real : ptype -> bytes -> bytes * bool) (ws : list bytes) (f : f32) : Prop :=
  exists w, ws = [w] /\ real_text w /\ real FLOAT32 w = (stored f, true).
Definition big (f : format) : bool := match f with Big => true | _ => false end.

(** The row holds the point t: x, y and z are values that [R] reads as floats. *)
Definition holds {V} (R : V -> f32 -> Prop) (e : element) (row : list V) (t : f32 * f32 * f32) : Prop :=
  exists x y z, cell e row "x" x /\ R x (fst (fst t)) /\ cell e row "y" y /\ R y (snd (fst t)) /\ cell e row "z" z /\ R z (snd t).
