(** The PLY format, as far as the theorems need it: elements whose properties are single
    values, stored in binary. *)
From Coq Require Import List ZArith NArith Bool String Ascii Reals.
From Verif.Base Require Import Py Vec.
From Verif.Cloud Require Import Model.
From Verif.Ply Require Import Model.
Import ListNotations.
Local Open Scope string_scope.
Local Open Scope list_scope.

(** The bytes of a number in decimal. *)
Definition number_text (w : bytes) (n : N) : Prop :=
  w <> [] /\ Forall (fun c => (48 <= N_of_ascii c <= 57)%N) w /\
  fold_left (fun a c => a * 10 + (N_of_ascii c - 48))%N w 0%N = n.

(** A word: no white space. *)
Definition word_ok (w : bytes) : Prop :=
  w <> [] /\ Forall (fun c => N_of_ascii c <> 32 /\ ~ (9 <= N_of_ascii c <= 13))%N w.

Inductive spelled : ptype -> string -> Prop :=
| sp_int8 : spelled INT8 "int8" | sp_char : spelled INT8 "char"
| sp_uint8 : spelled UINT8 "uint8" | sp_uchar : spelled UINT8 "uchar"
| sp_int16 : spelled INT16 "int16" | sp_short : spelled INT16 "short"
| sp_uint16 : spelled UINT16 "uint16" | sp_ushort : spelled UINT16 "ushort"
| sp_int32 : spelled INT32 "int32" | sp_int : spelled INT32 "int"
| sp_uint32 : spelled UINT32 "uint32" | sp_uint : spelled UINT32 "uint"
| sp_float32 : spelled FLOAT32 "float32" | sp_float : spelled FLOAT32 "float"
| sp_float64 : spelled FLOAT64 "float64" | sp_double : spelled FLOAT64 "double".

(** Size in bytes. *)
Inductive width : ptype -> nat -> Prop :=
| w_int8 : width INT8 1 | w_uint8 : width UINT8 1 | w_int16 : width INT16 2 | w_uint16 : width UINT16 2
| w_int32 : width INT32 4 | w_uint32 : width UINT32 4 | w_float32 : width FLOAT32 4 | w_float64 : width FLOAT64 8.

Definition property_text (p : property) (l : bytes) : Prop :=
  exists T, spelled (p_type p) T /\ word_ok (p_name p) /\ p_list p = None /\
    l = text "property " ++ text T ++ text " " ++ p_name p ++ [newline].
Definition element_text (e : element) (l : bytes) : Prop :=
  exists num pl, word_ok (e_name e) /\ (e_size e < 18446744073709551616)%N /\ number_text num (e_size e) /\
    Forall2 property_text (e_properties e) pl /\
    l = text "element " ++ e_name e ++ text " " ++ num ++ [newline] ++ List.concat pl.
Definition header_text (big_endian : bool) (els : list element) (l : bytes) : Prop :=
  exists el, Forall2 element_text els el /\
    l = text "ply" ++ [newline] ++
        text (if big_endian then "format binary_big_endian 1.0" else "format binary_little_endian 1.0") ++ [newline] ++
        List.concat el ++ text "end_header" ++ [newline].

(** The values stored for one instance of an element, and for all. *)
Definition row_ok (e : element) (row : list bytes) : Prop :=
  Forall2 (fun p f => width (p_type p) (List.length f)) (e_properties e) row.
Definition rows_ok (e : element) (rows : list (list bytes)) : Prop :=
  N.of_nat (List.length rows) = e_size e /\ Forall (row_ok e) rows.

(** The value of property k in a row. *)
Definition field (e : element) (row : list bytes) (k : string) (f : bytes) : Prop :=
  exists i p, nth_error (e_properties e) i = Some p /\ p_name p = text k /\ nth_error row i = Some f.

Definition float_of (big_endian : bool) (f : bytes) (x : f32) : Prop :=
  match x with (a, b, c, d) => f = if big_endian then [d; c; b; a] else [a; b; c; d] end.

(** The properties named x, y and z are these, in this order. *)
Definition is_xyz (p : property) : bool := existsb (same (p_name p)) ["x"; "y"; "z"].
Definition has_xyz (e : element) : Prop :=
  filter is_xyz (e_properties e) = [Property (text "x") FLOAT32 None; Property (text "y") FLOAT32 None; Property (text "z") FLOAT32 None].

(** No other property has the hash of a requested one. *)
Definition no_collision (els : list element) : Prop :=
  forall e p k, In e els -> In p (e_properties e) -> In k ["x"; "y"; "z"] ->
    hash_fnv1a (e_name e ++ p_name p) = hash_fnv1a (text "vertex" ++ text k) -> e_name e = text "vertex" /\ p_name p = text k.

(** The row stores the point t. *)
Definition row_is (be : bool) (e : element) (row : list bytes) (t : f32 * f32 * f32) : Prop :=
  exists fx fy fz, field e row "x" fx /\ float_of be fx (fst (fst t)) /\ field e row "y" fy /\ float_of be fy (snd (fst t)) /\ field e row "z" fz /\ float_of be fz (snd t).

(** The numbers of a point in the order x, y, z. *)
Definition triple_floats (t : f32 * f32 * f32) : list f32 := [fst (fst t); snd (fst t); snd t].

(** The element written for points without and with colors, and the bytes of one point. *)
Definition xyz_properties : list property := map (fun k => Property (text k) FLOAT32 None) ["x"; "y"; "z"].
Definition rgb_properties : list property := map (fun k => Property (text k) UINT8 None) ["red"; "green"; "blue"].
Definition stored (f : f32) : bytes := match f with (a, b, c, d) => [a; b; c; d] end.
Definition point_row (to_f32 : R -> f32) (e : vec * option color) : bytes :=
  stored (to_f32 (vx (fst e))) ++ stored (to_f32 (vy (fst e))) ++ stored (to_f32 (vz (fst e))) ++
  match snd e with Some c => [ascii_of_N (Z.to_N (red c)); ascii_of_N (Z.to_N (green c)); ascii_of_N (Z.to_N (blue c))] | None => [] end.
