(** Model of picojson (/repo/sumo-api/sumo/images/picojson.h), compiled with
    PICOJSON_USE_INT64 (/repo/sumo-api/setup.py 103), as readMetadata and writeMetadata of
    /repo/sumo-api/sumo/images/RgbdTiff.cpp 65-124 use it for the image description of a
    TIFF file.
    A char is a byte.  A double is a rational: infinities and NaN are not values (the
    constructor throws overflow_error), the sign of zero is left out.  The decimal point
    of the locale is ".".  Nesting is not limited by a stack.  After a syntax error the
    value as far as it was read is kept, because readMetadata goes on with it; the error
    text and the position of the error, which it ignores, are left out. *)
From Coq Require Import List Bool ZArith QArith Qabs Ascii String.
From Verif.Base Require Import Py.
From Verif.Round Require Import Model.
Import ListNotations.
Local Open Scope Z_scope.

Definition text := list ascii.
Definition lit (s : string) : text := list_ascii_of_string s.
Definition code (c : ascii) : Z := Z.of_nat (nat_of_ascii c).
Definition char (z : Z) : ascii := ascii_of_nat (Z.to_nat z).

(** class value, 123-203. *)
Inductive value :=
| JNull | JBool (b : bool) | JInt (z : Z) | JNum (q : Q) | JStr (s : text)
| JArr (l : list value) | JObj (o : list (text * value)).

(** std::map<std::string, value>: members in the order of their keys, which are compared
    as unsigned bytes. *)
Fixpoint less (a b : text) : bool :=
  match a, b with
  | _, [] => false
  | [], _ :: _ => true
  | x :: a, y :: b => (code x <? code y) || ((code x =? code y) && less a b)
  end.
Fixpoint oget (k : text) (o : list (text * value)) : option value :=
  match o with
  | [] => None
  | (k', v) :: o => if list_eq_dec ascii_dec k k' then Some v else oget k o
  end.
Fixpoint oset (k : text) (v : value) (o : list (text * value)) : list (text * value) :=
  match o with
  | [] => [(k, v)]
  | (k', v') :: o' =>
      if list_eq_dec ascii_dec k k' then (k, v) :: o'
      else if less k k' then (k, v) :: o else (k', v') :: oset k v o'
  end.

(** ** Writing *)

Definition digit_char (z : Z) : ascii := char (48 + z).
(** The decimal digits of a number that is not negative. *)
Fixpoint digits_of (fuel : nat) (z : Z) : text :=
  match fuel with
  | O => []
  | S n => if z <? 10 then [digit_char z] else digits_of n (z / 10) ++ [digit_char (z mod 10)]
  end.
Definition decimal (z : Z) : text := digits_of (S (Z.to_nat (Z.log2 z))) z.
(** printf of an int64, and %.f of a double that is an integer. *)
Definition print_int (z : Z) : text := if z <? 0 then lit "-" ++ decimal (- z) else decimal z.

(** printf's %.17g of a positive x: the exponent k with 10^k <= x < 10^(k+1); the 17
    digits; the style. *)
Definition ten (e : Z) : Q := Qpower 10 e.
Fixpoint climb (fuel : nat) (k : Z) (x : Q) : Z :=
  match fuel with
  | O => k
  | S n => if Qle_bool (ten (k + 1)) x then climb n (k + 1) x else k
  end.
Definition exponent (x : Q) : Z :=
  climb (Z.to_nat (Z.log2 (Qnum x) + Z.log2 (Zpos (Qden x)) + 2)) (- Z.log2 (Zpos (Qden x)) - 1) x.
Definition seventeen (x : Q) : Z * Z :=
  let k := exponent x in
  let n := nearest_even (x * ten (16 - k)) in
  if n =? 10 ^ 17 then (10 ^ 16, k + 1) else (n, k).
(** Trailing zeros are removed, and the point if no digit follows it. *)
Fixpoint drop_zeros (s : text) : text :=
  match s with
  | c :: s' => if Ascii.eqb c "0" then drop_zeros s' else s
  | [] => []
  end.
Definition strip (s : text) : text := rev (drop_zeros (rev s)).
Definition fraction (s : text) : text := match strip s with [] => [] | f => lit "." ++ f end.
Definition two_digits (z : Z) : text := if z <? 10 then digit_char 0 :: decimal z else decimal z.
Definition print_g (x : Q) : text :=
  let '(n, k) := seventeen x in
  let d := decimal n in
  if (-4 <=? k) && (k <? 17) then
    if 0 <=? k then firstn (Z.to_nat (k + 1)) d ++ fraction (skipn (Z.to_nat (k + 1)) d)
    else lit "0" ++ fraction (repeat "0"%char (Z.to_nat (- k - 1)) ++ d)
  else
    firstn 1 d ++ fraction (skipn 1 d) ++ lit "e" ++ (if k <? 0 then lit "-" else lit "+") ++ two_digits (Z.abs k).

(** to_str 485-534 of a number. *)
Definition is_int (q : Q) : bool := Zpos (Qden (Qred q)) =? 1.
Definition print_double (q : Q) : text :=
  if negb (Qle_bool (2 ^ 53) (Qabs q)) && is_int q then print_int (Qnum (Qred q))
  else if negb (Qle_bool 0 q) then lit "-" ++ print_g (- q) else print_g q.

(** serialize_str_char 541-570, serialize_str 572-578. *)
Definition hex_char (z : Z) : ascii := if z <? 10 then char (48 + z) else char (87 + z).
Definition escape (c : ascii) : text :=
  let z := code c in
  if Ascii.eqb c """" then lit "\"""
  else if Ascii.eqb c "\" then lit "\\"
  else if Ascii.eqb c "/" then lit "\/"
  else if z =? 8 then lit "\b"
  else if z =? 12 then lit "\f"
  else if z =? 10 then lit "\n"
  else if z =? 13 then lit "\r"
  else if z =? 9 then lit "\t"
  else if (z <? 32) || (z =? 127) then lit "\u00" ++ [hex_char (z / 16); hex_char (z mod 16)]
  else [c].
Definition serialize_str (s : text) : text := lit """" ++ flat_map escape s ++ lit """".

(** _indent 589-595, nothing if [indent] is -1. *)
Definition line (indent : Z) : text :=
  if indent =? -1 then [] else char 10 :: repeat " "%char (Z.to_nat (indent * 2)).
(** The loops over items and members: a comma before all but the first. *)
Fixpoint joined (first : bool) (l : list text) : text :=
  match l with
  | [] => []
  | s :: l => (if first then [] else lit ",") ++ s ++ joined false l
  end.
(** _serialize 597-664. *)
Fixpoint serialize_at (indent : Z) (v : value) : text :=
  let inner := if indent =? -1 then -1 else indent + 1 in
  let body :=
    match v with
    | JStr s => serialize_str s
    | JArr l =>
        lit "[" ++ joined true (map (fun x => line inner ++ serialize_at inner x) l)
        ++ (match l with [] => [] | _ => line indent end) ++ lit "]"
    | JObj o =>
        lit "{" ++ joined true (map (fun m => line inner ++ serialize_str (fst m) ++ lit ":"
                                              ++ (if indent =? -1 then [] else lit " ") ++ serialize_at inner (snd m)) o)
        ++ (match o with [] => [] | _ => line indent end) ++ lit "}"
    | JNull => lit "null"
    | JBool b => if b then lit "true" else lit "false"
    | JInt z => print_int z
    | JNum q => print_double q
    end in
  body ++ (if indent =? 0 then [char 10] else []).
(** serialize 585-587. *)
Definition serialize (prettify : bool) (v : value) : text := serialize_at (if prettify then 0 else -1) v.

(** ** Reading *)

(** skip_ws 710-718. *)
Definition is_blank (c : ascii) : bool :=
  let z := code c in (z =? 32) || (z =? 9) || (z =? 10) || (z =? 13).
Fixpoint skip_ws (s : text) : text :=
  match s with
  | c :: s' => if is_blank c then skip_ws s' else s
  | [] => []
  end.
(** expect 719-726: the rest, or None if something else comes. *)
Definition expect (c : ascii) (s : text) : option text :=
  match skip_ws s with
  | d :: s' => if Ascii.eqb c d then Some s' else None
  | [] => None
  end.
(** match 727-736. *)
Fixpoint match_text (p s : text) : option text :=
  match p, s with
  | [], _ => Some s
  | c :: p, d :: s => if Ascii.eqb c d then match_text p s else None
  | _, [] => None
  end.

(** _parse_quadhex 739-759. *)
Definition hex_value (c : ascii) : option Z :=
  let z := code c in
  if (48 <=? z) && (z <=? 57) then Some (z - 48)
  else if (65 <=? z) && (z <=? 70) then Some (z - 55)
  else if (97 <=? z) && (z <=? 102) then Some (z - 87)
  else None.
Definition quadhex (a b c d : ascii) : option Z :=
  match hex_value a, hex_value b, hex_value c, hex_value d with
  | Some w, Some x, Some y, Some z => Some (((w * 16 + x) * 16 + y) * 16 + z)
  | _, _, _, _ => None
  end.
(** The bytes of a code point, 784-800. *)
Definition push_codepoint (u : Z) : text :=
  if u <? 128 then [char u]
  else
    (if u <? 2048 then [char (Z.lor 192 (Z.shiftr u 6))]
     else
       (if u <? 65536 then [char (Z.lor 224 (Z.shiftr u 12))]
        else [char (Z.lor 240 (Z.shiftr u 18)); char (Z.lor 128 (Z.land (Z.shiftr u 12) 63))])
       ++ [char (Z.lor 128 (Z.land (Z.shiftr u 6) 63))])
    ++ [char (Z.lor 128 (Z.land u 63))].
(** Escapes of one character, 816-829. *)
Definition unescape (c : ascii) : option ascii :=
  if Ascii.eqb c """" then Some """"%char
  else if Ascii.eqb c "\" then Some "\"%char
  else if Ascii.eqb c "/" then Some "/"%char
  else if Ascii.eqb c "b" then Some (char 8)
  else if Ascii.eqb c "f" then Some (char 12)
  else if Ascii.eqb c "n" then Some (char 10)
  else if Ascii.eqb c "r" then Some (char 13)
  else if Ascii.eqb c "t" then Some (char 9)
  else None.
(** _parse_string 803-843 with _parse_codepoint 761-801: what is read and the rest after
    the quotation mark, None after an error. *)
Fixpoint parse_string (out s : text) : text * option text :=
  match s with
  | [] => (out, None)
  | c :: s =>
      if code c <? 32 then (out, None)
      else if Ascii.eqb c """" then (out, Some s)
      else if Ascii.eqb c "\" then
        match s with
        | [] => (out, None)
        | e :: s =>
            match unescape e with
            | Some b => parse_string (out ++ [b]) s
            | None =>
                if Ascii.eqb e "u" then
                  match s with
                  | h1 :: h2 :: h3 :: h4 :: s =>
                      match quadhex h1 h2 h3 h4 with
                      | None => (out, None)
                      | Some u =>
                          if (55296 <=? u) && (u <=? 57343) then
                            if 56320 <=? u then (out, None)
                            else
                              match s with
                              | b :: v :: g1 :: g2 :: g3 :: g4 :: s =>
                                  if Ascii.eqb b "\" && Ascii.eqb v "u" then
                                    match quadhex g1 g2 g3 g4 with
                                    | Some u2 =>
                                        if (56320 <=? u2) && (u2 <=? 57343) then
                                          parse_string
                                            (out ++ push_codepoint
                                               (Z.lor (Z.shiftl (u - 55296) 10) (Z.land (u2 - 56320) 1023) + 65536)) s
                                        else (out, None)
                                    | None => (out, None)
                                    end
                                  else (out, None)
                              | _ => (out, None)
                              end
                          else parse_string (out ++ push_codepoint u) s
                      end
                  | _ => (out, None)
                  end
                else (out, None)
            end
        end
      else parse_string (out ++ [c]) s
  end.

(** _parse_number 883-903: the characters of the number and the rest. *)
Definition is_digit (c : ascii) : bool := (48 <=? code c) && (code c <=? 57).
Definition in_number (c : ascii) : bool :=
  is_digit c || Ascii.eqb c "+" || Ascii.eqb c "-" || Ascii.eqb c "e" || Ascii.eqb c "E" || Ascii.eqb c ".".
Fixpoint span (p : ascii -> bool) (s : text) : text * text :=
  match s with
  | c :: s' => if p c then let '(a, b) := span p s' in (c :: a, b) else ([], s)
  | [] => ([], [])
  end.
Definition value_of (ds : text) : Z := fold_left (fun n c => n * 10 + (code c - 48)) ds 0.
(** A sign and the rest. *)
Definition sign (s : text) : Z * text :=
  match s with
  | c :: s' => if Ascii.eqb c "-" then (-1, s') else if Ascii.eqb c "+" then (1, s') else (1, s)
  | [] => (1, [])
  end.
(** strtoimax of the whole text, None if there is something else or the result is not an
    int64 (errno). *)
Definition strtoimax (s : text) : option Z :=
  let '(g, s) := sign s in
  match span is_digit s with
  | ((_ :: _) as ds, []) =>
      let z := g * value_of ds in
      if (- 2 ^ 63 <=? z) && (z <? 2 ^ 63) then Some z else None
  | _ => None
  end.
(** The decimal number that is the whole text: sign, mantissa and exponent of ten. *)
Definition decimal_text (s : text) : option (Z * Z) :=
  let '(g, s) := sign s in
  let '(i, s) := span is_digit s in
  let '(f, s) :=
    match s with
    | c :: s' => if Ascii.eqb c "." then span is_digit s' else ([], s)
    | [] => ([], [])
    end in
  match i ++ f with
  | [] => None
  | m =>
      let n := g * value_of m in
      match s with
      | [] => Some (n, - Z.of_nat (List.length f))
      | c :: s =>
          if Ascii.eqb c "e" || Ascii.eqb c "E" then
            let '(h, s) := sign s in
            match span is_digit s with
            | ((_ :: _) as ds, []) => Some (n, h * value_of ds - Z.of_nat (List.length f))
            | _ => None
            end
          else None
      end
  end.
(** strtod of the whole text, and value(double) 240-253, which throws for an infinity. *)
Definition strtod (s : text) : option (res Q) :=
  match decimal_text s with
  | None => None
  | Some (n, e) =>
      let x := round (inject_Z n * ten e) in
      Some (if Qle_bool (2 ^ 1024) (Qabs x) then Err OverflowError else Ok x)
  end.
(** The number branch of _parse, 927-954. *)
Definition parse_number (out : value) (s : text) : res (value * option text) :=
  let '(n, s) := span in_number s in
  match strtoimax n with
  | Some z => Ok (JInt z, Some s)
  | None =>
      match strtod n with
      | Some r => let* x := r in Ok (JNum x, Some s)
      | None => Ok (out, None)
      end
  end.

(** _parse 905-959 with default_parse_context 1000-1057, _parse_array 845-861 and
    _parse_object 863-881: the value, which is [out] before, and the rest or None after
    an error.  [fuel] bounds the recursion. *)
Fixpoint parse_at (fuel : nat) (out : value) (s : text) : res (value * option text) :=
  match fuel with
  | O => Ok (out, None)
  | S n =>
      match skip_ws s with
      | [] => Ok (out, None)
      | c :: s' =>
          if Ascii.eqb c "n" then
            match match_text (lit "ull") s' with Some r => Ok (JNull, Some r) | None => Ok (out, None) end
          else if Ascii.eqb c "f" then
            match match_text (lit "alse") s' with Some r => Ok (JBool false, Some r) | None => Ok (out, None) end
          else if Ascii.eqb c "t" then
            match match_text (lit "rue") s' with Some r => Ok (JBool true, Some r) | None => Ok (out, None) end
          else if Ascii.eqb c """" then let '(t, r) := parse_string [] s' in Ok (JStr t, r)
          else if Ascii.eqb c "[" then
            match expect "]" s' with Some r => Ok (JArr [], Some r) | None => items n [] s' end
          else if Ascii.eqb c "{" then
            match expect "}" s' with Some r => Ok (JObj [], Some r) | None => members n [] s' end
          else if is_digit c || Ascii.eqb c "-" then parse_number out (c :: s')
          else Ok (out, None)
      end
  end
with items (fuel : nat) (a : list value) (s : text) : res (value * option text) :=
  match fuel with
  | O => Ok (JArr a, None)
  | S n =>
      let* (v, r) := parse_at n JNull s in
      let a := a ++ [v] in
      match r with
      | None => Ok (JArr a, None)
      | Some s =>
          match expect "," s with
          | Some s => items n a s
          | None => Ok (JArr a, expect "]" s)
          end
      end
  end
with members (fuel : nat) (o : list (text * value)) (s : text) : res (value * option text) :=
  match fuel with
  | O => Ok (JObj o, None)
  | S n =>
      match expect """" s with
      | None => Ok (JObj o, None)
      | Some s =>
          let '(k, r) := parse_string [] s in
          match match r with Some s => expect ":" s | None => None end with
          | None => Ok (JObj o, None)
          | Some s =>
              let* (v, r) := parse_at n (match oget k o with Some v => v | None => JNull end) s in
              let o := oset k v o in
              match r with
              | None => Ok (JObj o, None)
              | Some s =>
                  match expect "," s with
                  | Some s => members n o s
                  | None => Ok (JObj o, expect "}" s)
                  end
              end
          end
      end
  end.
(** parse 1109-1135 into a null value. *)
Definition parse (s : text) : res (value * option text) := parse_at (2 * List.length s + 2) JNull s.

(** ** The image description of a TIFF file *)

(** get<double> and get<int64_t>, 369-396: PICOJSON_ASSERT throws runtime_error. *)
Definition get_double (v : value) : res Q :=
  match v with JNum q => Ok q | JInt z => Ok (round (inject_Z z)) | _ => Err RuntimeError end.
Definition get_int64 (v : value) : res Z := match v with JInt z => Ok z | _ => Err RuntimeError end.

Section Metadata.
  (** The conversion of a double to float. *)
  Variable f32 : Q -> Q.
  (** writeMetadata, RgbdTiff.cpp 113-124: the text of the tag. *)
  Definition writeMetadata (near : Q) : text :=
    serialize false (JObj [(lit "near", JNum near); (lit "version", JInt 1)]).
  (** readMetadata, RgbdTiff.cpp 71-111: version and near plane.  strlen: the text ends
      before the first '\0'. *)
  Fixpoint c_str (s : text) : text :=
    match s with
    | c :: s => if code c =? 0 then [] else c :: c_str s
    | [] => []
    end.
  Definition readMetadata (description : option text) : res (Z * Q) :=
    match description with
    | None => Ok (0, 1%Q)
    | Some s =>
        let* (v, _) := parse (c_str s) in
        match v with
        | JObj o =>
            let* version := match oget (lit "version") o with None => Ok 0 | Some v => get_int64 v end in
            let* near := match oget (lit "near") o with None => Ok 1%Q | Some v => let* x := get_double v in Ok (f32 x) end in
            Ok (version, near)
        | _ => Err RuntimeError
        end
    end.
End Metadata.

