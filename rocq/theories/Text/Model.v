(** Model of the text of a .gltf file: nlohmann::json 2.1.1,
    /repo/sumo-api/sumo/threedee/tiny_gltf/json.h (serializer 6108-6735, input adapter
    1503-1540, lexer 1657-2870, parser 2905-3250), as WriteGltfFile and LoadFromString
    of tiny_gltf.h use it.
    A char is a byte, a file the list of its bytes.  The values are those of Doc/Model:
    doubles are rationals, infinities and NaN are no values (dump writes null for them),
    the sign of zero is left out; number_integer and number_unsigned are [JInt].  The
    decimal point of the locale is ".".  The nesting is not limited by a stack.  Every
    exception of the parser is caught in LoadFromString and becomes false, so all of
    them are IOError here; messages are left out.  The parser has no callback.  [ten],
    [decimal], [print_int], [exponent], [fraction], [two_digits] (printf), [hex_value],
    [value_of], [decimal_text] (strtoull, strtoll, strtod) are those of Json/Model. *)
From Coq Require Import List Bool ZArith QArith Qabs Ascii String.
From Verif.Base Require Import Py.
From Verif.Round Require Import Model.
From Verif.Json Require Import Model.
From Verif.Uri Require Model.
From Verif.Doc Require Import Model.
Import ListNotations.
Local Open Scope Z_scope.

(** ** Writing *)

(** printf's %.15g of a positive x: the 15 digits and the exponent of the first; the
    style.  digits10 of double is 15, 6683. *)
Definition fifteen (x : Q) : Z * Z :=
  let k := exponent x in
  let n := nearest_even (x * ten (14 - k)) in
  if n =? 10 ^ 15 then (10 ^ 14, k + 1) else (n, k).
Definition print_g (x : Q) : text :=
  let '(n, k) := fifteen x in
  let d := decimal n in
  if (-4 <=? k) && (k <? 15) then
    if 0 <=? k then firstn (Z.to_nat (k + 1)) d ++ fraction (skipn (Z.to_nat (k + 1)) d)
    else lit "0" ++ fraction (repeat "0"%char (Z.to_nat (- k - 1)) ++ d)
  else
    firstn 1 d ++ fraction (skipn 1 d) ++ lit "e" ++ (if k <? 0 then lit "-" else lit "+") ++ two_digits (Z.abs k).
(** dump_float 6674-6735: ".0" if there is neither a point nor an exponent. *)
Definition int_like (s : text) : bool := negb (existsb (fun c => Ascii.eqb c "." || Ascii.eqb c "e") s).
Definition print_double (q : Q) : text :=
  let s := if Qeq_bool q 0 then lit "0" else if negb (Qle_bool 0 q) then lit "-" ++ print_g (- q) else print_g q in
  s ++ (if int_like s then lit ".0" else []).

(** dump_escaped 6489-6618 with ensure_ascii = false, escape_codepoint 6427-6474 for a
    control character. *)
Definition escape (c : ascii) : text :=
  let z := code c in
  if z =? 34 then lit "\"""
  else if z =? 92 then lit "\\"
  else if z =? 8 then lit "\b"
  else if z =? 12 then lit "\f"
  else if z =? 10 then lit "\n"
  else if z =? 13 then lit "\r"
  else if z =? 9 then lit "\t"
  else if z <? 32 then
    lit "\u" ++ [hex_char (Z.land (Z.shiftr z 12) 15); hex_char (Z.land (Z.shiftr z 8) 15);
                 hex_char (Z.land (Z.shiftr z 4) 15); hex_char (Z.land z 15)]
  else [c].
Definition dump_str (s : string) : text := lit """" ++ flat_map escape (list_ascii_of_string s) ++ lit """".

(** The elements and members, with a comma after all but the last. *)
Fixpoint commas (l : list text) : text :=
  match l with
  | [] => []
  | [s] => s
  | s :: l => s ++ lit "," ++ commas l
  end.
(** dump 6128-6310 with pretty_print = false. *)
Fixpoint dump (j : json) : text :=
  match j with
  | JNull => lit "null"
  | JBool b => if b then lit "true" else lit "false"
  | JInt z => print_int z
  | JNum q => print_double q
  | JStr s => dump_str s
  | JArr l => lit "[" ++ commas (map dump l) ++ lit "]"
  | JObj l => lit "{" ++ commas (map (fun m => dump_str (fst m) ++ lit ":" ++ dump (snd m)) l) ++ lit "}"
  end.
(** WriteGltfFile, tiny_gltf.h 4457-4462: std::endl. *)
Definition gltf_text (j : json) : text := dump j ++ [char 10].

(** ** The lexer *)

(** token_type 1662-1683. *)
Inductive token :=
| begin_array | end_array | begin_object | end_object | name_separator | value_separator
| literal_true | literal_false | literal_null
| value_string (t : text) | value_int (z : Z) | value_float (q : Q)
| end_of_input | parse_error.

(** get_codepoint 1767-1797. *)
Definition get_codepoint (a b c d : ascii) : option Z :=
  match hex_value a, hex_value b, hex_value c, hex_value d with
  | Some w, Some x, Some y, Some z => Some (Z.shiftl w 12 + Z.shiftl x 8 + Z.shiftl y 4 + z)
  | _, _, _, _ => None
  end.
(** The bytes of a code point, 1976-2001. *)
Definition codepoint_bytes (u : Z) : text :=
  map char
    (if u <? 128 then [u]
     else if u <=? 2047 then [Z.lor 192 (Z.shiftr u 6); Z.lor 128 (Z.land u 63)]
     else if u <=? 65535 then
       [Z.lor 224 (Z.shiftr u 12); Z.lor 128 (Z.land (Z.shiftr u 6) 63); Z.lor 128 (Z.land u 63)]
     else
       [Z.lor 240 (Z.shiftr u 18); Z.lor 128 (Z.land (Z.shiftr u 12) 63);
        Z.lor 128 (Z.land (Z.shiftr u 6) 63); Z.lor 128 (Z.land u 63)]).
(** Escapes of one character, 1874-1905. *)
Definition unescape (c : ascii) : option ascii :=
  if Ascii.eqb c """" then Some """"%char
  else if Ascii.eqb c "\" then Some "\"%char
  else if Ascii.eqb c "/" then Some "/"%char
  else if Ascii.eqb c "b" then Some (char 8)
  else if Ascii.eqb c "f" then Some (char 12)
  else if Ascii.eqb c "n" then Some (char 10)
  else if Ascii.eqb c "r" then Some (char 13)
  else if Ascii.eqb c "t" then Some (char 9)
  else None.
(** What must follow a first byte that is no control character, 2052-2273. *)
Definition within (r : Z * Z) (c : ascii) : bool := (fst r <=? code c) && (code c <=? snd r).
Definition following (c : ascii) : option (list (Z * Z)) :=
  let z := code c in
  let any := (128, 191) in
  if z <? 128 then Some []
  else if (194 <=? z) && (z <=? 223) then Some [any]
  else if z =? 224 then Some [(160, 191); any]
  else if ((225 <=? z) && (z <=? 236)) || (z =? 238) || (z =? 239) then Some [any; any]
  else if z =? 237 then Some [(128, 159); any]
  else if z =? 240 then Some [(144, 191); any; any]
  else if (241 <=? z) && (z <=? 243) then Some [any; any; any]
  else if z =? 244 then Some [(128, 143); any; any]
  else None.
(** scan_string 1845-2276 with next_byte_in_range 1808-1829: the string and the rest. *)
Fixpoint scan_string (out s : text) : option (text * text) :=
  match s with
  | [] => None
  | c :: s =>
      if Ascii.eqb c """" then Some (out, s)
      else if Ascii.eqb c "\" then
        match s with
        | [] => None
        | e :: s =>
            match unescape e with
            | Some b => scan_string (out ++ [b]) s
            | None =>
                if Ascii.eqb e "u" then
                  match s with
                  | h1 :: h2 :: h3 :: h4 :: s =>
                      match get_codepoint h1 h2 h3 h4 with
                      | None => None
                      | Some u =>
                          if (55296 <=? u) && (u <=? 56319) then
                            match s with
                            | b :: v :: g1 :: g2 :: g3 :: g4 :: s =>
                                if Ascii.eqb b "\" && Ascii.eqb v "u" then
                                  match get_codepoint g1 g2 g3 g4 with
                                  | Some u2 =>
                                      if (56320 <=? u2) && (u2 <=? 57343) then
                                        scan_string (out ++ codepoint_bytes (Z.shiftl u 10 + u2 - 56613888)) s
                                      else None
                                  | None => None
                                  end
                                else None
                            | _ => None
                            end
                          else if (56320 <=? u) && (u <=? 57343) then None
                          else scan_string (out ++ codepoint_bytes u) s
                      end
                  | _ => None
                  end
                else None
            end
        end
      else if code c <? 32 then None
      else
        match following c with
        | Some [] => scan_string (out ++ [c]) s
        | Some [r1] =>
            match s with
            | b1 :: s => if within r1 b1 then scan_string (out ++ [c; b1]) s else None
            | _ => None
            end
        | Some [r1; r2] =>
            match s with
            | b1 :: b2 :: s => if within r1 b1 && within r2 b2 then scan_string (out ++ [c; b1; b2]) s else None
            | _ => None
            end
        | Some [r1; r2; r3] =>
            match s with
            | b1 :: b2 :: b3 :: s =>
                if within r1 b1 && within r2 b2 && within r3 b3 then scan_string (out ++ [c; b1; b2; b3]) s else None
            | _ => None
            end
        | _ => None
        end
  end.

(** scan_number 2333-2655: the labels, the characters that lead from one to another, the
    labels where the number may end (scan_number_done), the type of the number. *)
Inductive label := minus | zero | any1 | decimal1 | decimal2 | exponent_mark | sign_mark | any2.
Definition nonzero (c : ascii) : bool := is_digit c && negb (Ascii.eqb c "0").
Definition is_mark (c : ascii) : bool := Ascii.eqb c "e" || Ascii.eqb c "E".
Definition step (l : label) (c : ascii) : option label :=
  match l with
  | minus => if Ascii.eqb c "0" then Some zero else if nonzero c then Some any1 else None
  | zero => if Ascii.eqb c "." then Some decimal1 else if is_mark c then Some exponent_mark else None
  | any1 =>
      if is_digit c then Some any1 else if Ascii.eqb c "." then Some decimal1
      else if is_mark c then Some exponent_mark else None
  | decimal1 => if is_digit c then Some decimal2 else None
  | decimal2 => if is_digit c then Some decimal2 else if is_mark c then Some exponent_mark else None
  | exponent_mark =>
      if Ascii.eqb c "+" || Ascii.eqb c "-" then Some sign_mark else if is_digit c then Some any2 else None
  | sign_mark => if is_digit c then Some any2 else None
  | any2 => if is_digit c then Some any2 else None
  end.
Definition may_end (l : label) : bool := match l with zero | any1 | decimal2 | any2 => true | _ => false end.
Inductive number_type := is_unsigned | is_integer | is_float.
Definition type_at (l : label) (t : number_type) : number_type :=
  match l with minus => is_integer | decimal1 | exponent_mark => is_float | _ => t end.
Fixpoint run (l : label) (t : number_type) (s : text) : option (text * number_type * text) :=
  let t := type_at l t in
  let done := if may_end l then Some ([], t, s) else None in
  match s with
  | [] => done
  | c :: s' =>
      match step l c with
      | Some l' => match run l' t s' with Some (a, t', r) => Some (c :: a, t', r) | None => None end
      | None => done
      end
  end.
(** strtod of the number; from 2^1024 on it is infinite. *)
Definition float_of (s : text) : token :=
  match decimal_text s with
  | Some (n, e) => value_float (round (inject_Z n * ten e))
  | None => parse_error
  end.
Definition number_of (s : text) (t : number_type) : token :=
  let '(g, ds) := sign s in
  let z := g * value_of ds in
  match t with
  | is_unsigned => if z <? 2 ^ 64 then value_int z else float_of s
  | is_integer => if - 2 ^ 63 <=? z then value_int z else float_of s
  | is_float => float_of s
  end.
Definition scan_number (c : ascii) (s : text) : token * text :=
  let first := if Ascii.eqb c "-" then minus else if Ascii.eqb c "0" then zero else any1 in
  match run first is_unsigned s with
  | Some (a, t, r) => (number_of (c :: a) t, r)
  | None => (parse_error, [])
  end.

(** scan_literal 2662-2675. *)
Fixpoint match_text (p s : text) : option text :=
  match p, s with
  | [], _ => Some s
  | c :: p, d :: s => if Ascii.eqb d c then match_text p s else None
  | _, [] => None
  end.
Definition scan_literal (p : text) (t : token) (s : text) : token * text :=
  match match_text p s with Some r => (t, r) | None => (parse_error, []) end.

(** scan 2807-2870: the token and the rest (nothing after an error). *)
Fixpoint scan (s : text) : token * text :=
  match s with
  | [] => (end_of_input, [])
  | c :: s =>
      if is_blank c then scan s
      else if Ascii.eqb c "[" then (begin_array, s)
      else if Ascii.eqb c "]" then (end_array, s)
      else if Ascii.eqb c "{" then (begin_object, s)
      else if Ascii.eqb c "}" then (end_object, s)
      else if Ascii.eqb c ":" then (name_separator, s)
      else if Ascii.eqb c "," then (value_separator, s)
      else if Ascii.eqb c "t" then scan_literal (lit "rue") literal_true s
      else if Ascii.eqb c "f" then scan_literal (lit "alse") literal_false s
      else if Ascii.eqb c "n" then scan_literal (lit "ull") literal_null s
      else if Ascii.eqb c """" then
        match scan_string [] s with Some (t, r) => (value_string t, r) | None => (parse_error, []) end
      else if Ascii.eqb c "-" || is_digit c then scan_number c s
      else if code c =? 0 then (end_of_input, s)
      else (parse_error, [])
  end.

(** ** The parser *)

(** object->emplace(key, value) of a std::map 3020: nothing if the key is there. *)
Definition emplace (k : string) (v : json) (o : list (string * json)) : list (string * json) :=
  match get k o with Some _ => o | None => put k v o end.
(** parse_internal 2962-3215: the value that begins with the token [t], and the rest;
    [elements] and [members] are the loops of 3112-3147 and 2998-3043 at the token [t].
    [fuel] bounds the recursion. *)
Fixpoint parse_internal (fuel : nat) (t : token) (s : text) : res (json * text) :=
  match fuel with
  | O => Err IOError
  | S n =>
      match t with
      | begin_object =>
          let '(t, s) := scan s in
          match t with end_object => Ok (JObj [], s) | _ => members n [] t s end
      | begin_array =>
          let '(t, s) := scan s in
          match t with end_array => Ok (JArr [], s) | _ => elements n [] t s end
      | literal_null => Ok (JNull, s)
      | value_string x => Ok (JStr (string_of_list_ascii x), s)
      | literal_true => Ok (JBool true, s)
      | literal_false => Ok (JBool false, s)
      | value_int z => Ok (JInt z, s)
      | value_float q => if Qle_bool (2 ^ 1024) (Qabs q) then Err IOError else Ok (JNum q, s)
      | _ => Err IOError
      end
  end
with members (fuel : nat) (o : list (string * json)) (t : token) (s : text) : res (json * text) :=
  match fuel with
  | O => Err IOError
  | S n =>
      match t with
      | value_string k =>
          let '(t, s) := scan s in
          match t with
          | name_separator =>
              let '(t, s) := scan s in
              let* (v, s) := parse_internal n t s in
              let o := emplace (string_of_list_ascii k) v o in
              let '(t, s) := scan s in
              match t with
              | value_separator => let '(t, s) := scan s in members n o t s
              | end_object => Ok (JObj o, s)
              | _ => Err IOError
              end
          | _ => Err IOError
          end
      | _ => Err IOError
      end
  end
with elements (fuel : nat) (a : list json) (t : token) (s : text) : res (json * text) :=
  match fuel with
  | O => Err IOError
  | S n =>
      let* (v, s) := parse_internal n t s in
      let a := a ++ [v] in
      let '(t, s) := scan s in
      match t with
      | value_separator => let '(t, s) := scan s in elements n a t s
      | end_array => Ok (JArr a, s)
      | _ => Err IOError
      end
  end.
(** The constructor of input_buffer_adapter 1506-1514 skips a byte order mark. *)
Definition skip_mark (s : text) : text :=
  match s with
  | a :: b :: c :: r => if (code a =? 239) && (code b =? 187) && (code c =? 191) then r else s
  | _ => s
  end.
(** parse 2905-2932 with strict = true. *)
Definition parse (s : text) : res json :=
  let '(t, r) := scan (skip_mark s) in
  let* (v, r) := parse_internal (2 * List.length s + 2) t r in
  match fst (scan r) with end_of_input => Ok v | _ => Err IOError end.

(** ** Files *)

(** LoadFromString, tiny_gltf.h 3111-3150, and the rest of it in Doc/Model. *)
Definition LoadText (expand : text -> text) (decode : list Z -> option (Z * Z * Z * list Z)) (f32 : Q -> Q)
    (fs : Uri.Model.files) (filename s : text) : res model :=
  if Z.of_nat (List.length s) <? 4 then Err IOError
  else let* j := parse s in load expand decode f32 fs filename j.
(** LoadASCIIFromFile 3729-3776; [Uri.Model.files] gives the bytes of a file, which is
    shorter than 4 GiB (its size is cast to unsigned int). *)
Definition load_file (expand : text -> text) (decode : list Z -> option (Z * Z * Z * list Z)) (f32 : Q -> Q)
    (fs : Uri.Model.files) (filename : text) : res model :=
  match fs filename with
  | None => Err IOError
  | Some bytes => LoadText expand decode f32 fs filename (map char bytes)
  end.
(** WriteGltfSceneToFile 4464-4696. *)
Definition save_file (fs : Uri.Model.files) (filename : text) (m : model) : res Uri.Model.files :=
  let* (fs, j) := save fs filename m in
  Ok (Uri.Model.write fs filename (map code (gltf_text j))).
