(** JSON (RFC 8259) as a grammar with meanings, independently of the parser and the
    serializer.  Only the type of values, texts and character codes are shared. *)
From Coq Require Import List Bool ZArith QArith Qabs Qround Ascii String Sorting.Sorted.
From Verif.Round Require Import Spec.
From Verif.Json Require Import Model.
Import ListNotations.
Local Open Scope Z_scope.

(** White space, and a text that cannot continue a number. *)
Definition white (s : text) : Prop := Forall (fun c => In (code c) [32; 9; 10; 13]) s.
Definition stop (s : text) : Prop :=
  match s with [] => True | c :: _ => ~ In c (lit "0123456789+-eE.") end.

(** * Strings *)
Definition hexdigit (c : ascii) (v : nat) : Prop :=
  nth_error (lit "0123456789abcdef") v = Some c \/ nth_error (lit "0123456789ABCDEF") v = Some c.
Inductive hex4 : text -> Z -> Prop :=
  hex4_intro a b c d w x y z : hexdigit a w -> hexdigit b x -> hexdigit c y -> hexdigit d z ->
    hex4 [a; b; c; d] (4096 * Z.of_nat w + 256 * Z.of_nat x + 16 * Z.of_nat y + Z.of_nat z).
(** The UTF-8 encoding of a code point. *)
Definition utf8 (u : Z) : text :=
  map (fun z => ascii_of_nat (Z.to_nat z))
    (if u <? 128 then [u]
     else if u <? 2048 then [192 + u / 64; 128 + u mod 64]
     else if u <? 65536 then [224 + u / 4096; 128 + u / 64 mod 64; 128 + u mod 64]
     else [240 + u / 262144; 128 + u / 4096 mod 64; 128 + u / 64 mod 64; 128 + u mod 64]).
Definition escapes : list (ascii * nat) :=
  [("""", 34); ("\", 92); ("/", 47); ("b", 8); ("f", 12); ("n", 10); ("r", 13); ("t", 9)]%char%nat.
(** What stands between the quotation marks, and the bytes it means. *)
Inductive chars : text -> text -> Prop :=
| c_nil : chars [] []
| c_raw c s t : 32 <= code c -> c <> """"%char -> c <> "\"%char -> chars s t -> chars (c :: s) (c :: t)
| c_esc e b s t : In (e, b) escapes -> chars s t -> chars ("\"%char :: e :: s) (ascii_of_nat b :: t)
| c_uni h u s t : hex4 h u -> ~ 55296 <= u <= 57343 -> chars s t -> chars (lit "\u" ++ h ++ s) (utf8 u ++ t)
| c_pair h u g w s t : hex4 h u -> hex4 g w -> 55296 <= u <= 56319 -> 56320 <= w <= 57343 -> chars s t ->
    chars (lit "\u" ++ h ++ lit "\u" ++ g ++ s) (utf8 (65536 + 1024 * (u - 55296) + (w - 56320)) ++ t).

(** * Numbers *)
Definition decdigit (c : ascii) (v : nat) : Prop := nth_error (lit "0123456789") v = Some c.
Inductive numeral : text -> Z -> Prop :=
| n_nil : numeral [] 0
| n_snoc s n c v : numeral s n -> decdigit c v -> numeral (s ++ [c]) (10 * n + Z.of_nat v).
(** The part before the point: no leading zeros. *)
Definition int_part (s : text) : Prop :=
  s <> [] /\ (exists n, numeral s n) /\ (s = lit "0" \/ forall c s', s = c :: s' -> c <> "0"%char).
Inductive frac_part : text -> text -> Prop :=
| f_none : frac_part [] []
| f_some ds n : ds <> [] -> numeral ds n -> frac_part (lit "." ++ ds) ds.
Inductive exp_part : text -> Z -> Prop :=
| x_none : exp_part [] 0
| x_plus mark plus ds n : In mark [lit "e"; lit "E"] -> In plus [[]; lit "+"] -> ds <> [] -> numeral ds n ->
    exp_part (mark ++ plus ++ ds) n
| x_minus mark ds n : In mark [lit "e"; lit "E"] -> ds <> [] -> numeral ds n ->
    exp_part (mark ++ lit "-" ++ ds) (- n).
Definition signed (neg : bool) (n : Z) : Z := if neg then - n else n.
Definition minus (neg : bool) : text := if neg then lit "-" else [].
(** A number without and with point or exponent, and its exact value. *)
Inductive integer : text -> Z -> Prop :=
  integer_intro neg i n : int_part i -> numeral i n -> integer (minus neg ++ i) (signed neg n).
Inductive decimal_number : text -> Q -> Prop :=
  decimal_intro neg i ft f et e n q : int_part i -> frac_part ft f -> exp_part et e -> numeral (i ++ f) n ->
    (q == inject_Z (signed neg n) * 10 ^ (e - Z.of_nat (List.length f)))%Q ->
    decimal_number (minus neg ++ i ++ ft ++ et) q.
Definition int64 (z : Z) : Prop := - 2 ^ 63 <= z < 2 ^ 63.
(** The value: an int64 if the text says so and it fits, otherwise the nearest double. *)
Inductive strict : text -> value -> Prop :=
| s_int s z : integer s z -> int64 z -> strict s (JInt z)
| s_num s q y : decimal_number s q -> (forall z, integer s z -> ~ int64 z) ->
    rounds_to q y -> (Qabs y < 2 ^ 1024)%Q -> Qred y = y -> strict s (JNum y).
(** Numbers in a wider sense: leading zeros are allowed, and the digits on one side of the
    point may be missing, but not before the point without a sign. *)
Inductive loose_frac : text -> text -> Prop :=
| lf_none : loose_frac [] []
| lf_some f n : numeral f n -> loose_frac (lit "." ++ f) f.
Inductive loose : text -> value -> Prop :=
| l_int neg i n : i <> [] -> numeral i n -> int64 (signed neg n) -> loose (minus neg ++ i) (JInt (signed neg n))
| l_num neg i m ft f et e n q y : numeral i m -> (neg = true \/ i <> []) -> i ++ f <> [] ->
    loose_frac ft f -> exp_part et e -> numeral (i ++ f) n ->
    (ft ++ et = [] -> ~ int64 (signed neg n)) ->
    (q == inject_Z (signed neg n) * 10 ^ (e - Z.of_nat (List.length f)))%Q ->
    rounds_to q y -> (Qabs y < 2 ^ 1024)%Q -> Qred y = y ->
    loose (minus neg ++ i ++ ft ++ et) (JNum y).

(** * Objects *)
(** Keys are ordered as sequences of unsigned bytes. *)
Inductive key_lt : text -> text -> Prop :=
| k_end c s : key_lt [] (c :: s)
| k_head c d s t : code c < code d -> key_lt (c :: s) (d :: t)
| k_tail c s t : key_lt s t -> key_lt (c :: s) (c :: t).
Definition before (a b : text * value) : Prop := key_lt (fst a) (fst b).
Fixpoint lookup (k : text) (l : list (text * value)) : option value :=
  match l with
  | [] => None
  | (k', v) :: l => if list_eq_dec ascii_dec k k' then Some v else lookup k l
  end.
(** The object of the members l: in the order of the keys; the last of equal keys counts. *)
Definition object_of (l o : list (text * value)) : Prop :=
  StronglySorted before o /\ forall k, lookup k o = lookup k (rev l).

(** * Values *)
Section Values.
  Variable number : text -> value -> Prop.
  Inductive json : text -> value -> Prop :=
  | j_null : json (lit "null") JNull
  | j_true : json (lit "true") (JBool true)
  | j_false : json (lit "false") (JBool false)
  | j_number s v : number s v -> json s v
  | j_str s t : chars s t -> json (lit """" ++ s ++ lit """") (JStr t)
  | j_arr0 w : white w -> json (lit "[" ++ w ++ lit "]") (JArr [])
  | j_arr s l : elements s l -> json (lit "[" ++ s ++ lit "]") (JArr l)
  | j_obj0 w : white w -> json (lit "{" ++ w ++ lit "}") (JObj [])
  | j_obj s l o : pairs s l -> object_of l o -> json (lit "{" ++ s ++ lit "}") (JObj o)
  with elements : text -> list value -> Prop :=
  | e_one w s v w' : white w -> json s v -> white w' -> elements (w ++ s ++ w') [v]
  | e_more w s v w' r l : white w -> json s v -> white w' -> elements r l ->
      elements (w ++ s ++ w' ++ lit "," ++ r) (v :: l)
  with pairs : text -> list (text * value) -> Prop :=
  | p_one w ks k w1 w2 s v w' : white w -> chars ks k -> white w1 -> white w2 -> json s v -> white w' ->
      pairs (w ++ lit """" ++ ks ++ lit """" ++ w1 ++ lit ":" ++ w2 ++ s ++ w') [(k, v)]
  | p_more w ks k w1 w2 s v w' r l : white w -> chars ks k -> white w1 -> white w2 -> json s v -> white w' ->
      pairs r l ->
      pairs (w ++ lit """" ++ ks ++ lit """" ++ w1 ++ lit ":" ++ w2 ++ s ++ w' ++ lit "," ++ r) ((k, v) :: l).
End Values.
(** What may follow a value. *)
Definition ends (v : value) (rest : text) : Prop :=
  match v with JInt _ | JNum _ => stop rest | _ => True end.

(** * Values that can occur, and how they are read again *)
Fixpoint possible (v : value) : Prop :=
  match v with
  | JInt z => int64 z
  | JNum q => double q /\ (Qabs q < 2 ^ 1024)%Q /\ Qred q = q
  | JArr l => fold_right (fun x P => possible x /\ P) True l
  | JObj o => StronglySorted before o /\ fold_right (fun m P => possible (snd m) /\ P) True o
  | _ => True
  end.
(** A double that is an integer below 10^17 comes back as an int64. *)
Fixpoint reread (v : value) : value :=
  match v with
  | JNum q => if Qeq_bool q (inject_Z (Qfloor q)) && (Z.abs (Qfloor q) <? 10 ^ 17) then JInt (Qfloor q) else JNum q
  | JArr l => JArr (map reread l)
  | JObj o => JObj (map (fun m => (fst m, reread (snd m))) o)
  | v => v
  end.

(** * The image description *)
(** What the members version and near mean; [f32] is the conversion to float. *)
Inductive version_is (o : list (text * value)) : Z -> Prop :=
| v_missing : lookup (lit "version") o = None -> version_is o 0
| v_int z : lookup (lit "version") o = Some (JInt z) -> version_is o z.
Inductive near_is (f32 : Q -> Q) (o : list (text * value)) : Q -> Prop :=
| r_missing : lookup (lit "near") o = None -> near_is f32 o 1
| r_num q : lookup (lit "near") o = Some (JNum q) -> near_is f32 o (f32 q)
| r_int z q : lookup (lit "near") o = Some (JInt z) -> rounds_to (inject_Z z) q -> Qred q = q -> near_is f32 o (f32 q).
Definition printable (s : text) : Prop := Forall (fun c => 32 <= code c) s.
