(** The text of a JSON document (RFC 8259) with its meaning, and the decimal numbers with
    15 digits, independently of lexer, parser and serializer.  Strings of digits, white
    space and escapes are those of Json/Spec; only the type of values is shared with the
    model. *)
From Coq Require Import List Bool ZArith QArith Qabs Ascii String Sorting.Sorted.
From Verif.Round Require Import Spec.
From Verif.Json Require Import Spec.
From Verif.Json Require Import Model.
From Verif.Doc Require Import Model.
From Verif.Doc Require Import Spec.
Import ListNotations.
Local Open Scope Z_scope.

(** * Characters *)
Definition scalar (u : Z) : Prop := 0 <= u < 1114112 /\ ~ 55296 <= u <= 57343.
Definition valid_utf8 (s : text) : Prop := exists us, Forall scalar us /\ s = flat_map utf8 us.
(** What stands between the quotation marks, and the bytes it means. *)
Inductive chars : text -> text -> Prop :=
| c_nil : chars [] []
| c_raw u s t : scalar u -> 32 <= u -> u <> 34 -> u <> 92 -> chars s t -> chars (utf8 u ++ s) (utf8 u ++ t)
| c_esc e b s t : In (e, b) escapes -> chars s t -> chars ("\"%char :: e :: s) (ascii_of_nat b :: t)
| c_uni h u s t : hex4 h u -> ~ 55296 <= u <= 57343 -> chars s t -> chars (lit "\u" ++ h ++ s) (utf8 u ++ t)
| c_pair h u g w s t : hex4 h u -> hex4 g w -> 55296 <= u <= 56319 -> 56320 <= w <= 57343 -> chars s t ->
    chars (lit "\u" ++ h ++ lit "\u" ++ g ++ s) (utf8 (65536 + 1024 * (u - 55296) + (w - 56320)) ++ t).

(** * Numbers *)
Definition int65 (z : Z) : Prop := - 2 ^ 63 <= z < 2 ^ 64.
Inductive number : text -> Doc.Model.json -> Prop :=
| n_int s z : integer s z -> int65 z -> number s (JInt z)
| n_num s q y : decimal_number s q -> (forall z, integer s z -> ~ int65 z) ->
    rounds_to q y -> (Qabs y < 2 ^ 1024)%Q -> Qred y = y -> number s (JNum y).

(** * Objects *)
Fixpoint lookup (k : string) (l : list (string * Doc.Model.json)) : option Doc.Model.json :=
  match l with
  | [] => None
  | (k', v) :: l => if string_dec k k' then Some v else lookup k l
  end.
(** The object of the members l: in the order of the keys; the first of equal keys counts. *)
Definition object_of (l o : list (string * Doc.Model.json)) : Prop :=
  ordered o /\ forall k, lookup k o = lookup k l.

(** * Values *)
Inductive value_text : text -> Doc.Model.json -> Prop :=
| j_null : value_text (lit "null") JNull
| j_true : value_text (lit "true") (JBool true)
| j_false : value_text (lit "false") (JBool false)
| j_number s v : number s v -> value_text s v
| j_str s t : chars s t -> value_text (lit """" ++ s ++ lit """") (JStr (string_of_list_ascii t))
| j_arr0 w : white w -> value_text (lit "[" ++ w ++ lit "]") (JArr [])
| j_arr s l : elements_text s l -> value_text (lit "[" ++ s ++ lit "]") (JArr l)
| j_obj0 w : white w -> value_text (lit "{" ++ w ++ lit "}") (JObj [])
| j_obj s l o : members_text s l -> object_of l o -> value_text (lit "{" ++ s ++ lit "}") (JObj o)
with elements_text : text -> list Doc.Model.json -> Prop :=
| e_one w s v w' : white w -> value_text s v -> white w' -> elements_text (w ++ s ++ w') [v]
| e_more w s v w' r l : white w -> value_text s v -> white w' -> elements_text r l ->
    elements_text (w ++ s ++ w' ++ lit "," ++ r) (v :: l)
with members_text : text -> list (string * Doc.Model.json) -> Prop :=
| p_one w ks k w1 w2 s v w' : white w -> chars ks k -> white w1 -> white w2 -> value_text s v -> white w' ->
    members_text (w ++ lit """" ++ ks ++ lit """" ++ w1 ++ lit ":" ++ w2 ++ s ++ w') [(string_of_list_ascii k, v)]
| p_more w ks k w1 w2 s v w' r l : white w -> chars ks k -> white w1 -> white w2 -> value_text s v -> white w' ->
    members_text r l ->
    members_text (w ++ lit """" ++ ks ++ lit """" ++ w1 ++ lit ":" ++ w2 ++ s ++ w' ++ lit "," ++ r)
      ((string_of_list_ascii k, v) :: l).
(** The whole text: a byte order mark may come first, and after a null character anything. *)
Definition mark : text := map ascii_of_nat [239; 187; 191]%nat.
Inductive document : text -> Doc.Model.json -> Prop :=
  document_intro bom w t j w' tail : In bom [[]; mark] -> white w -> value_text t j -> white w' ->
    (tail = [] \/ exists r, tail = ascii_of_nat 0 :: r) ->
    document (bom ++ w ++ t ++ w' ++ tail) j.

(** * Doubles as decimal numbers with 15 digits *)
Definition digits15 (d : Q) : Prop :=
  exists n e : Z, Z.abs n < 10 ^ 15 /\ (d == inject_Z n * 10 ^ e)%Q.
(** The nearest to q; of two nearest ones the one that is an even multiple of their
    distance. *)
Definition rounds15 (q d : Q) : Prop :=
  digits15 d /\
  (forall z, digits15 z -> Qabs (q - d) <= Qabs (q - z))%Q /\
  (forall z, digits15 z -> ~ z == d -> Qabs (q - z) == Qabs (q - d) ->
     exists m : Z, d == inject_Z (2 * m) * Qabs (z - d))%Q.
(** What becomes of the double q when it is written with 15 digits and read. *)
Definition through15 (q y : Q) : Prop := exists d, rounds15 q d /\ rounds_to d y /\ Qred y = y.

(** * Values that nlohmann::json can hold, which of them can be read again, and as what *)
Fixpoint held (j : Doc.Model.json) : Prop :=
  match j with
  | JInt z => int65 z
  | JNum q => double q /\ (Qabs q < 2 ^ 1024)%Q
  | JArr l => fold_right (fun x P => held x /\ P) True l
  | JObj o => ordered o /\ fold_right (fun m P => held (snd m) /\ P) True o
  | _ => True
  end.
Fixpoint readable (j : Doc.Model.json) : Prop :=
  match j with
  | JNum q => exists y, through15 q y /\ (Qabs y < 2 ^ 1024)%Q
  | JStr s => valid_utf8 (list_ascii_of_string s)
  | JArr l => fold_right (fun x P => readable x /\ P) True l
  | JObj o => fold_right (fun m P => valid_utf8 (list_ascii_of_string (fst m)) /\ readable (snd m) /\ P) True o
  | _ => True
  end.
Inductive reread : Doc.Model.json -> Doc.Model.json -> Prop :=
| r_null : reread JNull JNull
| r_bool b : reread (JBool b) (JBool b)
| r_int z : reread (JInt z) (JInt z)
| r_num q y : through15 q y -> reread (JNum q) (JNum y)
| r_str s : reread (JStr s) (JStr s)
| r_arr l l' : Forall2 reread l l' -> reread (JArr l) (JArr l')
| r_obj o o' : Forall2 (fun m m' => fst m = fst m' /\ reread (snd m) (snd m')) o o' -> reread (JObj o) (JObj o').

(** * Floats *)
Definition single (x : Q) : Prop :=
  exists m e : Z, Z.abs m < 2 ^ 24 /\ -149 <= e /\ (x == inject_Z m * 2 ^ e)%Q.
(** A conversion to float: to a nearest one. *)
Definition to_single (f32 : Q -> Q) : Prop :=
  forall x, single (f32 x) /\ Qred (f32 x) = f32 x /\ forall z, single z -> (Qabs (x - f32 x) <= Qabs (x - z))%Q.

(** * The numbers and strings of a model *)
Section Parts.
  Variable num : Q -> Prop.
  Variable str : string -> Prop.
  Fixpoint of_value (v : value) : Prop :=
    match v with
    | VNumber q => num q
    | VString s => str s
    | VArray l => fold_right (fun x P => of_value x /\ P) True l
    | VObject l => fold_right (fun kx P => str (fst kx) /\ of_value (snd kx) /\ P) True l
    | _ => True
    end.
  Definition of_map (m : extension_map) : Prop := Forall (fun kv => str (fst kv) /\ of_value (snd kv)) m.
  Definition of_parameter (p : parameter) : Prop :=
    str (string_value p) /\ Forall num (number_array p) /\ Forall (fun kq => str (fst kq) /\ num (snd kq)) (json_double_value p) /\
    forall q, number_value p = Some q -> num q.
  Definition of_parameters (m : list (string * parameter)) : Prop := Forall (fun kp => str (fst kp) /\ of_parameter (snd kp)) m.
  Definition of_ints (m : list (string * Z)) : Prop := Forall (fun kz => str (fst kz)) m.
  Definition of_primitive (p : primitive) : Prop :=
    of_ints (pr_attributes p) /\ Forall of_ints (pr_targets p) /\ of_value (pr_extras p).
  Definition of_orthographic (c : orthographic) : Prop :=
    Forall num [or_x c; or_y c; or_far c; or_near c] /\ of_value (or_extras c).
  Definition of_perspective (c : perspective) : Prop :=
    Forall num [pe_aspect c; pe_yfov c; pe_far c; pe_near c] /\ of_value (pe_extras c).
  Record of_model (m : model) : Prop := {
    of_accessors : Forall (fun a => Forall num (ac_min a ++ ac_max a) /\ of_value (ac_extras a)) (accessors m);
    of_animations : Forall (fun a => str (an_name a) /\ of_value (an_extras a) /\
      Forall (fun c => str (ch_path c) /\ of_value (ch_extras c)) (an_channels a) /\
      Forall (fun s => str (as_interpolation s) /\ of_value (as_extras s)) (an_samplers a)) (animations m);
    of_buffers : Forall (fun b => str (bu_name b) /\ of_value (bu_extras b)) (buffers m);
    of_views : Forall (fun v => str (vi_name v) /\ of_value (vi_extras v)) (views m);
    of_materials : Forall (fun t => str (ma_name t) /\ of_parameters (ma_values t) /\ of_parameters (ma_additional t) /\
      of_map (ma_extensions t) /\ of_value (ma_extras t)) (materials m);
    of_meshes : Forall (fun e => str (me_name e) /\ Forall of_primitive (me_primitives e) /\ Forall num (me_weights e) /\
      of_value (me_extras e)) (meshes m);
    of_nodes : Forall (fun n => str (no_name n) /\ Forall num (no_rotation n ++ no_scale n ++ no_translation n ++ no_matrix n) /\
      of_map (no_extensions n) /\ of_value (no_extras n)) (nodes m);
    of_textures : Forall (fun t => of_map (te_extensions t) /\ of_value (te_extras t)) (textures m);
    of_images : Forall (fun i => str (im_name i) /\ str (im_uri i) /\ of_value (im_extras i)) (images m);
    of_skins : Forall (fun s => str (sk_name s)) (skins m);
    of_samplers : Forall (fun s => of_value (sa_extras s)) (samplers m);
    of_cameras : Forall (fun c => str (ca_type c) /\ of_orthographic (ca_orthographic c) /\ of_perspective (ca_perspective c)) (cameras m);
    of_scenes : Forall (fun s => str (sc_name s) /\ of_map (sc_extensions s) /\ of_value (sc_extras s)) (scenes m);
    of_lights : Forall (fun l => str (li_name l) /\ str (li_type l) /\ Forall num (li_color l)) (lights m);
    of_extensions : of_map (extensions m);
    of_names : Forall str (extensions_used m ++ extensions_required m);
    of_asset : str (at_generator (m_asset m)) /\ str (at_version (m_asset m)) /\ of_map (at_extensions (m_asset m)) /\
      of_value (at_extras (m_asset m));
    of_extras : of_value (m_extras m) }.
End Parts.
(** Doubles that 15 digits do not make infinite. *)
Definition finite15 (q : Q) : Prop := double q /\ (Qabs q < 2 ^ 1024)%Q /\ exists y, through15 q y /\ (Qabs y < 2 ^ 1024)%Q.
Definition utf8_string (s : string) : Prop := valid_utf8 (list_ascii_of_string s).
