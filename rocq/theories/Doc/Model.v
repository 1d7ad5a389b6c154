(** Model of the document that tinygltf writes for a model and reads back:
    /repo/sumo-api/sumo/threedee/tiny_gltf/tiny_gltf.h 200-680 (the classes), 1850-3105
    (Parse...), 3111-3713 (LoadFromString), 3899-4696 (Serialize... and
    WriteGltfSceneToFile).
    A json is the value that nlohmann::json holds.  The text between the two is the
    function [through_text]: it keeps everything but doubles, of which it makes what
    [f] says (json.h 6692-6745 writes 15 digits; that is Text/Model).  A std::map is a
    list in the order of its keys.  Doubles are finite, and are rationals in lowest
    terms; strings are valid UTF-8.  A function that returns false is IOError, which is
    what gltf.pyx 46-53 makes of it; a C++ exception, which gltf.pxd 44-46 does not
    announce, is Terminate; reading a member that was never set, and a conversion of a
    number that does not fit, is Undefined.  Messages are not modelled.  Buffers and
    images are loaded as in Uri/Model; [decode] is stbi_load_from_memory.  Images are
    written to files by UpdateImageObject and saveImages, which are not part of this. *)
From Coq Require Import List Bool ZArith QArith Ascii String.
From Verif.Base Require Import Py.
From Verif.Round Require Import Model.
From Verif.Uri Require Import Model.
Import ListNotations.
Local Open Scope Z_scope.

(** ** Maps and JSON *)

(** std::map<std::string, A>: look up a key, and m[key] = v. *)
Fixpoint get {A} (k : string) (m : list (string * A)) : option A :=
  match m with
  | [] => None
  | (x, v) :: m => if String.eqb x k then Some v else get k m
  end.
Fixpoint put {A} (k : string) (v : A) (m : list (string * A)) : list (string * A) :=
  match m with
  | [] => [(k, v)]
  | (x, w) :: m =>
      match String.compare k x with
      | Lt => (k, v) :: (x, w) :: m
      | Eq => (k, v) :: m
      | Gt => (x, w) :: put k v m
      end
  end.

(** nlohmann::json; number_integer and number_unsigned are [JInt]. *)
Inductive json :=
| JNull
| JBool (b : bool)
| JInt (z : Z)
| JNum (q : Q)
| JStr (s : string)
| JArr (l : list json)
| JObj (l : list (string * json)).

(** o[key] = v and o.push_back(v) for a [o] that is null at first. *)
Definition set (k : string) (v : json) (o : json) : json :=
  match o with JObj l => JObj (put k v l) | _ => JObj [(k, v)] end.
Definition push (v : json) (o : json) : json :=
  match o with JArr l => JArr (l ++ [v]) | _ => JArr [v] end.
(** o.find(key), o.end() is [None]. *)
Definition find (k : string) (o : json) : option json :=
  match o with JObj l => get k l | _ => None end.

(** output.dump() and json::parse. *)
Section Text.
  Variable f : Q -> Q.
  Fixpoint through_text (j : json) : json :=
    match j with
    | JNum q => JNum (f q)
    | JArr l => JArr (map through_text l)
    | JObj l => JObj (map (fun kv => (fst kv, through_text (snd kv))) l)
    | _ => j
    end.
End Text.

(** ** Numbers *)

Definition in_int (z : Z) : bool := (-2147483648 <=? z) && (z <? 2147483648).
(** A conversion of an integer to int (gcc: modulo 2^32). *)
Definition wrap32 (z : Z) : Z := (z + 2147483648) mod 4294967296 - 2147483648.
(** A conversion of an integer to double. *)
Definition to_double (z : Z) : Q := Qred (round (inject_Z z)).
(** static_cast<int> and static_cast<size_t> of a double. *)
Definition trunc (q : Q) : Z := Z.quot (Qnum q) (Zpos (Qden q)).
Definition to_int (q : Q) : res Z := let z := trunc q in if in_int z then Ok z else Err Undefined.
Definition to_size (q : Q) : res Z :=
  let z := trunc q in if (0 <=? z) && (z <? 18446744073709551616) then Ok z else Err Undefined.
(** json to int: json.h 1291-1319. *)
Definition get_int (j : json) : res Z :=
  match j with
  | JInt z => Ok (wrap32 z)
  | JNum q => to_int q
  | JBool b => Ok (if b then 1 else 0)
  | _ => Err Terminate
  end.

(** ** The classes *)

(** Value 202-325. *)
Inductive value :=
| VNull
| VNumber (q : Q)
| VInt (z : Z)
| VBool (b : bool)
| VString (s : string)
| VArray (l : list value)
| VBinary (l : list Z)
| VObject (l : list (string * value)).
Definition is_null (v : value) : bool := match v with VNull => true | _ => false end.
Definition extension_map := list (string * value).

(** Parameter 357-397; bool_value and number_value are not set by the constructor. *)
Record parameter := Param {
  bool_value : option bool; has_number_value : bool; string_value : string; number_array : list Q;
  json_double_value : list (string * Q); number_value : option Q }.
Definition new_parameter : parameter := Param None false EmptyString [] [] None.

(** 411-680.  (Sampler.wrapR and the members of Image that hold the decoded image are
    left out of the first and together [im_data] of the second.) *)
Record channel := Channel { ch_sampler : Z; ch_node : Z; ch_path : string; ch_extras : value }.
Record asampler := ASampler { as_input : Z; as_output : Z; as_interpolation : string; as_extras : value }.
Record animation := Animation { an_name : string; an_channels : list channel; an_samplers : list asampler; an_extras : value }.
Record skin := Skin { sk_name : string; sk_matrices : Z; sk_skeleton : Z; sk_joints : list Z }.
Record sampler := Sampler { sa_name : string; sa_min : Z; sa_mag : Z; sa_s : Z; sa_t : Z; sa_extras : value }.
Record image := Image {
  im_name : string; im_view : Z; im_mime : string; im_uri : string;
  im_data : option (Z * Z * Z * list Z); im_extras : value }.
Record texture := Texture { te_sampler : Z; te_source : Z; te_extras : value; te_extensions : extension_map }.
Record material := Material {
  ma_name : string; ma_values : list (string * parameter); ma_additional : list (string * parameter);
  ma_extensions : extension_map; ma_extras : value }.
Record view := View {
  vi_name : string; vi_buffer : Z; vi_offset : Z; vi_length : Z; vi_stride : Z; vi_target : Z; vi_extras : value }.
Record accessor := Accessor {
  ac_view : Z; ac_name : string; ac_offset : Z; ac_normalized : bool; ac_component : Z; ac_count : Z;
  ac_type : Z; ac_extras : value; ac_min : list Q; ac_max : list Q }.
Record perspective := Perspective { pe_aspect : Q; pe_yfov : Q; pe_far : Q; pe_near : Q; pe_extensions : extension_map; pe_extras : value }.
Record orthographic := Orthographic { or_x : Q; or_y : Q; or_far : Q; or_near : Q; or_extensions : extension_map; or_extras : value }.
Record camera := Camera {
  ca_type : string; ca_name : string; ca_perspective : perspective; ca_orthographic : orthographic;
  ca_extensions : extension_map; ca_extras : value }.
Definition new_perspective : perspective := Perspective 0 0 0 0 [] VNull.
Definition new_orthographic : orthographic := Orthographic 0 0 0 0 [] VNull.
Record primitive := Primitive {
  pr_attributes : list (string * Z); pr_material : Z; pr_indices : Z; pr_mode : Z;
  pr_targets : list (list (string * Z)); pr_extras : value }.
Record mesh := Mesh {
  me_name : string; me_primitives : list primitive; me_weights : list Q; me_targets : list (list (string * Z));
  me_extensions : extension_map; me_extras : value }.
Record node := Node {
  no_camera : Z; no_name : string; no_skin : Z; no_mesh : Z; no_children : list Z; no_rotation : list Q;
  no_scale : list Q; no_translation : list Q; no_matrix : list Q; no_weights : list Q;
  no_extensions : extension_map; no_extras : value }.
Record buffer := Buffer { bu_name : string; bu_data : list Z; bu_uri : string; bu_extras : value }.
Record asset := Asset {
  at_version : string; at_generator : string; at_min : string; at_copyright : string;
  at_extensions : extension_map; at_extras : value }.
Record scene := Scene { sc_name : string; sc_nodes : list Z; sc_extensions : extension_map; sc_extras : value }.
Record light := Light { li_name : string; li_color : list Q; li_type : string }.
Record model := Model {
  accessors : list accessor; animations : list animation; buffers : list buffer; views : list view;
  materials : list material; meshes : list mesh; nodes : list node; textures : list texture;
  images : list image; skins : list skin; samplers : list sampler; cameras : list camera;
  scenes : list scene; lights : list light; extensions : extension_map; default_scene : Z;
  extensions_used : list string; extensions_required : list string; m_asset : asset; m_extras : value }.

(** GetComponentSizeInBytes 148-169, GetTypeSizeInBytes 171-190; TYPE_VEC2.. 114-121. *)
Definition component_size (c : Z) : Z :=
  if (c =? 5120) || (c =? 5121) then 1 else if (c =? 5122) || (c =? 5123) then 2
  else if (c =? 5124) || (c =? 5125) || (c =? 5126) then 4 else if c =? 5130 then 8 else -1.
Definition SCALAR := 65. Definition VEC2 := 2. Definition VEC3 := 3. Definition VEC4 := 4.
Definition MAT2 := 34. Definition MAT3 := 35. Definition MAT4 := 36.
Definition type_size (t : Z) : Z :=
  if t =? SCALAR then 1 else if t =? VEC2 then 2 else if t =? VEC3 then 3 else if t =? VEC4 then 4
  else if t =? MAT2 then 4 else if t =? MAT3 then 9 else if t =? MAT4 then 16 else -1.
(** Accessor::ByteStride 497-528. *)
Definition ByteStride (a : accessor) (v : view) : Z :=
  let c := component_size (ac_component a) in
  if vi_stride v =? 0 then
    if c <=? 0 then -1 else let t := type_size (ac_type a) in if t <=? 0 then -1 else c * t
  else if c <=? 0 then -1 else if negb (vi_stride v mod c =? 0) then -1 else wrap32 (vi_stride v).

(** ** Parsing properties *)

(** ParseJsonAsValue 1850-1897; [l] is in order of the keys, so value_object is filled
    in order. *)
Fixpoint as_value (j : json) : value :=
  match j with
  | JNull => VNull
  | JBool b => VBool b
  | JInt z => VInt (wrap32 z)
  | JNum q => VNumber q
  | JStr s => VString s
  | JArr l =>
      match filter (fun v => negb (is_null v)) (map as_value l) with
      | [] => VNull
      | vs => VArray vs
      end
  | JObj l =>
      match filter (fun kv => negb (is_null (snd kv))) (map (fun kv => (fst kv, as_value (snd kv))) l) with
      | [] => VNull
      | vs => VObject vs
      end
  end.
(** ParseExtrasProperty 1899-1906 for a Value that is null before. *)
Definition p_extras (o : json) : value := match find "extras" o with Some j => as_value j | None => VNull end.
(** ParseBooleanProperty 1908-1943, ParseNumberProperty 1945-1980, ParseStringProperty
    2037-2073: [None] if they return false. *)
Definition p_bool (o : json) (k : string) : option bool := match find k o with Some (JBool b) => Some b | _ => None end.
Definition number_of (j : json) : option Q :=
  match j with JInt z => Some (to_double z) | JNum q => Some q | _ => None end.
Definition p_number (o : json) (k : string) : option Q := match find k o with Some j => number_of j | None => None end.
Definition p_string (o : json) (k : string) : option string := match find k o with Some (JStr s) => Some s | _ => None end.
(** ParseNumberArrayProperty 1982-2035 for a vector that is empty before: the vector,
    and what is returned.  The numbers before the first other value are kept. *)
Fixpoint numbers_of (l : list json) : list Q * bool :=
  match l with
  | [] => ([], true)
  | j :: l =>
      match number_of j with
      | None => ([], false)
      | Some q => let '(qs, b) := numbers_of l in (q :: qs, b)
      end
  end.
Definition p_numbers (o : json) (k : string) : list Q * bool :=
  match find k o with Some (JArr l) => numbers_of l | _ => ([], false) end.
(** With a default for what is missing or has another type. *)
Definition or_default {A} (d : A) (x : option A) : A := match x with Some a => a | None => d end.
Definition required {A} (x : option A) : res A := match x with Some a => Ok a | None => Err IOError end.
(** double x = d; ParseNumberProperty(&x, ..., false); static_cast<int>(x). *)
Definition p_int (o : json) (k : string) (d : Z) : res Z :=
  match p_number o k with Some q => to_int q | None => Ok d end.
Definition p_size (o : json) (k : string) (d : Z) : res Z :=
  match p_number o k with Some q => to_size q | None => Ok d end.
Definition p_int_required (o : json) (k : string) : res Z := let* q := required (p_number o k) in to_int q.
(** ParseStringIntProperty 2075-2127. *)
Fixpoint ints_of (l : list (string * json)) : res (list (string * Z)) :=
  match l with
  | [] => Ok []
  | (k, j) :: l =>
      match number_of j with
      | None => Err IOError
      | Some _ => let* z := get_int j in let* m := ints_of l in Ok ((k, z) :: m)
      end
  end.
Definition p_string_int (o : json) (k : string) : res (list (string * Z)) :=
  match find k o with Some (JObj l) => ints_of l | _ => Err IOError end.
(** ParseJSONProperty 2129-2164. *)
Fixpoint doubles_of (l : list (string * json)) : list (string * Q) :=
  match l with
  | [] => []
  | (k, j) :: l => match number_of j with Some q => (k, q) :: doubles_of l | None => doubles_of l end
  end.
(** ParseParameterProperty 2166-2199, for the value of the property. *)
Definition p_parameter (j : json) : option parameter :=
  match j with
  | JStr s => Some (Param None false s [] [] None)
  | JArr l => let '(qs, b) := numbers_of l in if b then Some (Param None false "" qs [] None) else None
  | JInt _ | JNum _ =>
      match number_of j with Some q => Some (Param None true "" [] [] (Some q)) | None => None end
  | JObj l => Some (Param None false "" [] (doubles_of l) None)
  | JBool b => Some (Param (Some b) false "" [] [] None)
  | JNull => None
  end%string.
(** ParseExtensionsProperty 2201-2223. *)
Definition is_object (j : json) : bool := match j with JObj _ => true | _ => false end.
Definition p_extensions (o : json) : extension_map :=
  match find "extensions" o with
  | Some (JObj l) => map (fun kv => (fst kv, as_value (snd kv))) (filter (fun kv => is_object (snd kv)) l)
  | _ => []
  end.

(** ** Parsing the parts *)

(** ParseAsset 2225-2236. *)
Definition ParseAsset (a : asset) (o : json) : asset :=
  Asset (or_default (at_version a) (p_string o "version")) (or_default (at_generator a) (p_string o "generator"))
    (or_default (at_min a) (p_string o "minVersion")) (at_copyright a)
    (match find "extensions" o with Some (JObj _) => p_extensions o | _ => at_extensions a end)
    (match find "extras" o with Some j => as_value j | None => at_extras a end).

Section Load.
  Variable expand : text -> text.
  Variable fs : files.
  Variable basedir : text.
  (** Width, height, number of components and the bytes of the image. *)
  Variable decode : list Z -> option (Z * Z * Z * list Z).
  (** float(x) of a double. *)
  Variable f32 : Q -> Q.

  (** LoadImageData 1396-1456. *)
  Definition LoadImageData (w h : Z) (bytes : list Z) : res (Z * Z * Z * list Z) :=
    match decode bytes with
    | None => Err IOError
    | Some (w', h', c, d) =>
        if (w' <? 1) || (h' <? 1) || ((0 <? w) && negb (w =? w')) || ((0 <? h) && negb (h =? h')) then Err IOError
        else Ok (w', h', c, d)
    end.

  (** ParseImage 2238-2357 and 3490-3530 of LoadFromString.  The bytes of a buffer view
      are read without a check: outside of the buffer it is Undefined; &data[n] of an
      empty image is not reached. *)
  Definition ParseImage (vs : list view) (bs : list buffer) (o : json) : res image :=
    match find "bufferView" o, find "uri" o with
    | Some _, Some _ | None, None => Err IOError
    | Some _, None =>
        let* v := p_int_required o "bufferView" in
        let* w := p_int o "width" 0 in
        let* h := p_int o "height" 0 in
        let i := Image (or_default ""%string (p_string o "name")) v (or_default ""%string (p_string o "mimeType")) "" None VNull in
        if v =? -1 then Ok i
        else if v <? 0 then Err IOError
        else
          match nth_error vs (Z.to_nat v) with
          | None => Err IOError
          | Some vw =>
              if vi_buffer vw <? 0 then Err Undefined
              else
                match nth_error bs (Z.to_nat (vi_buffer vw)) with
                | None => Err Undefined
                | Some b =>
                    if vi_offset vw + vi_length vw <=? Z.of_nat (List.length (bu_data b)) then
                      let bytes := firstn (Z.to_nat (vi_length vw)) (skipn (Z.to_nat (vi_offset vw)) (bu_data b)) in
                      let* d := LoadImageData w h bytes in
                      Ok (Image (im_name i) v (im_mime i) "" (Some d) VNull)
                    else Err Undefined
                end
          end
    | None, Some _ =>
        let* uri := required (p_string o "uri") in
        let* (mime, kept, data) := Uri.Model.ParseImage expand fs basedir (list_ascii_of_string uri) in
        let i := Image (or_default ""%string (p_string o "name")) (-1) (string_of_list_ascii mime) (string_of_list_ascii kept) in
        match data with
        | None => Ok (i None VNull)
        | Some bytes => let* d := LoadImageData 0 0 bytes in Ok (i (Some d) VNull)
        end
    end.

  (** ParseTexture 2359-2378. *)
  Definition ParseTexture (o : json) : res texture :=
    let* s := p_int o "sampler" (-1) in
    let* i := p_int o "source" (-1) in
    Ok (Texture s i (p_extras o) (p_extensions o)).

  (** ParseBuffer 2380-2482 of a .gltf file (is_binary_ is false). *)
  Definition ParseBuffer (o : json) : res buffer :=
    let* q := required (p_number o "byteLength") in
    let uri := or_default ""%string (p_string o "uri") in
    let* n := to_size q in
    let* data := Uri.Model.ParseBuffer expand false fs basedir n (list_ascii_of_string uri) in
    Ok (Buffer (or_default ""%string (p_string o "name")) data uri VNull).

  (** ParseBufferView 2484-2544. *)
  Definition ParseBufferView (o : json) : res view :=
    let* b := required (p_number o "buffer") in
    let* l := required (p_number o "byteLength") in
    let* stride := p_size o "byteStride" 0 in
    if (252 <? stride) || negb (stride mod 4 =? 0) then Err IOError
    else
      let* t := p_int o "target" 0 in
      let t := if (t =? 34962) || (t =? 34963) then t else 0 in
      let* b := to_int b in
      let* off := p_size o "byteOffset" 0 in
      let* l := to_size l in
      Ok (View (or_default ""%string (p_string o "name")) b off l stride t VNull).

  Definition type_of (s : string) : option Z :=
    if String.eqb s "SCALAR" then Some SCALAR else if String.eqb s "VEC2" then Some VEC2
    else if String.eqb s "VEC3" then Some VEC3 else if String.eqb s "VEC4" then Some VEC4
    else if String.eqb s "MAT2" then Some MAT2 else if String.eqb s "MAT3" then Some MAT3
    else if String.eqb s "MAT4" then Some MAT4 else None.
  (** ParseAccessor 2546-2631. *)
  Definition ParseAccessor (o : json) : res accessor :=
    let* v := required (p_number o "bufferView") in
    let normalized := or_default false (p_bool o "normalized") in
    let* c := required (p_number o "componentType") in
    let* n := required (p_number o "count") in
    let* s := required (p_string o "type") in
    let* t := required (type_of s) in
    let* n := to_size n in
    let* v := to_int v in
    let* off := p_size o "byteOffset" 0 in
    let* c := to_int c in
    if (5120 <=? c) && (c <=? 5130) then
      Ok (Accessor v (or_default ""%string (p_string o "name")) off normalized c n t (p_extras o)
            (fst (p_numbers o "min")) (fst (p_numbers o "max")))
    else Err IOError.

  (** Morph targets, 2656-2671: the members of an object (none for null, one for each
      element of an array, which has no key). *)
  Fixpoint target_of (l : list (string * json)) : res (list (string * Z)) :=
    match l with
    | [] => Ok []
    | (k, j) :: l => let* z := get_int j in let* m := target_of l in Ok ((k, z) :: m)
    end.
  Definition p_target (j : json) : res (list (string * Z)) :=
    match j with
    | JObj l => target_of l
    | JNull | JArr [] => Ok []
    | _ => Err Terminate
    end.
  Definition p_targets (o : json) : res (list (list (string * Z))) :=
    match find "targets" o with Some (JArr l) => mapM p_target l | _ => Ok [] end.

  (** ParsePrimitive 2633-2675. *)
  Definition ParsePrimitive (o : json) : res primitive :=
    let* m := p_int o "material" (-1) in
    let* mode := p_int o "mode" 4 in
    let* i := p_int o "indices" (-1) in
    let* a := p_string_int o "attributes" in
    let* t := p_targets o in
    Ok (Primitive a m i mode t (p_extras o)).
  (** A loop that leaves out what could not be parsed. *)
  Fixpoint parsed {A} (p : json -> res A) (l : list json) : res (list A) :=
    match l with
    | [] => Ok []
    | j :: l =>
        match p j with
        | Ok a => let* as_ := parsed p l in Ok (a :: as_)
        | Err IOError => parsed p l
        | Err e => Err e
        end
    end.
  (** ParseMesh 2677-2720. *)
  Definition ParseMesh (o : json) : res mesh :=
    let* ps := (match find "primitives" o with Some (JArr l) => parsed ParsePrimitive l | _ => Ok [] end) in
    let* t := p_targets o in
    Ok (Mesh (or_default ""%string (p_string o "name")) ps (fst (p_numbers o "weights")) t (p_extensions o) (p_extras o)).

  (** ParseLight 2722-2727. *)
  Definition ParseLight (o : json) : light :=
    Light (or_default ""%string (p_string o "name")) (fst (p_numbers o "color")) (or_default ""%string (p_string o "type")).

  (** ParseNode 2729-2772. *)
  Definition p_child (j : json) : res Z := match number_of j with None => Err IOError | Some _ => get_int j end.
  Definition ParseNode (o : json) : res node :=
    let* s := p_int o "skin" (-1) in
    let '(m, has_matrix) := p_numbers o "matrix" in
    let trs k := if has_matrix then [] else fst (p_numbers o k) in
    let* c := p_int o "camera" (-1) in
    let* me := p_int o "mesh" (-1) in
    let* ch := (match find "children" o with Some (JArr l) => mapM p_child l | _ => Ok [] end) in
    Ok (Node c (or_default ""%string (p_string o "name")) s me ch (trs "rotation"%string) (trs "scale"%string)
          (trs "translation"%string) m [] (p_extensions o) (p_extras o)).

  (** ParseMaterial 2774-2813 and 3455-3460. *)
  Fixpoint parameters (l : list (string * json)) : list (string * parameter) :=
    match l with
    | [] => []
    | (k, j) :: l => match p_parameter j with Some p => (k, p) :: parameters l | None => parameters l end
    end.
  Definition own_key (k : string) : bool :=
    String.eqb k "pbrMetallicRoughness" || String.eqb k "extensions" || String.eqb k "extras".
  Definition members (o : json) : list (string * json) := match o with JObj l => l | _ => [] end.
  Definition ParseMaterial (o : json) : material :=
    Material (or_default ""%string (p_string o "name"))
      (match find "pbrMetallicRoughness" o with Some (JObj l) => parameters l | _ => [] end)
      (parameters (filter (fun kv => negb (own_key (fst kv))) (members o)))
      (p_extensions o) (p_extras o).

  (** ParseAnimationChannel 2815-2855, ParseAnimation 2857-2920. *)
  Definition ParseAnimationChannel (o : json) : res channel :=
    let* s := required (p_number o "sampler") in
    let* (n, p) :=
      (match find "target" o with
       | Some (JObj l) =>
           let* n := required (p_number (JObj l) "node") in
           let* p := required (p_string (JObj l) "path") in Ok (n, p)
       | _ => Ok (-1, ""%string)%Q
       end) in
    let* s := to_int s in
    let* n := to_int n in
    Ok (Channel s n p (p_extras o)).
  Definition ParseAnimationSampler (o : json) : res asampler :=
    let* i := required (p_number o "input") in
    let* s := required (p_string o "interpolation") in
    let* u := required (p_number o "output") in
    let* i := to_int i in
    let* u := to_int u in
    Ok (ASampler i u s (p_extras o)).
  Definition ParseAnimation (o : json) : res animation :=
    let* cs := (match find "channels" o with Some (JArr l) => parsed ParseAnimationChannel l | _ => Ok [] end) in
    let* ss := (match find "samplers" o with Some (JArr l) => mapM ParseAnimationSampler l | _ => Ok [] end) in
    Ok (Animation (or_default ""%string (p_string o "name")) cs ss (p_extras o)).

  (** ParseSampler 2922-2943. *)
  Definition ParseSampler (o : json) : res sampler :=
    let* mi := p_int o "minFilter" 9986 in
    let* ma := p_int o "magFilter" 9729 in
    let* s := p_int o "wrapS" 10497 in
    let* t := p_int o "wrapT" 10497 in
    Ok (Sampler (or_default ""%string (p_string o "name")) mi ma s t (p_extras o)).

  (** ParseSkin 2945-2967. *)
  Definition ParseSkin (o : json) : res skin :=
    let '(js, ok) := p_numbers o "joints" in
    if negb ok then Err IOError
    else
      let* sk := p_int o "skeleton" (-1) in
      let* js := mapM to_int js in
      let* m := p_int o "inverseBindMatrices" (-1) in
      Ok (Skin (or_default ""%string (p_string o "name")) m sk js).

  (** ParsePerspectiveCamera 2969-3002, ParseOrthographicCamera 3004-3040, ParseCamera
      3042-3105. *)
  Definition ParsePerspectiveCamera (o : json) : res perspective :=
    let* y := required (p_number o "yfov") in
    let* n := required (p_number o "znear") in
    Ok (Perspective (f32 (or_default 0%Q (p_number o "aspectRatio"))) (f32 y) (f32 (or_default 0%Q (p_number o "zfar"))) (f32 n)
          (p_extensions o) (p_extras o)).
  Definition ParseOrthographicCamera (o : json) : res orthographic :=
    let* x := required (p_number o "xmag") in
    let* y := required (p_number o "ymag") in
    let* z := required (p_number o "zfar") in
    let* n := required (p_number o "znear") in
    Ok (Orthographic (f32 x) (f32 y) (f32 z) (f32 n) (p_extensions o) (p_extras o)).
  Definition ParseCamera (o : json) : res camera :=
    let* t := required (p_string o "type") in
    let* (p, r) :=
      (if String.eqb t "orthographic" then
         match find "orthographic" o with
         | Some (JObj l) => let* r := ParseOrthographicCamera (JObj l) in Ok (new_perspective, r)
         | _ => Err IOError
         end
       else if String.eqb t "perspective" then
         match find "perspective" o with
         | Some (JObj l) => let* p := ParsePerspectiveCamera (JObj l) in Ok (p, new_orthographic)
         | _ => Err IOError
         end
       else Err IOError) in
    Ok (Camera t (or_default ""%string (p_string o "name")) p r (p_extensions o) (p_extras o)).

  (** The loop over "scenes", 3396-3427. *)
  Definition ParseScene (o : json) : res scene :=
    let '(ns, ok) := p_numbers o "nodes" in
    if negb ok then Err IOError
    else
      let* ns := mapM to_int ns in
      Ok (Scene (or_default ""%string (p_string o "name")) ns (p_extensions o) (p_extras o)).

  (** root[i].get<std::string>(). *)
  Definition get_string (j : json) : res string := match j with JStr s => Ok s | _ => Err Terminate end.
  (** One of the sections: a list of objects, or nothing. *)
  Definition section {A} (v : json) (k : string) (p : json -> res A) : res (list A) :=
    match find k v with
    | Some (JArr l) => mapM (fun j => if is_object j then p j else Err IOError) l
    | _ => Ok []
    end.
  Definition strings (v : json) (k : string) : res (list string) :=
    match find k v with Some (JArr l) => mapM get_string l | _ => Ok [] end.
  Definition has_section (v : json) (k : string) : bool := match find k v with Some (JArr _) => true | _ => false end.
  (** KHR_lights_cmn, 3668-3705. *)
  Definition p_lights (v : json) : list light :=
    match find "extensions" v with
    | Some (JObj l) =>
        match get "KHR_lights_cmn" l with
        | Some (JObj o) => match get "lights" o with Some (JArr l) => map ParseLight l | _ => [] end
        | _ => []
        end
    | _ => []
    end.

  (** The model of GltfModel.__init__, gltf_model.pyx 36-40. *)
  Definition new_asset : asset := Asset "2.0" "fbsource/fbcode/sumo/threedee/gltf.pyx" "" "" [] VNull.

  (** LoadFromString 3111-3713 with REQUIRE_ALL, into a new GltfModel; a document of
      fewer than 4 characters has no sections. *)
  Definition LoadFromString (v : json) : res model :=
    if negb (is_object v) then Err IOError
    else if negb (forallb (has_section v) ["scenes"; "nodes"; "accessors"; "buffers"; "bufferViews"]%string) then Err IOError
    else
      let a := match find "asset" v with Some (JObj l) => ParseAsset new_asset (JObj l) | _ => new_asset end in
      let* eu := strings v "extensionsUsed" in
      let* er := strings v "extensionsRequired" in
      let* bs := section v "buffers" ParseBuffer in
      let* vs := section v "bufferViews" ParseBufferView in
      let* ac := section v "accessors" ParseAccessor in
      let* me := section v "meshes" ParseMesh in
      let* no := section v "nodes" ParseNode in
      let* sc := section v "scenes" ParseScene in
      let* ds := (match find "scene" v with
                  | Some j => match number_of j with Some _ => get_int j | None => Ok (-1) end
                  | None => Ok (-1)
                  end) in
      let* ma := section v "materials" (fun o => Ok (ParseMaterial o)) in
      let* im := section v "images" (ParseImage vs bs) in
      let* te := section v "textures" ParseTexture in
      let* an := section v "animations" ParseAnimation in
      let* sk := section v "skins" ParseSkin in
      let* sa := section v "samplers" ParseSampler in
      let* ca := section v "cameras" ParseCamera in
      Ok (Model ac an bs vs ma me no te im sk sa ca sc (p_lights v) (p_extensions v) ds eu er a (p_extras v)).
End Load.

(** ** Writing *)

(** ValueToJson 3944-3989; [None] if it returns false. *)
Fixpoint to_json (v : value) : option json :=
  match v with
  | VNull | VBinary _ => None
  | VNumber q => Some (JNum q)
  | VInt z => Some (JInt z)
  | VBool b => Some (JBool b)
  | VString s => Some (JStr s)
  | VArray l =>
      Some (fold_left (fun o x => match x with Some j => push j o | None => o end) (map to_json l) JNull)
  | VObject l =>
      Some (fold_left (fun o kx => match snd kx with Some j => set (fst kx) j o | None => o end)
              (map (fun kv => (fst kv, to_json (snd kv))) l) JNull)
  end.
(** SerializeValue 3991-3997, and with the check for NULL_TYPE before it. *)
Definition s_value (k : string) (v : value) (o : json) : json :=
  match to_json v with Some j => set k j o | None => o end.
Definition s_extras (v : value) (o : json) : json := if is_null v then o else s_value "extras" v o.
(** SerializeNumberArrayProperty 3907-3921. *)
Definition array_of (l : list json) : json := match l with [] => JNull | _ => JArr l end.
Definition s_numbers (k : string) (l : list json) (o : json) : json := match l with [] => o | _ => set k (array_of l) o end.
Definition doubles (l : list Q) : list json := map JNum l.
Definition ints (l : list Z) : list json := map JInt l.
(** A string property that is written unless it is empty. *)
Definition s_name (k s : string) (o : json) : json := if String.eqb s "" then o else set k (JStr s) o.
(** SerializeExtensionMap 4046-4058. *)
Definition s_extensions (m : extension_map) (o : json) : json :=
  match m with
  | [] => o
  | _ => set "extensions" (fold_left (fun e kv => s_value (fst kv) (snd kv) e) m JNull) o
  end.
(** Parameter::TextureIndex 371-377. *)
Definition TextureIndex (p : parameter) : res Z :=
  match get "index" (json_double_value p) with Some q => to_int q | None => Ok (-1) end.
(** SerializeParameterMap 4016-4044: the value of one parameter. *)
Definition s_parameter (p : parameter) : res json :=
  match number_array p with
  | _ :: _ => Ok (JArr (doubles (number_array p)))
  | [] =>
      match json_double_value p with
      | _ :: _ =>
          foldM (fun o kv => if String.eqb (fst kv) "index" then let* i := TextureIndex p in Ok (set (fst kv) (JInt i) o)
                             else Ok (set (fst kv) (JNum (snd kv)) o)) JNull (json_double_value p)
      | [] =>
          if negb (String.eqb (string_value p) "") then Ok (JStr (string_value p))
          else if has_number_value p then match number_value p with Some q => Ok (JNum q) | None => Err Undefined end
          else match bool_value p with Some b => Ok (JBool b) | None => Err Undefined end
      end
  end.
Definition s_parameters (m : list (string * parameter)) (o : json) : res json :=
  foldM (fun o kp => let* j := s_parameter (snd kp) in Ok (set (fst kp) j o)) o m.

(** SerializeGltfAccessor 4060-4100. *)
Definition type_name (t : Z) : string :=
  if t =? SCALAR then "SCALAR" else if t =? VEC2 then "VEC2" else if t =? VEC3 then "VEC3" else if t =? VEC4 then "VEC4"
  else if t =? MAT2 then "MAT2" else if t =? MAT3 then "MAT3" else if t =? MAT4 then "MAT4" else "".
Definition s_accessor (a : accessor) : json :=
  let o := set "bufferView" (JInt (ac_view a)) JNull in
  let o := if ac_offset a =? 0 then o else set "byteOffset" (JInt (wrap32 (ac_offset a))) o in
  let o := set "componentType" (JInt (ac_component a)) o in
  let o := set "count" (JInt (ac_count a)) o in
  let o := s_numbers "min" (doubles (ac_min a)) o in
  let o := s_numbers "max" (doubles (ac_max a)) o in
  let o := set "type" (JStr (type_name (ac_type a))) o in
  s_extras (ac_extras a) o.

(** SerializeGltfAnimationChannel 4102-4113, ...Sampler 4115-4123, SerializeGltfAnimation
    4125-4149. *)
Definition s_channel (c : channel) : json :=
  let o := set "sampler" (JInt (ch_sampler c)) JNull in
  let t := set "path" (JStr (ch_path c)) (set "node" (JInt (ch_node c)) JNull) in
  s_extras (ch_extras c) (set "target" t o).
Definition s_asampler (s : asampler) : json :=
  let o := set "input" (JInt (as_input s)) JNull in
  let o := set "output" (JInt (as_output s)) o in
  let o := set "interpolation" (JStr (as_interpolation s)) o in
  s_extras (as_extras s) o.
Definition s_animation (a : animation) : json :=
  let o := set "name" (JStr (an_name a)) JNull in
  let o := set "channels" (array_of (map s_channel (an_channels a))) o in
  let o := set "samplers" (array_of (map s_asampler (an_samplers a))) o in
  s_extras (an_extras a) o.

(** SerializeGltfAsset 4151-4165.  The value is null if nothing is written. *)
Definition has_keys (v : value) : bool := match v with VObject (_ :: _) => true | _ => false end.
Definition s_asset (a : asset) : json :=
  let o := s_name "generator" (at_generator a) JNull in
  let o := s_name "version" (at_version a) o in
  let o := if has_keys (at_extras a) then s_value "extras" (at_extras a) o else o in
  s_extensions (at_extensions a) o.

(** SerializeGltfBuffer 4179-4194; [bin] is binBaseFilename. *)
Definition s_buffer (bin : string) (b : buffer) : json :=
  let o := set "byteLength" (JInt (Z.of_nat (List.length (bu_data b)))) JNull in
  let o := set "uri" (JStr bin) o in
  s_extras (bu_extras b) (s_name "name" (bu_name b) o).

(** SerializeGltfBufferView 4196-4220. *)
Definition s_view (v : view) : json :=
  let o := set "buffer" (JInt (vi_buffer v)) JNull in
  let o := set "byteLength" (JInt (vi_length v)) o in
  let o := if 4 <=? vi_stride v then set "byteStride" (JInt (vi_stride v)) o else o in
  let o := if 0 <? vi_offset v then set "byteOffset" (JInt (vi_offset v)) o else o in
  let o := if (vi_target v =? 34962) || (vi_target v =? 34963) then set "target" (JInt (vi_target v)) o else o in
  s_extras (vi_extras v) (s_name "name" (vi_name v) o).

(** SerializeGltfImage 4222-4232. *)
Definition s_image (i : image) : json :=
  s_extras (im_extras i) (s_name "name" (im_name i) (set "uri" (JStr (im_uri i)) JNull)).

(** SerializeGltfMaterial 4234-4254; Value::Size is not 0 for arrays and objects that
    are not empty, and those are not null. *)
Definition has_size (v : value) : bool := match v with VObject (_ :: _) | VArray (_ :: _) => true | _ => false end.
Definition s_material (m : material) : res json :=
  let o := if has_size (ma_extras m) then s_value "extras" (ma_extras m) JNull else JNull in
  let o := s_extensions (ma_extensions m) o in
  let* o := (match ma_values m with
             | [] => Ok o
             | _ => let* p := s_parameters (ma_values m) JNull in Ok (set "pbrMetallicRoughness" p o)
             end) in
  let* o := s_parameters (ma_additional m) o in
  Ok (s_extras (ma_extras m) (s_name "name" (ma_name m) o)).

(** SerializeGltfMesh 4256-4319. *)
Definition s_ints (m : list (string * Z)) : json := fold_left (fun o kz => set (fst kz) (JInt (snd kz)) o) m JNull.
Definition s_primitive (p : primitive) : json :=
  let o := set "attributes" (s_ints (pr_attributes p)) JNull in
  let o := if -1 <? pr_indices p then set "indices" (JInt (pr_indices p)) o else o in
  let o := if -1 <? pr_material p then set "material" (JInt (pr_material p)) o else o in
  let o := set "mode" (JInt (pr_mode p)) o in
  let o := match pr_targets p with [] => o | ts => set "targets" (array_of (map s_ints ts)) o end in
  s_extras (pr_extras p) o.
Definition s_mesh (m : mesh) : json :=
  let o := set "primitives" (array_of (map s_primitive (me_primitives m))) JNull in
  let o := s_numbers "weights" (doubles (me_weights m)) o in
  s_extras (me_extras m) (s_name "name" (me_name m) o).

(** SerializeGltfLight 4321-4325. *)
Definition s_light (l : light) : json :=
  set "type" (JStr (li_type l)) (s_numbers "color" (doubles (li_color l)) (set "name" (JStr (li_name l)) JNull)).

(** SerializeGltfNode 4327-4359. *)
Definition s_index (k : string) (z : Z) (o : json) : json := if z =? -1 then o else set k (JInt z) o.
Definition s_node (n : node) : json :=
  let o := s_numbers "translation" (doubles (no_translation n)) JNull in
  let o := s_numbers "rotation" (doubles (no_rotation n)) o in
  let o := s_numbers "scale" (doubles (no_scale n)) o in
  let o := s_numbers "matrix" (doubles (no_matrix n)) o in
  let o := s_index "mesh" (no_mesh n) o in
  let o := s_index "skin" (no_skin n) o in
  let o := s_index "camera" (no_camera n) o in
  let o := s_extras (no_extras n) o in
  let o := s_extensions (no_extensions n) o in
  let o := set "name" (JStr (no_name n)) o in
  s_numbers "children" (ints (no_children n)) o.

(** SerializeGltfSampler 4361-4370. *)
Definition s_sampler (s : sampler) : json :=
  let o := set "magFilter" (JInt (sa_mag s)) JNull in
  let o := set "minFilter" (JInt (sa_min s)) o in
  let o := set "wrapS" (JInt (sa_s s)) o in
  let o := set "wrapT" (JInt (sa_t s)) o in
  s_extras (sa_extras s) o.

(** SerializeGltfOrthographicCamera 4372-4383, ...Perspective... 4385-4401,
    SerializeGltfCamera 4403-4420. *)
Definition positive (q : Q) : bool := negb (Qle_bool q 0).
Definition s_orthographic (c : orthographic) : json :=
  let o := set "zfar" (JNum (or_far c)) JNull in
  let o := set "znear" (JNum (or_near c)) o in
  let o := set "xmag" (JNum (or_x c)) o in
  let o := set "ymag" (JNum (or_y c)) o in
  s_extras (or_extras c) o.
Definition s_perspective (c : perspective) : json :=
  let o := set "zfar" (JNum (pe_far c)) JNull in
  let o := set "znear" (JNum (pe_near c)) o in
  let o := if positive (pe_aspect c) then set "aspectRatio" (JNum (pe_aspect c)) o else o in
  let o := if positive (pe_yfov c) then set "yfov" (JNum (pe_yfov c)) o else o in
  s_extras (pe_extras c) o.
Definition s_camera (c : camera) : json :=
  let o := set "type" (JStr (ca_type c)) JNull in
  let o := if String.eqb (ca_name c) "" then o else set "name" (JStr (ca_type c)) o in
  if String.eqb (ca_type c) "orthographic" then set "orthographic" (s_orthographic (ca_orthographic c)) o
  else if String.eqb (ca_type c) "perspective" then set "perspective" (s_perspective (ca_perspective c)) o
  else o.

(** SerializeGltfScene 4422-4432, SerializeGltfSkin 4434-4443, SerializeGltfTexture
    4445-4455. *)
Definition s_scene (s : scene) : json :=
  s_extensions (sc_extensions s) (s_extras (sc_extras s) (s_name "name" (sc_name s) (s_numbers "nodes" (ints (sc_nodes s)) JNull))).
Definition s_skin (s : skin) : json :=
  let o := s_index "inverseBindMatrices" (sk_matrices s) JNull in
  let o := s_numbers "joints" (ints (sk_joints s)) o in
  let o := set "skeleton" (JInt (sk_skeleton s)) o in
  s_name "name" (sk_name s) o.
Definition s_texture (t : texture) : json :=
  let o := if -1 <? te_sampler t then set "sampler" (JInt (te_sampler t)) JNull else JNull in
  let o := set "source" (JInt (te_source t)) o in
  s_extensions (te_extensions t) (s_extras (te_extras t) o).

(** A section that is written unless it is empty. *)
Definition s_section {A} (k : string) (s : A -> json) (l : list A) (o : json) : json :=
  match l with [] => o | _ => set k (array_of (map s l)) o end.

(** WriteGltfSceneToFile 4464-4696: the document.  [bin] is binFilename. *)
Definition has_channels (a : animation) : bool := match an_channels a with [] => false | _ => true end.
Definition document (bin : string) (m : model) : res json :=
  let o := set "accessors" (array_of (map s_accessor (accessors m))) JNull in
  let o := match animations m with
           | [] => o
           | l => set "animations" (array_of (map s_animation (filter has_channels l))) o
           end in
  let o := set "asset" (s_asset (m_asset m)) o in
  let o := set "buffers" (array_of (map (s_buffer bin) (buffers m))) o in
  let o := set "bufferViews" (array_of (map s_view (views m))) o in
  let o := s_section "extensionsUsed" JStr (extensions_used m) o in
  let o := s_section "extensionsRequired" JStr (extensions_required m) o in
  let o := s_section "images" s_image (images m) o in
  let* o := (match materials m with
             | [] => Ok o
             | l => let* js := mapM s_material l in Ok (set "materials" (array_of js) o)
             end) in
  let o := s_section "meshes" s_mesh (meshes m) o in
  let o := s_section "nodes" s_node (nodes m) o in
  let o := if -1 <? default_scene m then set "scene" (JInt (default_scene m)) o else o in
  let o := s_section "scenes" s_scene (scenes m) o in
  let o := s_section "skins" s_skin (skins m) o in
  let o := s_section "textures" s_texture (textures m) o in
  let o := s_section "samplers" s_sampler (samplers m) o in
  let o := s_section "cameras" s_camera (cameras m) o in
  let o := s_extensions (extensions m) o in
  let o := match lights m with
           | [] => o
           | ls =>
               let khr := set "lights" (array_of (map s_light ls)) JNull in
               let e := match find "extensions" o with Some e => e | None => JNull end in
               set "extensions" (set "KHR_lights_cmn" khr e) o
           end in
  Ok (s_extras (m_extras m) o).

(** The data of the buffers is written to one file, each over the one before, 4004-4014
    and 4516-4526. *)
Definition write_buffers (fs : files) (filename : text) (bs : list buffer) : files :=
  fold_left (fun fs b => write fs (bin_path filename) (bu_data b)) bs fs.

(** WriteGltfSceneToFile and, with the text between, LoadASCIIFromFile 3729-3776. *)
Definition save (fs : files) (filename : text) (m : model) : res (files * json) :=
  let* j := document (string_of_list_ascii (bin_filename filename)) m in
  Ok (write_buffers fs filename (buffers m), j).
Definition load (expand : text -> text) (decode : list Z -> option (Z * Z * Z * list Z)) (f32 : Q -> Q)
    (fs : files) (filename : text) (j : json) : res model :=
  LoadFromString expand fs (GetBaseDir filename) decode f32 j.
