(** What a document of glTF 2.0 that another program wrote means as a model: the members
    of each object with the kind of their value and their default (sections 5.1 to 5.29
    of the specification, "properties reference"), and which documents are incomplete.
    Nothing is shared with the parser but the types; [base64_encode] and the headers of
    data URIs are those of C95. *)
From Coq Require Import List Bool ZArith QArith Ascii String.
From Verif.Round Require Import Spec.
From Verif.Uri Require Import Model.
From Verif.Uri Require Spec.
From Verif.Doc Require Import Model.
From Verif.Doc Require Import Spec.
From Verif.Text Require Spec.
Import ListNotations.
Local Open Scope Z_scope.
Local Open Scope string_scope.

(** * Members *)
Definition member (o : json) (k : string) (j : json) : Prop := exists l, o = JObj l /\ Text.Spec.lookup k l = Some j.
Definition no_member (o : json) (k : string) : Prop := exists l, o = JObj l /\ Text.Spec.lookup k l = None.
Definition req {A} (o : json) (k : string) (R : json -> A -> Prop) (a : A) : Prop := exists j, member o k j /\ R j a.
Definition opt {A} (o : json) (k : string) (R : json -> A -> Prop) (d a : A) : Prop := (no_member o k /\ a = d) \/ req o k R a.

(** * Kinds of values; a whole number may be written 3, 3.0 or 3e0 *)
Definition whole (j : json) (z : Z) : Prop := j = JInt z \/ exists q, j = JNum q /\ (q == inject_Z z)%Q.
Definition index (j : json) (z : Z) : Prop := whole j z /\ 0 <= z < 2147483648.
Definition count (j : json) (z : Z) : Prop := whole j z /\ size z.
Definition one_of (l : list Z) (j : json) (z : Z) : Prop := whole j z /\ In z l.
Definition number (j : json) (q : Q) : Prop :=
  j = JNum q \/ exists z, j = JInt z /\ rounds_to (inject_Z z) q /\ Qred q = q.
Definition chars (j : json) (s : string) : Prop := j = JStr s.
Definition flag (j : json) (b : bool) : Prop := j = JBool b.
Definition list_of {A} (R : json -> A -> Prop) (j : json) (l : list A) : Prop := exists js, j = JArr js /\ Forall2 R js l.
Definition map_of {A} (R : json -> A -> Prop) (j : json) (m : list (string * A)) : Prop :=
  exists l, j = JObj l /\ Forall2 (fun a b => fst a = fst b /\ R (snd a) (snd b)) l m.

(** * Extras and extensions: whatever has no null and nothing empty in it *)
Inductive keeps : json -> value -> Prop :=
| k_bool b : keeps (JBool b) (VBool b)
| k_int z : int z -> keeps (JInt z) (VInt z)
| k_num q : keeps (JNum q) (VNumber q)
| k_str s : keeps (JStr s) (VString s)
| k_arr js vs : js <> [] -> Forall2 keeps js vs -> keeps (JArr js) (VArray vs)
| k_obj l m : l <> [] -> Forall2 (fun a b => fst a = fst b /\ keeps (snd a) (snd b)) l m -> keeps (JObj l) (VObject m).
Definition empty (j : json) : Prop := j = JNull \/ j = JArr [] \/ j = JObj [].
Definition any (j : json) (v : value) : Prop := keeps j v \/ (empty j /\ v = VNull).
Definition extras (o : json) (v : value) : Prop := opt o "extras" any VNull v.
Definition an_extension (j : json) (v : value) : Prop := (exists l, j = JObj l) /\ any j v.
Definition has_extensions (o : json) (m : extension_map) : Prop := opt o "extensions" (map_of an_extension) [] m.

(** * Parts *)
Definition a_sampler (o : json) (s : sampler) : Prop :=
  opt o "name" chars "" (sa_name s) /\ opt o "minFilter" (one_of [9728; 9729; 9984; 9985; 9986; 9987]) 9986 (sa_min s) /\
  opt o "magFilter" (one_of [9728; 9729]) 9729 (sa_mag s) /\ opt o "wrapS" (one_of [33071; 33648; 10497]) 10497 (sa_s s) /\
  opt o "wrapT" (one_of [33071; 33648; 10497]) 10497 (sa_t s) /\ extras o (sa_extras s).
Definition a_texture (o : json) (t : texture) : Prop :=
  opt o "sampler" index (-1) (te_sampler t) /\ opt o "source" index (-1) (te_source t) /\
  extras o (te_extras t) /\ has_extensions o (te_extensions t).
(** The extras of a view, a buffer and an image are not kept. *)
Definition a_view (o : json) (v : view) : Prop :=
  opt o "name" chars "" (vi_name v) /\ req o "buffer" index (vi_buffer v) /\ opt o "byteOffset" count 0 (vi_offset v) /\
  req o "byteLength" count (vi_length v) /\
  opt o "byteStride" (fun j z => whole j z /\ 4 <= z <= 252 /\ exists k, z = 4 * k) 0 (vi_stride v) /\
  opt o "target" (one_of [34962; 34963]) 0 (vi_target v) /\ vi_extras v = VNull.
Definition types : list (string * Z) :=
  [("SCALAR", SCALAR); ("VEC2", VEC2); ("VEC3", VEC3); ("VEC4", VEC4); ("MAT2", MAT2); ("MAT3", MAT3); ("MAT4", MAT4)].
Definition an_accessor (o : json) (a : accessor) : Prop :=
  opt o "name" chars "" (ac_name a) /\ req o "bufferView" index (ac_view a) /\ opt o "byteOffset" count 0 (ac_offset a) /\
  req o "componentType" (one_of [5120; 5121; 5122; 5123; 5125; 5126]) (ac_component a) /\
  opt o "normalized" flag false (ac_normalized a) /\ req o "count" count (ac_count a) /\
  req o "type" (fun j t => exists s, j = JStr s /\ In (s, t) types) (ac_type a) /\
  opt o "max" (list_of number) [] (ac_max a) /\ opt o "min" (list_of number) [] (ac_min a) /\ extras o (ac_extras a).
Definition a_primitive (o : json) (p : primitive) : Prop :=
  req o "attributes" (map_of index) (pr_attributes p) /\ opt o "indices" index (-1) (pr_indices p) /\
  opt o "material" index (-1) (pr_material p) /\ opt o "mode" (one_of [0; 1; 2; 3; 4; 5; 6]) 4 (pr_mode p) /\
  opt o "targets" (list_of (map_of index)) [] (pr_targets p) /\ extras o (pr_extras p).
Definition a_mesh (o : json) (m : mesh) : Prop :=
  opt o "name" chars "" (me_name m) /\ req o "primitives" (list_of a_primitive) (me_primitives m) /\
  opt o "weights" (list_of number) [] (me_weights m) /\ opt o "targets" (list_of (map_of index)) [] (me_targets m) /\
  has_extensions o (me_extensions m) /\ extras o (me_extras m).
(** A node has a matrix, or position, rotation and scale; "weights" are not kept. *)
Definition a_node (o : json) (n : node) : Prop :=
  opt o "name" chars "" (no_name n) /\ opt o "camera" index (-1) (no_camera n) /\ opt o "skin" index (-1) (no_skin n) /\
  opt o "mesh" index (-1) (no_mesh n) /\ opt o "children" (list_of index) [] (no_children n) /\
  ((req o "matrix" (list_of number) (no_matrix n) /\ no_rotation n = [] /\ no_scale n = [] /\ no_translation n = []) \/
   (no_member o "matrix" /\ no_matrix n = [] /\ opt o "rotation" (list_of number) [] (no_rotation n) /\
    opt o "scale" (list_of number) [] (no_scale n) /\ opt o "translation" (list_of number) [] (no_translation n))) /\
  no_weights n = [] /\ has_extensions o (no_extensions n) /\ extras o (no_extras n).
Definition a_scene (o : json) (s : scene) : Prop :=
  opt o "name" chars "" (sc_name s) /\ req o "nodes" (list_of index) (sc_nodes s) /\
  has_extensions o (sc_extensions s) /\ extras o (sc_extras s).
Definition a_skin (o : json) (s : skin) : Prop :=
  opt o "name" chars "" (sk_name s) /\ req o "joints" (list_of index) (sk_joints s) /\
  opt o "skeleton" index (-1) (sk_skeleton s) /\ opt o "inverseBindMatrices" index (-1) (sk_matrices s).
(** The numbers of cameras are converted to float. *)
Definition a_float (f32 : Q -> Q) (j : json) (x : Q) : Prop := exists q, number j q /\ x = f32 q.
Definition a_perspective (f32 : Q -> Q) (o : json) (p : perspective) : Prop :=
  opt o "aspectRatio" (a_float f32) (f32 0%Q) (pe_aspect p) /\ req o "yfov" (a_float f32) (pe_yfov p) /\
  opt o "zfar" (a_float f32) (f32 0%Q) (pe_far p) /\ req o "znear" (a_float f32) (pe_near p) /\
  has_extensions o (pe_extensions p) /\ extras o (pe_extras p).
Definition an_orthographic (f32 : Q -> Q) (o : json) (p : orthographic) : Prop :=
  req o "xmag" (a_float f32) (or_x p) /\ req o "ymag" (a_float f32) (or_y p) /\
  req o "zfar" (a_float f32) (or_far p) /\ req o "znear" (a_float f32) (or_near p) /\
  has_extensions o (or_extensions p) /\ extras o (or_extras p).
Definition a_camera (f32 : Q -> Q) (o : json) (c : camera) : Prop :=
  opt o "name" chars "" (ca_name c) /\ req o "type" chars (ca_type c) /\
  ((ca_type c = "perspective" /\ req o "perspective" (a_perspective f32) (ca_perspective c) /\ ca_orthographic c = Orthographic 0 0 0 0 [] VNull) \/
   (ca_type c = "orthographic" /\ req o "orthographic" (an_orthographic f32) (ca_orthographic c) /\ ca_perspective c = Perspective 0 0 0 0 [] VNull)) /\
  has_extensions o (ca_extensions c) /\ extras o (ca_extras c).
Definition a_channel (o : json) (c : channel) : Prop :=
  req o "sampler" index (ch_sampler c) /\
  req o "target" (fun t np => req t "node" index (fst np) /\ req t "path" chars (snd np)) (ch_node c, ch_path c) /\
  extras o (ch_extras c).
Definition an_asampler (o : json) (s : asampler) : Prop :=
  req o "input" index (as_input s) /\ req o "interpolation" chars (as_interpolation s) /\ req o "output" index (as_output s) /\
  extras o (as_extras s).
Definition an_animation (o : json) (a : animation) : Prop :=
  opt o "name" chars "" (an_name a) /\ req o "channels" (list_of a_channel) (an_channels a) /\
  req o "samplers" (list_of an_asampler) (an_samplers a) /\ extras o (an_extras a).

(** * Materials: a value is a number, an array of numbers, a string, a bool or an object,
    of which the numbers are kept *)
Inductive numbers_in : list (string * json) -> list (string * Q) -> Prop :=
| in_nil : numbers_in [] []
| in_number k j q l m : number j q -> numbers_in l m -> numbers_in ((k, j) :: l) ((k, q) :: m)
| in_other k j l m : (forall q, ~ number j q) -> numbers_in l m -> numbers_in ((k, j) :: l) m.
Inductive a_parameter : json -> parameter -> Prop :=
| par_number j q : number j q -> a_parameter j (Param None true "" [] [] (Some q))
| par_array j qs : list_of number j qs -> a_parameter j (Param None false "" qs [] None)
| par_string s : a_parameter (JStr s) (Param None false s [] [] None)
| par_bool b : a_parameter (JBool b) (Param (Some b) false "" [] [] None)
| par_object l m : numbers_in l m -> a_parameter (JObj l) (Param None false "" [] m None).
(** The members that are not called as in [skip]; nulls are left out. *)
Inductive parameters_in (skip : list string) : list (string * json) -> list (string * parameter) -> Prop :=
| pars_nil : parameters_in skip [] []
| pars_skip k j l m : In k skip \/ j = JNull -> parameters_in skip l m -> parameters_in skip ((k, j) :: l) m
| pars_take k j p l m : ~ In k skip -> a_parameter j p -> parameters_in skip l m -> parameters_in skip ((k, j) :: l) ((k, p) :: m).
Definition a_material (o : json) (m : material) : Prop :=
  opt o "name" chars "" (ma_name m) /\
  opt o "pbrMetallicRoughness" (fun j ps => exists l, j = JObj l /\ parameters_in [] l ps) [] (ma_values m) /\
  (exists l, o = JObj l /\ parameters_in ["pbrMetallicRoughness"; "extensions"; "extras"] l (ma_additional m)) /\
  has_extensions o (ma_extensions m) /\ extras o (ma_extras m).

(** * Buffers and images *)

(** The bytes of a URI: base 64, or a file beside the document or in the current folder. *)
Definition in_data (uri : text) (mime : text) (b : list Z) : Prop :=
  exists h m, In (h, m) headers /\ Forall Uri.Spec.byte b /\ uri = (h ++ base64_encode b)%list /\
    mime = match m with Some x => x | None => [] end.
Definition a_name (uri : text) : Prop := uri <> [] /\ Forall Uri.Spec.plain uri.
Definition on_disk (fs : files) (d uri : text) : option (list Z) :=
  match fs (Uri.Spec.in_folder d uri) with Some b => Some b | None => fs (Uri.Spec.in_folder (lit ".") uri) end.
Definition a_buffer (fs : files) (d : text) (o : json) (b : buffer) : Prop :=
  opt o "name" chars "" (bu_name b) /\ req o "byteLength" count (Z.of_nat (List.length (bu_data b))) /\ bu_data b <> [] /\
  req o "uri" chars (bu_uri b) /\ bu_extras b = VNull /\
  let uri := list_ascii_of_string (bu_uri b) in
  (exists mime, in_data uri mime (bu_data b)) \/ (a_name uri /\ on_disk fs d uri = Some (bu_data b)).
(** [bytes] is the part of the buffer that the view says. *)
Definition in_view (vs : list view) (bs : list buffer) (z : Z) (bytes : list Z) : Prop :=
  exists v b before after, nth_error vs (Z.to_nat z) = Some v /\ 0 <= vi_buffer v /\ nth_error bs (Z.to_nat (vi_buffer v)) = Some b /\
    bu_data b = (before ++ bytes ++ after)%list /\ Z.of_nat (List.length before) = vi_offset v /\ Z.of_nat (List.length bytes) = vi_length v.
Definition an_image (fs : files) (d : text) (decode : list Z -> option (Z * Z * Z * list Z)) (vs : list view) (bs : list buffer)
    (o : json) (i : image) : Prop :=
  opt o "name" chars "" (im_name i) /\ im_extras i = VNull /\
  ((exists bytes w h c data w0 h0, no_member o "uri" /\ req o "bufferView" index (im_view i) /\ req o "mimeType" chars (im_mime i) /\
      im_uri i = "" /\ in_view vs bs (im_view i) bytes /\ decode bytes = Some (w, h, c, data) /\ 1 <= w /\ 1 <= h /\
      opt o "width" index 0 w0 /\ (w0 = 0 \/ w0 = w) /\ opt o "height" index 0 h0 /\ (h0 = 0 \/ h0 = h) /\
      im_data i = Some (w, h, c, data)) \/
   (exists uri mime bytes w h c data, no_member o "bufferView" /\ req o "uri" chars uri /\ im_view i = -1 /\
      ((in_data (list_ascii_of_string uri) mime bytes /\ bytes <> [] /\ im_mime i = string_of_list_ascii mime /\ im_uri i = "") \/
       (a_name (list_ascii_of_string uri) /\ on_disk fs d (list_ascii_of_string uri) = Some bytes /\ bytes <> [] /\ im_mime i = "" /\ im_uri i = uri)) /\
      decode bytes = Some (w, h, c, data) /\ 1 <= w /\ 1 <= h /\ im_data i = Some (w, h, c, data)) \/
   (exists uri, no_member o "bufferView" /\ req o "uri" chars uri /\ im_view i = -1 /\
      a_name (list_ascii_of_string uri) /\ on_disk fs d (list_ascii_of_string uri) = None /\ im_mime i = "" /\ im_uri i = uri /\ im_data i = None)).

(** * The document *)
Definition an_asset (o : json) (a : asset) : Prop :=
  opt o "version" chars "2.0" (at_version a) /\ opt o "generator" chars "fbsource/fbcode/sumo/threedee/gltf.pyx" (at_generator a) /\
  opt o "minVersion" chars "" (at_min a) /\ at_copyright a = "" /\ has_extensions o (at_extensions a) /\ extras o (at_extras a).
Definition a_light (o : json) (l : light) : Prop :=
  opt o "name" chars "" (li_name l) /\ opt o "color" (list_of number) [] (li_color l) /\ opt o "type" chars "" (li_type l).
Definition some_lights (o : json) (ls : list light) : Prop :=
  opt o "extensions" (fun e ls => opt e "KHR_lights_cmn" (fun k ls => req k "lights" (list_of a_light) ls) [] ls) [] ls.
Record means (fs : files) (d : text) (decode : list Z -> option (Z * Z * Z * list Z)) (f32 : Q -> Q) (v : json) (m : model) : Prop := {
  m_scenes : req v "scenes" (list_of a_scene) (scenes m);
  m_nodes : req v "nodes" (list_of a_node) (nodes m);
  m_accessors : req v "accessors" (list_of an_accessor) (accessors m);
  m_buffers : req v "buffers" (list_of (a_buffer fs d)) (buffers m);
  m_views : req v "bufferViews" (list_of a_view) (views m);
  m_meshes : opt v "meshes" (list_of a_mesh) [] (meshes m);
  m_materials : opt v "materials" (list_of a_material) [] (materials m);
  m_images : opt v "images" (list_of (an_image fs d decode (views m) (buffers m))) [] (images m);
  m_textures : opt v "textures" (list_of a_texture) [] (textures m);
  m_samplers : opt v "samplers" (list_of a_sampler) [] (samplers m);
  m_animations : opt v "animations" (list_of an_animation) [] (animations m);
  m_skins : opt v "skins" (list_of a_skin) [] (skins m);
  m_cameras : opt v "cameras" (list_of (a_camera f32)) [] (cameras m);
  m_scene : opt v "scene" index (-1) (default_scene m);
  m_used : opt v "extensionsUsed" (list_of chars) [] (extensions_used m);
  m_required : opt v "extensionsRequired" (list_of chars) [] (extensions_required m);
  m_the_asset : opt v "asset" an_asset (Asset "2.0" "fbsource/fbcode/sumo/threedee/gltf.pyx" "" "" [] VNull) (m_asset m);
  m_lights : some_lights v (lights m);
  m_has_extensions : has_extensions v (extensions m);
  m_the_extras : extras v (Doc.Model.m_extras m) }.

(** * Documents that lack something *)
Definition lacks {A} (o : json) (k : string) (R : json -> A -> Prop) : Prop := forall j a, member o k j -> ~ R j a.
Definition array_at (o : json) (k : string) (l : list json) : Prop := member o k (JArr l).
Inductive incomplete (v : json) : Prop :=
| no_object : (forall l, v <> JObj l) -> incomplete v
| no_section k : In k ["scenes"; "nodes"; "accessors"; "buffers"; "bufferViews"] -> (forall l, ~ array_at v k l) -> incomplete v
| bad_member k l o : In k ["scenes"; "nodes"; "accessors"; "buffers"; "bufferViews"; "meshes"; "materials"; "images"; "textures"; "samplers"; "animations"; "skins"; "cameras"] ->
    array_at v k l -> In o l -> (forall m, o <> JObj m) -> incomplete v
| no_number k c l o : In (k, c) [("accessors", "bufferView"); ("accessors", "componentType"); ("accessors", "count");
      ("buffers", "byteLength"); ("bufferViews", "buffer"); ("bufferViews", "byteLength")] ->
    array_at v k l -> In o l -> lacks o c number -> incomplete v
| no_kind l o : array_at v "accessors" l -> In o l -> lacks o "type" (fun j t => exists s, j = JStr s /\ In (s, t) types) -> incomplete v
| no_camera_type l o : array_at v "cameras" l -> In o l -> lacks o "type" (fun j t => j = JStr t /\ In t ["perspective"; "orthographic"]) -> incomplete v
| no_lens l o t c : array_at v "cameras" l -> In o l -> member o "type" (JStr t) ->
    In (t, c) [("perspective", "yfov"); ("perspective", "znear"); ("orthographic", "xmag"); ("orthographic", "ymag"); ("orthographic", "zfar"); ("orthographic", "znear")] ->
    (forall p, member o t p -> lacks p c number) -> incomplete v
| no_numbers k c l o : In (k, c) [("scenes", "nodes"); ("skins", "joints")] ->
    array_at v k l -> In o l -> lacks o c (list_of number) -> incomplete v
| no_interpolation l a ss s c : array_at v "animations" l -> In a l -> array_at a "samplers" ss -> In s ss ->
    (lacks s "interpolation" chars \/ (In c ["input"; "output"] /\ lacks s c number)) -> incomplete v
| no_image l o : array_at v "images" l -> In o l ->
    ((forall j, ~ member o "uri" j) /\ (forall j, ~ member o "bufferView" j)) \/ ((exists j, member o "uri" j) /\ (exists j, member o "bufferView" j)) -> incomplete v.
