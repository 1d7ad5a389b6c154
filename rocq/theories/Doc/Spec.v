(** What saving a model as .gltf and loading it again makes of it, field by field, and
    the models for which this is so.  [f] is what the text makes of a double. *)
From Coq Require Import List Bool ZArith QArith Ascii String Sorted.
From Verif.Base Require Import Py.
From Verif.Uri Require Import Model.
From Verif.Uri Require Spec.
From Verif.Doc Require Import Model.
Import ListNotations.
Local Open Scope Z_scope.

(** int, and the integers that are doubles. *)
Definition int (z : Z) : Prop := -2147483648 <= z < 2147483648.
Definition size (z : Z) : Prop := 0 <= z <= 2 ^ 53.

(** A std::map: its keys grow. *)
Definition ordered {A} (m : list (string * A)) : Prop :=
  StronglySorted (fun a b => String.compare (fst a) (fst b) = Lt) m.

(** A Value with no null, no bytes and nothing empty in it. *)
Fixpoint solid (v : value) : Prop :=
  match v with
  | VNull | VBinary _ => False
  | VInt z => int z
  | VArray l => l <> [] /\ fold_right (fun x P => solid x /\ P) True l
  | VObject l => l <> [] /\ ordered l /\ fold_right (fun kx P => solid (snd kx) /\ P) True l
  | _ => True
  end.
Definition extras_ok (v : value) : Prop := v = VNull \/ solid v.
Definition an_object (v : value) : Prop := match v with VObject _ => True | _ => False end.
Definition extensions_ok (m : extension_map) : Prop :=
  ordered m /\ Forall (fun kv => solid (snd kv) /\ an_object (snd kv)) m.

Section After.
  Variable f f32 : Q -> Q.

  Fixpoint after_value (v : value) : value :=
    match v with
    | VNumber q => VNumber (f q)
    | VArray l => VArray (map after_value l)
    | VObject l => VObject (map (fun kv => (fst kv, after_value (snd kv))) l)
    | _ => v
    end.
  Definition after_map (m : extension_map) : extension_map := map (fun kv => (fst kv, after_value (snd kv))) m.

  (** A parameter is an array, a JSON object, a string, a number or a bool, in this
      order; "index" is an int. *)
  Inductive parameter_ok : parameter -> Prop :=
  | ok_array b h s q qs js n : parameter_ok (Param b h s (q :: qs) js n)
  | ok_json b h s j js n : ordered (j :: js) -> (forall q, In ("index"%string, q) (j :: js) -> int (trunc q)) ->
      parameter_ok (Param b h s [] (j :: js) n)
  | ok_string b h s n : s <> ""%string -> parameter_ok (Param b h s [] [] n)
  | ok_number b q : parameter_ok (Param b true "" [] [] (Some q))
  | ok_bool b n : parameter_ok (Param (Some b) false "" [] [] n).
  Definition after_entry (kq : string * Q) : string * Q :=
    if String.eqb (fst kq) "index" then (fst kq, inject_Z (trunc (snd kq))) else (fst kq, f (snd kq)).
  Definition a_string (s : string) : parameter := Param None false s [] [] None.
  Definition after_parameter (p : parameter) : parameter :=
    match p with
    | Param _ _ _ (q :: qs) _ _ => Param None false "" (map f (q :: qs)) [] None
    | Param _ _ _ [] (j :: js) _ => Param None false "" [] (map after_entry (j :: js)) None
    | Param b h s [] [] n =>
        if String.eqb s "" then
          if h then Param None true "" [] [] (match n with Some q => Some (f q) | None => None end)
          else Param b false "" [] [] None
        else a_string s
    end.
  Definition after_parameters (m : list (string * parameter)) : list (string * parameter) :=
    map (fun kp => (fst kp, after_parameter (snd kp))) m.
  Definition parameters_ok (m : list (string * parameter)) : Prop :=
    ordered m /\ Forall (fun kp => parameter_ok (snd kp)) m.

  (** Accessors lose their name and "normalized". *)
  Definition accessor_ok (a : accessor) : Prop :=
    int (ac_view a) /\ 0 <= ac_offset a < 2147483648 /\ 5120 <= ac_component a <= 5130 /\ size (ac_count a) /\
    In (ac_type a) [SCALAR; VEC2; VEC3; VEC4; MAT2; MAT3; MAT4] /\ extras_ok (ac_extras a).
  Definition after_accessor (a : accessor) : accessor :=
    Accessor (ac_view a) "" (ac_offset a) false (ac_component a) (ac_count a) (ac_type a) (after_value (ac_extras a))
      (map f (ac_min a)) (map f (ac_max a)).

  Definition channel_ok (c : channel) : Prop := int (ch_sampler c) /\ int (ch_node c) /\ extras_ok (ch_extras c).
  Definition asampler_ok (s : asampler) : Prop := int (as_input s) /\ int (as_output s) /\ extras_ok (as_extras s).
  Definition animation_ok (a : animation) : Prop :=
    Forall channel_ok (an_channels a) /\ Forall asampler_ok (an_samplers a) /\ extras_ok (an_extras a).
  Definition after_channel (c : channel) : channel := Channel (ch_sampler c) (ch_node c) (ch_path c) (after_value (ch_extras c)).
  Definition after_asampler (s : asampler) : asampler :=
    ASampler (as_input s) (as_output s) (as_interpolation s) (after_value (as_extras s)).
  Definition after_animation (a : animation) : animation :=
    Animation (an_name a) (map after_channel (an_channels a)) (map after_asampler (an_samplers a)) (after_value (an_extras a)).

  (** The asset loses minVersion and copyright, and extras that are no object; without
      version or generator it gets those of a new model. *)
  Definition asset_ok (a : asset) : Prop := extensions_ok (at_extensions a) /\ extras_ok (at_extras a).
  Definition after_asset (a : asset) : asset :=
    Asset (if String.eqb (at_version a) "" then "2.0" else at_version a)
      (if String.eqb (at_generator a) "" then "fbsource/fbcode/sumo/threedee/gltf.pyx" else at_generator a)
      "" "" (after_map (at_extensions a)) (match at_extras a with VObject l => after_value (VObject l) | _ => VNull end).

  (** The buffer: its name and its data. *)
  Definition buffer_ok (b : buffer) : Prop :=
    bu_data b <> [] /\ size (Z.of_nat (List.length (bu_data b))) /\ extras_ok (bu_extras b).
  Definition after_buffer (bin : string) (b : buffer) : buffer := Buffer (bu_name b) (bu_data b) bin VNull.

  (** Buffer views lose extras, strides below 4 and unknown targets. *)
  Definition stride_ok (s : Z) : Prop := 0 <= s < 4 \/ (4 <= s <= 252 /\ s mod 4 = 0).
  Definition view_ok (v : view) : Prop :=
    int (vi_buffer v) /\ size (vi_length v) /\ size (vi_offset v) /\ stride_ok (vi_stride v) /\ extras_ok (vi_extras v).
  Definition after_view (v : view) : view :=
    View (vi_name v) (vi_buffer v) (vi_offset v) (vi_length v) (if vi_stride v <? 4 then 0 else vi_stride v)
      (if (vi_target v =? 34962) || (vi_target v =? 34963) then vi_target v else 0) VNull.

  (** Images keep their name and their URI; the rest comes from the file. *)
  Definition image_ok (i : image) : Prop := extras_ok (im_extras i).
  Definition after_image (i : image) (px : option (Z * Z * Z * list Z)) : image :=
    Image (im_name i) (-1) "" (im_uri i) px VNull.

  (** Materials: the name also becomes one of the additional values.  There must be
      something to write. *)
  Definition material_ok (m : material) : Prop :=
    (ma_name m <> ""%string \/ ma_values m <> [] \/ ma_additional m <> [] \/ ma_extensions m <> [] \/ ma_extras m <> VNull) /\
    parameters_ok (ma_values m) /\ parameters_ok (ma_additional m) /\
    (forall k, own_key k = true \/ (k = "name"%string /\ ma_name m = ""%string) -> get k (ma_additional m) = None) /\
    extensions_ok (ma_extensions m) /\ extras_ok (ma_extras m).
  Definition after_material (m : material) : material :=
    Material (ma_name m) (after_parameters (ma_values m))
      (let l := after_parameters (ma_additional m) in if String.eqb (ma_name m) "" then l else put "name" (a_string (ma_name m)) l)
      (after_map (ma_extensions m)) (after_value (ma_extras m)).

  (** Meshes lose their own targets and extensions; negative indices become -1. *)
  Definition primitive_ok (p : primitive) : Prop :=
    pr_attributes p <> [] /\ ordered (pr_attributes p) /\ Forall (fun kz => int (snd kz)) (pr_attributes p) /\
    int (pr_material p) /\ int (pr_indices p) /\ int (pr_mode p) /\
    Forall (fun t => ordered t /\ Forall (fun kz => int (snd kz)) t) (pr_targets p) /\ extras_ok (pr_extras p).
  Definition mesh_ok (m : mesh) : Prop := Forall primitive_ok (me_primitives m) /\ extras_ok (me_extras m).
  Definition after_primitive (p : primitive) : primitive :=
    Primitive (pr_attributes p) (Z.max (-1) (pr_material p)) (Z.max (-1) (pr_indices p)) (pr_mode p) (pr_targets p)
      (after_value (pr_extras p)).
  Definition after_mesh (m : mesh) : mesh :=
    Mesh (me_name m) (map after_primitive (me_primitives m)) (map f (me_weights m)) [] [] (after_value (me_extras m)).

  (** Nodes lose weights and, if there is a matrix, rotation, scale and translation. *)
  Definition node_ok (n : node) : Prop :=
    int (no_camera n) /\ int (no_skin n) /\ int (no_mesh n) /\ Forall int (no_children n) /\
    extensions_ok (no_extensions n) /\ extras_ok (no_extras n).
  Definition after_node (n : node) : node :=
    let trs l := match no_matrix n with [] => map f l | _ => [] end in
    Node (no_camera n) (no_name n) (no_skin n) (no_mesh n) (no_children n) (trs (no_rotation n)) (trs (no_scale n))
      (trs (no_translation n)) (map f (no_matrix n)) [] (after_map (no_extensions n)) (after_value (no_extras n)).

  (** Samplers lose their name. *)
  Definition sampler_ok (s : sampler) : Prop :=
    int (sa_min s) /\ int (sa_mag s) /\ int (sa_s s) /\ int (sa_t s) /\ extras_ok (sa_extras s).
  Definition after_sampler (s : sampler) : sampler :=
    Sampler "" (sa_min s) (sa_mag s) (sa_s s) (sa_t s) (after_value (sa_extras s)).

  (** Cameras: the name becomes the type; extensions, extras and what is not of the type
      are lost. *)
  Definition camera_ok (c : camera) : Prop :=
    ca_type c = "orthographic"%string /\ extras_ok (or_extras (ca_orthographic c)) \/
    ca_type c = "perspective"%string /\ (0 < pe_yfov (ca_perspective c))%Q /\ extras_ok (pe_extras (ca_perspective c)).
  Definition after_orthographic (o : orthographic) : orthographic :=
    Orthographic (f32 (f (or_x o))) (f32 (f (or_y o))) (f32 (f (or_far o))) (f32 (f (or_near o))) [] (after_value (or_extras o)).
  Definition after_perspective (p : perspective) : perspective :=
    Perspective (f32 (if Qle_bool (pe_aspect p) 0 then 0 else f (pe_aspect p))%Q) (f32 (f (pe_yfov p))) (f32 (f (pe_far p)))
      (f32 (f (pe_near p))) [] (after_value (pe_extras p)).
  Definition after_camera (c : camera) : camera :=
    Camera (ca_type c) (if String.eqb (ca_name c) "" then "" else ca_type c)
      (if String.eqb (ca_type c) "perspective" then after_perspective (ca_perspective c) else new_perspective)
      (if String.eqb (ca_type c) "orthographic" then after_orthographic (ca_orthographic c) else new_orthographic)
      [] VNull.

  Definition scene_ok (s : scene) : Prop :=
    sc_nodes s <> [] /\ Forall int (sc_nodes s) /\ extensions_ok (sc_extensions s) /\ extras_ok (sc_extras s).
  Definition after_scene (s : scene) : scene :=
    Scene (sc_name s) (sc_nodes s) (after_map (sc_extensions s)) (after_value (sc_extras s)).
  Definition skin_ok (s : skin) : Prop :=
    sk_joints s <> [] /\ Forall int (sk_joints s) /\ int (sk_skeleton s) /\ int (sk_matrices s).
  Definition texture_ok (t : texture) : Prop :=
    int (te_sampler t) /\ int (te_source t) /\ extensions_ok (te_extensions t) /\ extras_ok (te_extras t).
  Definition after_texture (t : texture) : texture :=
    Texture (Z.max (-1) (te_sampler t)) (te_source t) (after_value (te_extras t)) (after_map (te_extensions t)).

  (** Lights are an extension, and are found among the extensions afterwards. *)
  Definition after_light (l : light) : light := Light (li_name l) (map f (li_color l)) (li_type l).
  Definition light_value (l : light) : value :=
    VObject ((match li_color l with [] => [] | qs => [("color"%string, VArray (map (fun q => VNumber (f q)) qs))] end)
             ++ [("name"%string, VString (li_name l)); ("type"%string, VString (li_type l))]).
  Definition after_extensions (m : model) : extension_map :=
    match lights m with
    | [] => after_map (extensions m)
    | ls => put "KHR_lights_cmn" (VObject [("lights"%string, VArray (map light_value ls))]) (after_map (extensions m))
    end.

  (** Animations without channels are not written. *)
  Definition moving (a : animation) : bool := match an_channels a with [] => false | _ => true end.
  Definition after_model (bin : string) (pxs : list (option (Z * Z * Z * list Z))) (m : model) : model :=
    Model (map after_accessor (accessors m)) (map after_animation (filter moving (animations m)))
      (map (after_buffer bin) (buffers m)) (map after_view (views m)) (map after_material (materials m))
      (map after_mesh (meshes m)) (map after_node (nodes m)) (map after_texture (textures m))
      (map (fun ip => after_image (fst ip) (snd ip)) (combine (images m) pxs))
      (skins m) (map after_sampler (samplers m)) (map after_camera (cameras m)) (map after_scene (scenes m))
      (map after_light (lights m)) (after_extensions m) (Z.max (-1) (default_scene m)) (extensions_used m)
      (extensions_required m) (after_asset (m_asset m)) (after_value (m_extras m)).
End After.

(** The models that can be saved and loaded: one buffer, something in each of the
    sections that are required, and parts as above. *)
Record model_ok (m : model) : Prop := {
  ok_buffer : exists b, buffers m = [b] /\ buffer_ok b;
  ok_accessors : accessors m <> [] /\ Forall accessor_ok (accessors m);
  ok_views : views m <> [] /\ Forall view_ok (views m);
  ok_nodes : nodes m <> [] /\ Forall node_ok (nodes m);
  ok_scenes : scenes m <> [] /\ Forall scene_ok (scenes m);
  ok_animations : Forall animation_ok (animations m);
  ok_materials : Forall material_ok (materials m);
  ok_meshes : Forall mesh_ok (meshes m);
  ok_textures : Forall texture_ok (textures m);
  ok_images : Forall image_ok (images m);
  ok_skins : Forall skin_ok (skins m);
  ok_samplers : Forall sampler_ok (samplers m);
  ok_cameras : Forall camera_ok (cameras m);
  ok_extensions : extensions_ok (extensions m) /\ (lights m = [] -> get "KHR_lights_cmn" (extensions m) = None);
  ok_default : int (default_scene m);
  ok_asset : asset_ok (m_asset m);
  ok_extras : extras_ok (m_extras m) }.

(** What becomes of the image of a URI: what is decoded from the file beside the .gltf
    file or in the current folder, nothing if there is no file. *)
Definition picture (fs : files) (d : text) (decode : list Z -> option (Z * Z * Z * list Z))
    (i : image) (px : option (Z * Z * Z * list Z)) : Prop :=
  let uri := list_ascii_of_string (im_uri i) in
  let file := match fs (Uri.Spec.in_folder d uri) with Some b => Some b | None => fs (Uri.Spec.in_folder (lit ".") uri) end in
  uri <> [] /\ Forall Uri.Spec.plain uri /\ IsDataURI uri = false /\
  match file with
  | None | Some [] => px = None
  | Some bytes => exists w h c data, decode bytes = Some (w, h, c, data) /\ 1 <= w /\ 1 <= h /\ px = Some (w, h, c, data)
  end.


(** What is asked of the text and of float for a second time to change nothing: a
    double that was read is written as it is, a float is found again, and the angle and
    the aspect ratio of a camera are not rounded to 0. *)
Record stable (f f32 : Q -> Q) : Prop := {
  again_double : forall q, f (f q) = f q;
  again_float : forall q, f32 (f (f32 (f q))) = f32 (f q);
  float_zero : f32 0%Q = 0%Q }.
Definition lens_ok (f f32 : Q -> Q) (c : camera) : Prop :=
  ca_type c = "perspective"%string ->
  (0 < f32 (f (pe_yfov (ca_perspective c))))%Q /\
  (Qle_bool (pe_aspect (ca_perspective c)) 0 = true \/ (0 < f32 (f (pe_aspect (ca_perspective c))))%Q).

(** Models that are written and cannot be read. *)
Inductive broken (m : model) : Prop :=
| no_scenes : scenes m = [] -> broken m
| no_nodes : nodes m = [] -> broken m
| no_accessors : accessors m = [] -> broken m
| no_buffers : buffers m = [] -> broken m
| no_views : views m = [] -> broken m
| scene_without_nodes s : In s (scenes m) -> sc_nodes s = [] -> broken m
| skin_without_joints s : In s (skins m) -> sk_joints s = [] -> broken m
| camera_type c : In c (cameras m) -> ca_type c <> "perspective"%string -> ca_type c <> "orthographic"%string -> broken m
| camera_angle c : In c (cameras m) -> ca_type c = "perspective"%string -> (pe_yfov (ca_perspective c) <= 0)%Q -> broken m
| stride v : In v (views m) -> 4 <= vi_stride v -> size (vi_stride v) -> (252 < vi_stride v \/ vi_stride v mod 4 <> 0) -> broken m
| data_type a : In a (accessors m) -> ~ In (ac_type a) [SCALAR; VEC2; VEC3; VEC4; MAT2; MAT3; MAT4] -> broken m
| data_component a : In a (accessors m) -> int (ac_component a) -> ~ 5120 <= ac_component a <= 5130 -> broken m
| data_offset a : In a (accessors m) -> 2147483648 <= ac_offset a < 4294967296 -> broken m
| empty_material : In (Material "" [] [] [] VNull) (materials m) -> broken m
| two_buffers b c : In b (buffers m) -> In c (buffers m) -> size (Z.of_nat (List.length (bu_data b))) ->
    size (Z.of_nat (List.length (bu_data c))) -> List.length (bu_data b) <> List.length (bu_data c) -> broken m.
