(** C97: a model saved as .gltf and loaded again. *)
From Coq Require Import List Bool ZArith QArith Ascii String Sorted Lia Lqa.
From Verif.Base Require Import Py.
From Verif.Uri Require Import Model.
From Verif.Uri Require Spec Paths Props.
From Verif.Doc Require Import Model Spec Facts Parts Whole Broken Again.
Import ListNotations.
Local Open Scope Z_scope.

(** * What is loaded *)

(** A model with the parts that are required is written, its data beside it, and loading
    gives the model of Spec, whatever the text makes of doubles. *)
Theorem C97_reload : forall f f32 expand decode fs d root m, Uri.Spec.expands expand -> Uri.Spec.folder d -> Forall Uri.Spec.plain d ->
  Uri.Spec.simple root -> Forall Uri.Spec.plain root -> model_ok m ->
  let filename := Uri.Spec.in_folder d (root ++ lit ".gltf") in
  let bin := Uri.Spec.in_folder d (root ++ lit ".bin") in
  exists fs' j, save fs filename m = Ok (fs', j) /\
    fs' bin = Some (List.concat (map bu_data (buffers m))) /\ (forall p, p <> bin -> fs' p = fs p) /\
    forall pxs, Forall2 (picture fs' d decode) (images m) pxs ->
    load expand decode f32 fs' filename (through_text f j) = Ok (after_model f f32 (string_of_list_ascii (root ++ lit ".bin")) pxs m).
Proof. intros f f32. exact (whole f f32). Qed.

Lemma picture_same : forall fs fs' d decode i j px, (forall p, fs' p = fs p) -> im_uri j = im_uri i -> picture fs d decode i px -> picture fs' d decode j px.
Proof.
  intros fs fs' d decode i j px E U (N & P & D & H). unfold picture. rewrite U. split; [exact N|]. split; [exact P|]. split; [exact D|]. rewrite !E. exact H.
Qed.
(** A second time nothing changes: neither the files nor the model. *)
Theorem C97_again : forall f f32 expand decode fs d root m fs' j pxs, Uri.Spec.expands expand -> Uri.Spec.folder d -> Forall Uri.Spec.plain d ->
  Uri.Spec.simple root -> Forall Uri.Spec.plain root -> model_ok m -> stable f f32 -> Forall (lens_ok f f32) (cameras m) ->
  let filename := Uri.Spec.in_folder d (root ++ lit ".gltf") in
  save fs filename m = Ok (fs', j) -> Forall2 (picture fs' d decode) (images m) pxs ->
  exists m', load expand decode f32 fs' filename (through_text f j) = Ok m' /\
  exists fs'' j', save fs' filename m' = Ok (fs'', j') /\ (forall p, fs'' p = fs' p) /\
    load expand decode f32 fs'' filename (through_text f j') = Ok m'.
Proof.
  intros f f32 expand decode fs d root m fs' j pxs X F PD SI PR M ST LE filename S PX.
  destruct (C97_reload f f32 expand decode fs d root m X F PD SI PR M) as (fs1 & j1 & S1 & B1 & O1 & L1).
  fold filename in S1, L1. rewrite S in S1. injection S1 as <- <-. set (bin := string_of_list_ascii (root ++ lit ".bin")) in *.
  set (m' := after_model f f32 bin pxs m) in *. exists m'. split; [apply L1, PX|].
  assert (LP : List.length pxs = List.length (images m)) by (clear -PX; induction PX; cbn; congruence).
  destruct (model_again f f32 ST bin pxs m M LE LP) as (M' & _ & E). fold m' in M', E.
  destruct (C97_reload f f32 expand decode fs' d root m' X F PD SI PR M') as (fs2 & j2 & S2 & B2 & O2 & L2). fold filename in S2, L2.
  exists fs2, j2. split; [exact S2|].
  assert (FS : forall p, fs2 p = fs' p).
  { intros p. destruct (list_eq_dec ascii_dec p (Uri.Spec.in_folder d (root ++ lit ".bin"))) as [->|N]; [|apply O2, N].
    rewrite B1, B2. do 2 f_equal. cbn [m' after_model buffers]. rewrite map_map. reflexivity. }
  split; [exact FS|]. fold bin in L2. rewrite (L2 pxs); [rewrite E; reflexivity|]. cbn [m' after_model images].
  clear -PX FS. induction PX as [|i px l pxs P PX IH]; [constructor|]. cbn [combine map fst snd]. constructor; [|exact IH].
  exact (picture_same _ _ _ _ _ _ _ FS eq_refl P).
Qed.

(** Models that are saved and can never be loaded, in whatever folder. *)
Theorem C97_unloadable : forall f f32 m expand decode fs fs' fs'' filename j m', broken m -> save fs filename m = Ok (fs', j) ->
  load expand decode f32 fs'' filename (through_text f j) <> Ok m'.
Proof. intros f f32. exact (unloadable f f32). Qed.

(** The data of an accessor are the same afterwards, unless the stride was 1, 2 or 3. *)
Theorem C97_stride : forall f a v, accessor_ok a -> view_ok v -> vi_stride v = 0 \/ 4 <= vi_stride v ->
  ByteStride (after_accessor f a) (after_view v) = ByteStride a v.
Proof.
  intros f a v _ (_ & _ & _ & S & _) H. unfold ByteStride, after_view. cbn [vi_stride ac_component ac_type after_accessor].
  destruct (Z.ltb_spec (vi_stride v) 4) as [L|L]; [|reflexivity]. destruct H as [->|H]; [reflexivity|lia].
Qed.
Ltac small := repeat first
  [ progress cbn | match goal with |- _ /\ _ => split end
  | match goal with |- Forall _ [] => constructor | |- Forall _ (_ :: _) => constructor | |- extras_ok VNull => left; reflexivity
                  | |- ordered [] => constructor | |- ordered [_] => repeat constructor
                  | |- extensions_ok [] => split; constructor | |- _ <> _ => discriminate
                  | |- accessor_ok _ => unfold accessor_ok | |- view_ok _ => unfold view_ok | |- node_ok _ => unfold node_ok
                  | |- scene_ok _ => unfold scene_ok | |- animation_ok _ => unfold animation_ok
                  | |- channel_ok _ => unfold channel_ok | |- asampler_ok _ => unfold asampler_ok
                  | |- texture_ok _ => unfold texture_ok | |- sampler_ok _ => unfold sampler_ok
                  | |- mesh_ok _ => unfold mesh_ok | |- primitive_ok _ => unfold primitive_ok
                  | |- stride_ok _ => unfold stride_ok; lia
                  | |- In _ _ => cbn; tauto | |- ?a \/ _ => left; reflexivity end
  | solve [unfold int, size; cbn; lia] ].
Theorem C97_stride_refuted : exists a v, accessor_ok a /\ view_ok v /\ forall f, ByteStride (after_accessor f a) (after_view v) <> ByteStride a v.
Proof.
  exists (Accessor 0 "" 0 false 5121 2 SCALAR VNull [] []), (View "" 0 0 4 2 34962 VNull).
  split; [|split].
  - small.
  - small.
  - intros f. vm_compute. discriminate.
Qed.

(** * What is lost *)

(** A small model with something of most kinds. *)
Definition an_asset : asset := Asset "2.0" "me" "" "(c)" [] VNull.
Definition an_accessor : accessor := Accessor 0 "points" 0 true 5126 3 VEC3 VNull [0; 0; 0]%Q [1; 1; 1 # 2]%Q.
Definition a_node : node := Node 0 "n" (-1) 0 [] [0; 0; 0; 1]%Q [] [1; 2; 3]%Q [1; 0; 0; 0; 0; 1; 0; 0; 0; 0; 1; 0; 0; 0; 0; 1]%Q [] [] VNull.
Definition a_material : material :=
  Material "red" [("baseColorFactor", Param None false "" [1; 0; 0; 1]%Q [] None);
                  ("baseColorTexture", Param None false "" [] [("index", 0%Q)] None);
                  ("metallicFactor", Param None true "" [] [] (Some 0%Q))]%string
    [("doubleSided", Param (Some true) false "" [] [] None)]%string [] VNull.
Definition sample : model :=
  Model [an_accessor]
    [Animation "still" [] [] VNull; Animation "move" [Channel 0 0 "translation" VNull] [ASampler 0 0 "LINEAR" VNull] VNull]
    [Buffer "b" [1; 2; 3; 4] "" VNull] [View "v" 0 0 4 0 34962 VNull] [a_material]
    [Mesh "m" [Primitive [("POSITION", 0)]%string 0 (-1) 4 [] VNull] [] [] [] VNull] [a_node] [Texture 0 0 VNull []] []
    [] [Sampler "nearest" 9728 9728 10497 10497 VNull]
    [Camera "perspective" "front" (Perspective (4 # 3) 1 100 (1 # 10) [] VNull) new_orthographic [] VNull]
    [Scene "s" [0] [] VNull] [Light "sun" [1; 1; 1]%Q "directional"] [] 0 [] [] an_asset (VObject [("made", VInt 2018)]%string).
Lemma sample_ok : model_ok sample.
Proof.
  assert (O1 : forall A (a : string * A), ordered [a]) by (intros; repeat constructor).
  assert (EN : extensions_ok []) by (split; constructor).
  assert (VN : extras_ok VNull) by (left; reflexivity).
  constructor; cbn [sample accessors animations buffers views materials meshes nodes textures images skins samplers cameras scenes lights extensions default_scene extensions_used extensions_required m_asset m_extras].
  - eexists. split; [reflexivity|]. unfold buffer_ok. small.
  - small.
  - small.
  - small.
  - small.
  - small.
  - constructor; [|constructor]. split; [left; discriminate|]. split; [|split; [|split; [|split; [exact EN|exact VN]]]].
    + split; [repeat constructor|]. constructor; [apply ok_array|]. constructor; [apply ok_json; [apply O1|]|].
      * intros q [H|[]]. injection H as <-. cbn. unfold int. lia.
      * constructor; [apply ok_number|constructor].
    + split; [apply O1|]. constructor; [apply ok_bool|constructor].
    + intros k [K|[_ K]]; [|discriminate]. cbn [a_material ma_additional get].
      destruct (String.eqb_spec "doubleSided" k) as [<-|]; [discriminate K|reflexivity].
  - small.
  - small.
  - constructor.
  - constructor.
  - small.
  - constructor; [|constructor]. right. split; [reflexivity|]. split; [reflexivity|exact VN].
  - split; [exact EN|]. intros H. discriminate.
  - small.
  - split; [exact EN|exact VN].
  - right. small.
Qed.

(** Names of accessors and samplers, "normalized", the name of a camera, the copyright,
    position and rotation of a node with a matrix are lost; an animation without
    channels disappears; the name of a material and the lights are there twice. *)
Theorem C97_lost_refuted : exists m, model_ok m /\ forall f f32 expand decode fs d root fs' j m',
  Uri.Spec.expands expand -> Uri.Spec.folder d -> Forall Uri.Spec.plain d -> Uri.Spec.simple root -> Forall Uri.Spec.plain root ->
  let filename := Uri.Spec.in_folder d (root ++ lit ".gltf") in
  save fs filename m = Ok (fs', j) -> load expand decode f32 fs' filename (through_text f j) = Ok m' ->
  map ac_name (accessors m) = ["points"%string] /\ map ac_name (accessors m') = [""%string] /\
  map ac_normalized (accessors m) = [true] /\ map ac_normalized (accessors m') = [false] /\
  map sa_name (samplers m) = ["nearest"%string] /\ map sa_name (samplers m') = [""%string] /\
  map ca_name (cameras m) = ["front"%string] /\ map ca_name (cameras m') = ["perspective"%string] /\
  at_copyright (m_asset m) = "(c)"%string /\ at_copyright (m_asset m') = ""%string /\
  map no_translation (nodes m) = [[1; 2; 3]%Q] /\ map no_translation (nodes m') = [[]] /\
  map an_name (animations m) = ["still"; "move"]%string /\ map an_name (animations m') = ["move"%string] /\
  map (fun x => get "name" (ma_additional x)) (materials m) = [None] /\
  map (fun x => get "name" (ma_additional x)) (materials m') = [Some (a_string "red")] /\
  get "KHR_lights_cmn" (extensions m) = None /\ get "KHR_lights_cmn" (extensions m') <> None.
Proof.
  exists sample. split; [exact sample_ok|]. intros f f32 expand decode fs d root fs' j m' X F PD SI PR filename S L.
  destruct (C97_reload f f32 expand decode fs d root sample X F PD SI PR sample_ok) as (fs1 & j1 & S1 & _ & _ & L1). fold filename in S1, L1.
  rewrite S in S1. injection S1 as <- <-. rewrite (L1 []) in L by constructor. injection L as <-. cbn.
  repeat split; try reflexivity. discriminate.
Qed.

(** A document with one more section, a file beside it, and the models of loading it
    and of saving what was loaded and loading that, with a text that keeps all doubles. *)
Definition around (k : string) (j : json) : json :=
  set k j (JObj
    [("accessors", JArr []); ("bufferViews", JArr []);
     ("buffers", JArr [JObj [("byteLength", JInt 4); ("uri", JStr "a.bin")]]); ("nodes", JArr []); ("scenes", JArr [])]%string).
Definition with_parts (j : json) : json :=
  set "accessors" (JArr [JObj [("bufferView", JInt 0); ("componentType", JInt 5121); ("count", JInt 4); ("type", JStr "SCALAR")]%string])
  (set "bufferViews" (JArr [JObj [("buffer", JInt 0); ("byteLength", JInt 4)]%string])
  (set "nodes" (JArr [JObj [("mesh", JInt 0)]%string]) (set "scenes" (JArr [JObj [("nodes", JArr [JInt 0])]%string]) j))).
Definition disk : files := fun p => if text_eqb p (lit "/d/a.bin") then Some [1; 2; 3; 4] else None.
Definition load_from (fs : files) (j : json) : res model :=
  load Uri.Props.first_word (fun _ => None) (fun q => q) fs (lit "/d/a.gltf") j.
Definition twice (k : string) (j : json) : res (model * model) :=
  let* m := load_from disk (with_parts (around k j)) in
  let* (fs', j') := save disk (lit "/d/a.gltf") m in
  let* m' := load_from fs' (through_text (fun q => q) j') in Ok (m, m').

(** An extension that is an empty object (this is how KHR_materials_unlit is used) is
    null in the model, and gone when the model was saved. *)
Theorem C97_unlit_refuted : exists j m m', j = JArr [JObj [("extensions", JObj [("KHR_materials_unlit", JObj [])]); ("name", JStr "white")]%string] /\
  twice "materials" j = Ok (m, m') /\
  map ma_extensions (materials m) = [[("KHR_materials_unlit", VNull)%string]] /\ map ma_extensions (materials m') = [[]].
Proof. do 3 eexists. split; [reflexivity|]. split; [vm_compute; reflexivity|]. repeat split; reflexivity. Qed.

(** A document that is loaded, and the model of which must not be saved: a material with
    an empty name.  (Likewise for other strings, arrays and objects that are empty.) *)
Theorem C97_parameter_refuted : exists j m, j = JStr "" /\
  load_from disk (with_parts (around "materials" (JArr [JObj [("name", j)]%string]))) = Ok m /\ forall fs filename, save fs filename m = Err Undefined.
Proof. do 2 eexists. split; [reflexivity|]. split; [vm_compute; reflexivity|]. intros fs filename. reflexivity. Qed.

(** Integers above 2^31 in "extras" are taken modulo 2^32, and nulls in a list go. *)
Theorem C97_extras_refuted : exists j m m', j = JArr [JInt 4294967297; JNull; JInt 2] /\ twice "extras" j = Ok (m, m') /\
  m_extras m = VArray [VInt 1; VInt 2] /\ m_extras m' = VArray [VInt 1; VInt 2].
Proof. do 3 eexists. split; [reflexivity|]. split; [vm_compute; reflexivity|]. repeat split; reflexivity. Qed.

(** A mesh of which one primitive has no attributes: there is one primitive less. *)
Theorem C97_primitive_refuted : exists j m m', j = JArr [JObj [("primitives", JArr [JObj [("material", JInt 7)]; JObj [("attributes", JObj [("POSITION", JInt 0)])]])]%string] /\
  twice "meshes" j = Ok (m, m') /\ map (fun x => map pr_material (me_primitives x)) (meshes m) = [[-1]].
Proof. do 3 eexists. split; [reflexivity|]. split; [vm_compute; reflexivity|]. repeat split; reflexivity. Qed.

(** * Examples *)

(** [stable] can be met: the identity, and any rounding that is done once. *)
Example C97_stable_example : stable (fun q => q) (fun q => q) /\ lens_ok (fun q => q) (fun q => q) (Camera "perspective" "front" (Perspective (4 # 3) 1 100 (1 # 10) [] VNull) new_orthographic [] VNull).
Proof. split; [split; reflexivity|]. intros _. split; [reflexivity|]. right. reflexivity. Qed.
Definition round_trip (m : model) : res model :=
  let* (fs', j) := save disk (lit "/d/a.gltf") m in load_from fs' (through_text (fun q => q) j).
Example C97_sample_example : exists m', round_trip sample = Ok m' /\
  map ac_max (accessors m') = [[1; 1; 1 # 2]%Q] /\ map bu_data (buffers m') = [[1; 2; 3; 4]] /\ map an_name (animations m') = ["move"%string] /\
  map (fun x => map fst (ma_values x)) (materials m') = [["baseColorFactor"; "baseColorTexture"; "metallicFactor"]%string] /\
  map li_name (lights m') = ["sun"%string] /\ m_extras m' = VObject [("made", VInt 2018)]%string.
Proof. eexists. split; [vm_compute; reflexivity|]. repeat split; reflexivity. Qed.
(** With an image beside it. *)
Definition with_image : files := fun p => if text_eqb p (lit "/d/i.png") then Some [137; 80] else None.
Definition decode_one (b : list Z) : option (Z * Z * Z * list Z) := match b with [137; 80] => Some (1, 1, 3, [9; 8; 7]) | _ => None end.
Example C97_image_example :
  Forall2 (picture with_image (lit "/d") decode_one)
    [Image "i" (-1) "" "i.png" None VNull; Image "j" (-1) "" "j.png" (Some (1, 1, 3, [0; 0; 0])) VNull] [Some (1, 1, 3, [9; 8; 7]); None].
Proof.
  constructor; [|constructor; [|constructor]].
  - split; [discriminate|]. split; [repeat (constructor; [unfold Uri.Spec.plain, code; vm_compute; intuition discriminate|]); constructor|]. split; [reflexivity|]. exists 1, 1, 3, [9; 8; 7]. repeat split; discriminate.
  - split; [discriminate|]. split; [repeat (constructor; [unfold Uri.Spec.plain, code; vm_compute; intuition discriminate|]); constructor|]. split; reflexivity.
Qed.
Example C97_broken_example : broken (Model [] [] [] [] [] [] [] [] [] [] [] [] [] [] [] (-1) [] [] an_asset VNull) /\
  exists j, save disk (lit "/d/a.gltf") (Model [] [] [] [] [] [] [] [] [] [] [] [] [] [] [] (-1) [] [] an_asset VNull) = Ok (disk, j).
Proof. split; [apply no_scenes; reflexivity|]. eexists. reflexivity. Qed.

Print Assumptions C97_reload.
Print Assumptions C97_again.
Print Assumptions C97_unloadable.
Print Assumptions C97_stride.
Print Assumptions C97_stride_refuted.
Print Assumptions C97_lost_refuted.
Print Assumptions C97_unlit_refuted.
Print Assumptions C97_parameter_refuted.
Print Assumptions C97_extras_refuted.
Print Assumptions C97_primitive_refuted.
