(** Model of adding meshes to a model, saving it as .gltf and loading it, with every member
    of the tinygltf classes: /repo/sumo-api/sumo/threedee/GltfModel.cpp 27-361 and
    510-528, gltf_model.pyx 34-38, 56-70 and 175-242.
    This is Gltf/Model with the model of Doc/Model in place of the few members there; the
    text is that of Text/Model, and file names are those of Uri/Model.  Meshes hold bit
    patterns.  A bound of an accessor that is infinite is not modelled (Undefined stands
    for it).  int and size_t are unbounded.  A folder that exists can be written to.
    Accessor.normalized is not set by this code and not written. *)
From Coq Require Import List Bool ZArith QArith Ascii String.
From Verif.Base Require Import Py.
From Verif.Mesh Require Model.
From Verif.Gltf Require Model.
From Verif.Uri Require Import Model.
From Verif.Doc Require Import Model.
From Verif.Text Require Model.
Import ListNotations.
Local Open Scope Z_scope.

Notation word := Gltf.Model.word.
Notation vec3 := Gltf.Model.vec3.
Notation vec2 := Gltf.Model.vec2.
Notation mat3b := Gltf.Model.mat3b.
Notation layout := Gltf.Model.layout.
Notation len := Mesh.Model.size.
Notation at_ := Mesh.Model.at_.

(** A Mesh or (with [tex]) a TexturedMesh: Mesh.h 210-214, TexturedMesh.h 30-31. *)
Record tmesh := TMesh { geo : Mesh.Model.mesh vec3 vec3; mat : material; tex : option (list vec2 * mat3b * mat3b) }.

(** What the constructors of Mesh and TexturedMesh make: Mesh.h 92-101 and
    TexturedMesh.cpp 18-42; the assertions on the numbers of elements are in Mesh/Model. *)
Definition plain_mesh (m : Mesh.Model.mesh vec3 vec3) : tmesh := TMesh m (Material "" [] [] [] VNull) None.
Definition texture_parameter (id : Z) : parameter := Param None false "" [] [("index"%string, inject_Z id)] None.
Definition textured_mesh (m : Mesh.Model.mesh vec3 vec3) (uv : list vec2) (color rough : mat3b) : tmesh :=
  TMesh m (Material "" (("baseColorTexture"%string, texture_parameter 0) ::
             if Gltf.Model.empty rough then [] else [("metallicRoughnessTexture"%string, texture_parameter 1)]) [] [] VNull)
    (Some (uv, color, rough)).

(** GltfModel.__init__, gltf_model.pyx 34-38; defaultScene is not set before a mesh is
    added or a file loaded. *)
Definition new_model : model :=
  Model [] [] [] [] [] [] [] [] [] [] [] [] [] [] [] (-1) [] [] new_asset VNull.

(** ** Bounds *)

(** What a float holds. *)
Inductive float := Finite (q : Q) | Infinite (negative : bool) | NotANumber.
Definition float_of (w : word) : float :=
  let negative := 2147483648 <=? w in
  let e := w / 8388608 mod 256 in
  let f := w mod 8388608 in
  if e =? 255 then if f =? 0 then Infinite negative else NotANumber
  else
    let m := if e =? 0 then f else f + 8388608 in
    Finite (Qred (inject_Z (if negative then - m else m) * 2 ^ (Z.max e 1 - 150))).
(** a < b *)
Definition less (a b : float) : bool :=
  match a, b with
  | NotANumber, _ | _, NotANumber => false
  | Finite x, Finite y => negb (Qle_bool y x)
  | Finite _, Infinite n => negb n
  | Infinite n, Finite _ => n
  | Infinite n, Infinite n' => n && negb n'
  end.
(** std::min and std::max, as in the loops of completeAccessor 98-102 and 117-121; INT_MAX
    becomes the float 2^31. *)
Definition lowest (l : list word) : float :=
  fold_left (fun a w => if less (float_of w) a then float_of w else a) l (Finite 2147483648).
Definition highest (l : list word) : float :=
  fold_left (fun a w => if less a (float_of w) then float_of w else a) l (Finite (-2147483648)).
(** static_cast<double>. *)
Fixpoint finite (l : list float) : option (list Q) :=
  match l with
  | [] => Some []
  | Finite q :: l => match finite l with Some qs => Some (q :: qs) | None => None end
  | _ => None
  end.
Definition columns_bounds (cs : list (list word)) : option (list Q * list Q) :=
  match finite (map lowest cs), finite (map highest cs) with Some a, Some b => Some (a, b) | _, _ => None end.
(** completeAccessor: scalar 79-93, Vector3f 95-110, Vector2f 112-127. *)
Definition uint_bounds (l : list word) : option (list Q * list Q) :=
  Some ([inject_Z (fold_left Z.min l 2147483647)], [inject_Z (fold_left Z.max l 0)]).
Definition vec3_bounds (l : list vec3) : option (list Q * list Q) :=
  columns_bounds [map (fun v : vec3 => fst (fst v)) l; map (fun v : vec3 => snd (fst v)) l; map (fun v : vec3 => snd v) l].
Definition vec2_bounds (l : list vec2) : option (list Q * list Q) :=
  columns_bounds [map (fun v : vec2 => fst v) l; map (fun v : vec2 => snd v) l].

(** ** Adding *)

(** The model with other members. *)
Definition with_data (m : model) (bs : list buffer) (vs : list view) (acs : list accessor) : model :=
  Model acs (animations m) bs vs (materials m) (meshes m) (nodes m) (textures m) (images m) (skins m) (samplers m) (cameras m)
    (scenes m) (lights m) (extensions m) (default_scene m) (extensions_used m) (extensions_required m) (m_asset m) (m_extras m).
Definition with_scene (m : model) (mes : list mesh) (nos : list node) (scs : list scene) (ds : Z) : model :=
  Model (accessors m) (animations m) (buffers m) (views m) (materials m) mes nos (textures m) (images m) (skins m) (samplers m) (cameras m)
    scs (lights m) (extensions m) ds (extensions_used m) (extensions_required m) (m_asset m) (m_extras m).
Definition with_looks (m : model) (mas : list material) (tes : list texture) (ims : list image) (sas : list sampler) : model :=
  Model (accessors m) (animations m) (buffers m) (views m) mas (meshes m) (nodes m) tes ims (skins m) sas (cameras m)
    (scenes m) (lights m) (extensions m) (default_scene m) (extensions_used m) (extensions_required m) (m_asset m) (m_extras m).

(** pushData 182-188, with addDataToBuffer 58-77 (the Vector3f version reads values[0],
    which must exist), reallyAddToBuffer 43-56, reallyAddBufferView 149-163, addAccessor
    141-147 and the accessor constructor 129-139. *)
Definition pushData {A} (L : layout A) (bounds : list A -> option (list Q * list Q)) (first_read : bool) (target : Z)
    (m : model) (vals : list A) : res (model * Z) :=
  if first_read && (len vals =? 0) then Err Undefined
  else
    match buffers m with
    | [] => Err AssertionError
    | b :: bs =>
        match bounds vals with
        | None => Err Undefined
        | Some (lo, hi) =>
            let raw := flat_map (Gltf.Model.bytes_of L) vals in
            let v := View "" 0 (len (bu_data b)) (len vals * Gltf.Model.width_of L) (Gltf.Model.stride_of L) target VNull in
            let a := Accessor (len (views m)) "" 0 false (Gltf.Model.component_of L) (len vals) (Gltf.Model.type_of L) VNull lo hi in
            Ok (with_data m (Buffer (bu_name b) (bu_data b ++ raw) (bu_uri b) (bu_extras b) :: bs) (views m ++ [v]) (accessors m ++ [a]),
                len (accessors m))
        end
    end.

(** The first lines of addPrimitiveMesh, 257-264. *)
Definition ensure (m : model) : model :=
  with_scene (with_data m (match buffers m with [] => [Buffer "" [] "" VNull] | bs => bs end) (views m) (accessors m))
    (meshes m) (nodes m) (match scenes m with [] => [Scene "" [] [] VNull] | s => s end) 0.
(** scenes[0].nodes.push_back *)
Definition add_node (l : list scene) (n : Z) : list scene :=
  match l with [] => [] | s :: l => Scene (sc_name s) (sc_nodes s ++ [n]) (sc_extensions s) (sc_extras s) :: l end.
(** addPrimitiveMesh, 254-300. *)
Definition addPrimitiveMesh (m : model) (t : tmesh) : res model :=
  let m := ensure m in
  let* (m, i) := pushData Gltf.Model.uint_layout uint_bounds false Gltf.Model.ELEMENT_ARRAY m (Mesh.Model.indices (geo t)) in
  let* (m, v) := pushData Gltf.Model.vec3_layout vec3_bounds true Gltf.Model.ARRAY m (Mesh.Model.vertices (geo t)) in
  let* (m, n) := pushData Gltf.Model.vec3_layout vec3_bounds true Gltf.Model.ARRAY m (Mesh.Model.normals (geo t)) in
  let p := Primitive (put "NORMAL" n (put "POSITION" v [])) (len (materials m)) i Gltf.Model.TRIANGLES [] VNull in
  let m := with_scene m (meshes m ++ [Mesh "" [p] [] [] [] VNull])
             (nodes m ++ [Node (-1) "" (-1) (len (meshes m)) [] [] [] [] [] [] [] VNull])
             (add_node (scenes m) (len (nodes m))) (default_scene m) in
  Ok (with_looks m (materials m ++ [mat t]) (textures m) (images m) (samplers m)).

(** addTexture, 190-213.  Copies rows*cols*3 bytes. *)
Definition addTexture (m : model) (i : mat3b) : model * Z :=
  let w := Gltf.Model.cols i in
  let h := Gltf.Model.rows i in
  let img := Image "" (-1) "" (Gltf.Model.png (len (images m)))
               (Some (w, h, 3, firstn (Z.to_nat (w * h * 3)) (Gltf.Model.data i))) VNull in
  (with_looks m (materials m) (textures m ++ [Texture 0 (len (images m)) VNull []]) (images m ++ [img]) (samplers m),
   len (textures m)).

(** The two texture blocks of addTexturedPrimitiveMesh, 323-346. *)
Definition with_values (mt : material) (l : list (string * parameter)) : material :=
  Material (ma_name mt) l (ma_additional mt) (ma_extensions mt) (ma_extras mt).
Definition add_map (key : string) (t : mat3b) (mm : model * material) : res (model * material) :=
  let '(m, mt) := mm in
  if Gltf.Model.empty t then Ok (m, mt)
  else
    match get key (ma_values mt) with
    | None => Err RuntimeError
    | Some _ => let (m, id) := addTexture m t in Ok (m, with_values mt (put key (texture_parameter id) (ma_values mt)))
    end.

(** addTexturedPrimitiveMesh, 302-361; the sampler 349-358. *)
Definition default_sampler : sampler := Sampler "" 9986 9729 10497 10497 VNull.
Definition addTexturedPrimitiveMesh (m : model) (t : tmesh) (uv : list vec2) (color rough : mat3b) : res model :=
  let* m := addPrimitiveMesh m t in
  let* (m, u) := pushData Gltf.Model.vec2_layout vec2_bounds false Gltf.Model.ARRAY m uv in
  let e := last (meshes m) (Mesh "" [] [] [] [] VNull) in
  let* p := (match me_primitives e with p :: _ => Ok p | [] => Err Undefined end) in
  let p := Primitive (put "TEXCOORD_0" u (pr_attributes p)) (pr_material p) (pr_indices p) (pr_mode p) (pr_targets p) (pr_extras p) in
  let e := Mesh (me_name e) (removelast (me_primitives e) ++ [p]) (me_weights e) (me_targets e) (me_extensions e) (me_extras e) in
  let m := with_scene m (removelast (meshes m) ++ [e]) (nodes m) (scenes m) (default_scene m) in
  let* mm := add_map "baseColorTexture" color (m, mat t) in
  let* mm := add_map "metallicRoughnessTexture" rough mm in
  let '(m, mt) := mm in
  Ok (with_looks m (removelast (materials m) ++ [mt]) (textures m) (images m)
        (match samplers m with [] => [default_sampler] | s => s end)).

(** add_mesh, gltf_model.pyx 191-198. *)
Definition add_mesh (m : model) (t : tmesh) : res model :=
  match tex t with
  | Some (uv, color, rough) => addTexturedPrimitiveMesh m t uv color rough
  | None => addPrimitiveMesh m t
  end.

(** ** Extracting *)

(** What the functions of Gltf/Model look at.  The members of an image that was not
    loaded are not set; they are 0 here. *)
Definition view_of (v : view) : Gltf.Model.view :=
  Gltf.Model.View (vi_buffer v) (vi_offset v) (vi_length v) (vi_stride v) (vi_target v).
Definition accessor_of (a : accessor) : Gltf.Model.accessor :=
  Gltf.Model.Accessor (ac_count a) (ac_offset a) (ac_view a) (ac_component a) (ac_type a).
Definition attributes_of (l : list (string * Z)) : list (string * Z) :=
  flat_map (fun k => match get k l with Some z => [(k, z)] | None => [] end) ["POSITION"; "NORMAL"; "TEXCOORD_0"]%string.
Definition primitive_of (p : primitive) : Gltf.Model.primitive :=
  Gltf.Model.Primitive (attributes_of (pr_attributes p)) (pr_indices p) (pr_material p) (pr_mode p).
Definition param_of (p : parameter) : Gltf.Model.param :=
  Gltf.Model.Param (number_array p) (or_default 0%Q (number_value p)) (map (fun kq => (fst kq, trunc (snd kq))) (json_double_value p)).
Definition material_of (m : material) : Gltf.Model.material :=
  Gltf.Model.Material (ma_name m) (map (fun kp => (fst kp, param_of (snd kp))) (ma_values m)).
Definition image_of (i : image) : Gltf.Model.image :=
  let '(w, h, c, px) := or_default (0, 0, 0, []) (im_data i) in Gltf.Model.Image (im_uri i) w h c px.
Definition texture_of (t : texture) : Gltf.Model.texture := Gltf.Model.Texture (te_source t) (te_sampler t).
Definition seen (m : model) : Gltf.Model.gmodel :=
  Gltf.Model.GModel (map bu_data (buffers m)) (map view_of (views m)) (map accessor_of (accessors m))
    (map (fun e => map primitive_of (me_primitives e)) (meshes m)) (map no_mesh (nodes m)) (map sc_nodes (scenes m)) (default_scene m)
    (map material_of (materials m)) (map image_of (images m)) (map texture_of (textures m)) (map (fun _ => tt) (samplers m)).

(** extractPrimitiveMesh and extractTexturedPrimitiveMesh, 390-496: Gltf/Model, with the
    whole material. *)
Definition extract_mesh (m : model) (k : nat) : res tmesh :=
  let* t := Gltf.Model.extract_mesh (seen m) k in
  let* p := Gltf.Model.getPrimitiveMesh (seen m) k in
  let* mt := at_ (materials m) (Gltf.Model.p_material p) in
  Ok (TMesh (Gltf.Model.geo t) mt (Gltf.Model.tex t)).
(** primitive_meshes, gltf_model.pyx 200-205. *)
Definition primitive_meshes (m : model) : res (list tmesh) :=
  mapM (extract_mesh m) (seq 0 (List.length (Gltf.Model.primitives (seen m)))).

(** ** Files *)

(** saveImages, 510-528; [encode] is cv::cvtColor and cv::imwrite, by the extension of
    the name; nothing if it throws. *)
Definition save_image (encode : text -> mat3b -> option (list Z)) (folder : text) (fs : files) (i : image) : res files :=
  match im_data i with
  | None | Some (_, _, _, []) => Err RuntimeError
  | Some _ =>
      let* pic := Gltf.Model.cvImageFromImage (image_of i) in
      let uri := list_ascii_of_string (im_uri i) in
      match uri with
      | [] => Err InvalidArgument
      | _ =>
          match encode uri pic with
          | None => Err RuntimeError
          | Some bytes => Ok (write fs (folder ++ lit "/" ++ uri) bytes)
          end
      end
  end.
Definition saveImages (encode : text -> mat3b -> option (list Z)) (folder : text) (fs : files) (m : model) : res files :=
  foldM (save_image encode folder) fs (images m).

(** save_as_gltf, gltf_model.pyx 221-242: the files and the result.  [isdir] is
    os.path.isdir; [folder] does not end in "/". *)
Definition save_as_gltf (isdir : text -> bool) (encode : text -> mat3b -> option (list Z)) (fs : files)
    (m : model) (folder root : text) : res (files * text) :=
  if negb (isdir folder) then Err ValueError
  else
    let gltf_path := (folder ++ lit "/" ++ root ++ lit ".gltf")%list in
    let* fs := Text.Model.save_file fs gltf_path m in
    match fs gltf_path with
    | None => Err IOError
    | Some _ => let* fs := saveImages encode folder fs m in Ok (fs, gltf_path)
    end.
(** load_from_gltf, gltf_model.pyx 56-70. *)
Definition load_from_gltf (expand : text -> text) (decode : list Z -> option (Z * Z * Z * list Z)) (f32 : Q -> Q)
    (fs : files) (path : text) : res model :=
  Text.Model.load_file expand decode f32 fs path.
