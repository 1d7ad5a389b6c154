(** Model of /repo/sumo-api/sumo/threedee/GltfModel.h, GltfModel.cpp and
    gltf_model.pyx: building a glTF model from meshes, reading meshes back and
    changing materials.
    Floats are their 32-bit patterns, so storing them is exact.  A buffer is a list
    of bytes.  std::map is an association list.  Fields that no function here reads
    (accessor minima and maxima, image names, extras, extensions) are left out, and
    int and size_t are unbounded.  Reading outside a buffer is [Undefined].  An
    exception is an error value and the half-changed model is not kept. *)
From Coq Require Import List Bool ZArith QArith String Decimal DecimalString.
From Verif.Base Require Import Py.
From Verif.Mesh Require Import Model.
Import ListNotations.
Local Open Scope string_scope.
Local Open Scope Z_scope.

Definition word := Z.
Definition vec3 : Type := word * word * word.
Definition vec2 : Type := word * word.

(** cv::Mat3b *)
Record mat3b := Mat3b { rows : Z; cols : Z; data : list Z }.
Definition no_image : mat3b := Mat3b 0 0 [].
Definition empty (i : mat3b) : bool := match data i with [] => true | _ => false end.

(** tinygltf::Parameter, Material; tiny_gltf.h 363-403. *)
Record param := Param { number_array : list Q; number_value : Q; json : list (string * Z) }.
Record material := Material { name : string; values : list (string * param) }.

(** A Mesh or (with [tex]) a TexturedMesh with its material: Mesh.h 210-214,
    TexturedMesh.h 30-31. *)
Record pmesh := PMesh { geo : mesh vec3 vec3; mat : material; tex : option (list vec2 * mat3b * mat3b) }.

(** tinygltf structures, the fields used. *)
Record view := View { v_buffer : Z; v_offset : Z; v_length : Z; v_stride : Z; v_target : Z }.
Record accessor := Accessor { a_count : Z; a_offset : Z; a_view : Z; a_component : Z; a_type : Z }.
Record primitive := Primitive { attributes : list (string * Z); p_indices : Z; p_material : Z; p_mode : Z }.
Record image := Image { uri : string; width : Z; height : Z; component : Z; pixels : list Z }.
Record texture := Texture { source : Z; sampler : Z }.
Record gmodel := GModel {
  buffers : list (list Z); views : list view; accessors : list accessor;
  meshes : list (list primitive); nodes : list Z; scenes : list (list Z); defaultScene : Z;
  materials : list material; images : list image; textures : list texture; samplers : list unit }.

Definition empty_model : gmodel := GModel [] [] [] [] [] [] (-1) [] [] [] [].

(** How a type lies in memory, with the glTF constants for it: ComponentType
    GltfModel.cpp 27-41, completeAccessor 79-127, the strides 165-180. *)
Record layout (A : Type) := Layout {
  width_of : Z; bytes_of : A -> list Z; of_bytes : list Z -> option A;
  component_of : Z; type_of : Z; stride_of : Z }.
Arguments Layout {A}. Arguments width_of {A}. Arguments bytes_of {A}. Arguments of_bytes {A}.
Arguments component_of {A}. Arguments type_of {A}. Arguments stride_of {A}.

(** Little-endian words. *)
Definition word_bytes (w : word) : list Z := [w mod 256; w / 256 mod 256; w / 65536 mod 256; w / 16777216 mod 256].
Definition bytes_word (b0 b1 b2 b3 : Z) : word := b0 + 256 * b1 + 65536 * b2 + 16777216 * b3.

Definition UNSIGNED_SHORT := 5123.
Definition UNSIGNED_INT := 5125.
Definition FLOAT := 5126.

Definition uint_layout : layout word :=
  Layout 4 word_bytes (fun b => match b with [b0; b1; b2; b3] => Some (bytes_word b0 b1 b2 b3) | _ => None end)
         UNSIGNED_INT 65 0.
Definition ushort_layout : layout word :=
  Layout 2 (fun w => [w mod 256; w / 256 mod 256]) (fun b => match b with [b0; b1] => Some (b0 + 256 * b1) | _ => None end)
         UNSIGNED_SHORT 65 0.
Definition vec3_layout : layout vec3 :=
  Layout 12 (fun v => let '(x, y, z) := v in (word_bytes x ++ word_bytes y ++ word_bytes z)%list)
         (fun b => match b with
                   | [x0; x1; x2; x3; y0; y1; y2; y3; z0; z1; z2; z3] =>
                       Some (bytes_word x0 x1 x2 x3, bytes_word y0 y1 y2 y3, bytes_word z0 z1 z2 z3)
                   | _ => None end)
         FLOAT 3 12.
Definition vec2_layout : layout vec2 :=
  Layout 8 (fun v => let '(x, y) := v in (word_bytes x ++ word_bytes y)%list)
         (fun b => match b with
                   | [x0; x1; x2; x3; y0; y1; y2; y3] => Some (bytes_word x0 x1 x2 x3, bytes_word y0 y1 y2 y3)
                   | _ => None end)
         FLOAT 2 0.

(** ** Adding *)

(** reallyAddToBuffer, 43-56. *)
Definition reallyAddToBuffer (g : gmodel) (raw : list Z) : res (gmodel * Z) :=
  match buffers g with
  | [] => Err AssertionError
  | b :: bs =>
      Ok (GModel ((b ++ raw)%list :: bs) (views g) (accessors g) (meshes g) (nodes g) (scenes g) (defaultScene g)
                 (materials g) (images g) (textures g) (samplers g), size b)
  end.

(** pushData, 182-188, with addDataToBuffer 58-77 (the Vector3f version reads
    values[0], which must exist), reallyAddBufferView 149-163, addAccessor 141-147
    and the accessor constructor 129-139. *)
Definition pushData {A} (L : layout A) (first_read : bool) (target : Z) (g : gmodel) (vals : list A) : res (gmodel * Z) :=
  if first_read && (size vals =? 0) then Err Undefined
  else
    let* (g, byteOffset) := reallyAddToBuffer g (flat_map (bytes_of L) vals) in
    let numBytes := size vals * width_of L in
    let v := View 0 byteOffset numBytes (stride_of L) target in
    let a := Accessor (size vals) 0 (size (views g)) (component_of L) (type_of L) in
    Ok (GModel (buffers g) (views g ++ [v])%list (accessors g ++ [a])%list (meshes g) (nodes g) (scenes g) (defaultScene g)
               (materials g) (images g) (textures g) (samplers g), size (accessors g)).

Definition ELEMENT_ARRAY := 34963.
Definition ARRAY := 34962.
Definition TRIANGLES := 4.

(** The first lines of addPrimitiveMesh, 257-264. *)
Definition ensure (g : gmodel) : gmodel :=
  GModel (match buffers g with [] => [[]] | b => b end) (views g) (accessors g) (meshes g) (nodes g)
         (match scenes g with [] => [[]] | s => s end) 0 (materials g) (images g) (textures g) (samplers g).

(** scenes[0].nodes.push_back *)
Definition add_node (s : list (list Z)) (n : Z) : list (list Z) :=
  match s with [] => [] | x :: s => (x ++ [n])%list :: s end.

(** addPrimitiveMesh, 254-300. *)
Definition addPrimitiveMesh (g : gmodel) (m : pmesh) : res gmodel :=
  let g := ensure g in
  let* (g, i) := pushData uint_layout false ELEMENT_ARRAY g (indices (geo m)) in
  let* (g, v) := pushData vec3_layout true ARRAY g (vertices (geo m)) in
  let* (g, n) := pushData vec3_layout true ARRAY g (normals (geo m)) in
  let p := Primitive (sset "NORMAL" n (sset "POSITION" v [])) i (size (materials g)) TRIANGLES in
  Ok (GModel (buffers g) (views g) (accessors g) (meshes g ++ [[p]])%list (nodes g ++ [size (meshes g)])%list
             (add_node (scenes g) (size (nodes g))) (defaultScene g)
             (materials g ++ [mat m])%list (images g) (textures g) (samplers g)).

(** to_string(n) + ".png", 193 *)
Definition png (n : Z) : string := (NilZero.string_of_uint (Nat.to_uint (Z.to_nat n)) ++ ".png")%string.

(** addTexture, 190-213.  Copies rows*cols*3 bytes. *)
Definition addTexture (g : gmodel) (i : mat3b) : gmodel * Z :=
  let img := Image (png (size (images g))) (cols i) (rows i) 3 (firstn (Z.to_nat (cols i * rows i * 3)) (data i)) in
  (GModel (buffers g) (views g) (accessors g) (meshes g) (nodes g) (scenes g) (defaultScene g)
          (materials g) (images g ++ [img])%list (textures g ++ [Texture (size (images g)) 0])%list (samplers g),
   size (textures g)).

(** Replacing the last element: pop_back; push_back. *)
Definition set_last {A} (l : list A) (x : A) : list A := (removelast l ++ [x])%list.

(** The two texture blocks of addTexturedPrimitiveMesh, 323-346. *)
Definition add_map (key : string) (t : mat3b) (gm : gmodel * material) : res (gmodel * material) :=
  let '(g, mt) := gm in
  if empty t then Ok (g, mt)
  else if smem key (values mt) then
    let (g, id) := addTexture g t in
    Ok (g, Material (name mt) (sset key (Param [] 0%Q [("index", id)]) (values mt)))
  else Err RuntimeError.

(** addTexturedPrimitiveMesh, 302-361. *)
Definition addTexturedPrimitiveMesh (g : gmodel) (m : pmesh) (uv : list vec2) (color rough : mat3b) : res gmodel :=
  let* g := addPrimitiveMesh g m in
  let* (g, u) := pushData vec2_layout false ARRAY g uv in
  let p := match last (meshes g) [] with p :: _ => p | [] => Primitive [] 0 0 0 end in
  let p := Primitive (sset "TEXCOORD_0" u (attributes p)) (p_indices p) (p_material p) (p_mode p) in
  let g := GModel (buffers g) (views g) (accessors g) (set_last (meshes g) [p]) (nodes g) (scenes g) (defaultScene g)
                  (materials g) (images g) (textures g) (samplers g) in
  let* gm := add_map "baseColorTexture" color (g, mat m) in
  let* gm := add_map "metallicRoughnessTexture" rough gm in
  let '(g, mt) := gm in
  Ok (GModel (buffers g) (views g) (accessors g) (meshes g) (nodes g) (scenes g) (defaultScene g)
             (set_last (materials g) mt) (images g) (textures g)
             (match samplers g with [] => [tt] | s => s end)).

(** add_mesh, gltf_model.pyx 183-190. *)
Definition add_mesh (g : gmodel) (m : pmesh) : res gmodel :=
  match tex m with
  | Some (uv, color, rough) => addTexturedPrimitiveMesh g m uv color rough
  | None => addPrimitiveMesh g m
  end.

(** ** Extracting *)

(** The j-th element, GltfModel.h 225-231; the bounds test there is on the count. *)
Definition element {A} (L : layout A) (b : list Z) (start j : Z) : res A :=
  if (start + (j + 1) * width_of L <=? size b) && (0 <=? start) then
    match of_bytes L (firstn (Z.to_nat (width_of L)) (skipn (Z.to_nat (start + j * width_of L)) b)) with
    | Some x => Ok x
    | None => Err Undefined
    end
  else Err Undefined.

(** getAccessor 277-283, calculatePointer 247-265, asVector 234-240. *)
Definition getVector {A} (L : layout A) (g : gmodel) (i : Z) : res (list A) :=
  if (i <? 0) || (size (accessors g) <=? i) then Err InvalidArgument
  else
    let* a := at_ (accessors g) i in
    if size (views g) <=? a_view a then Err InvalidArgument
    else
      let* v := at_ (views g) (a_view a) in
      if size (buffers g) <=? v_buffer v then Err InvalidArgument
      else
        let* b := at_ (buffers g) (v_buffer v) in
        mapM (fun j => element L b (v_offset v + a_offset a) (Z.of_nat j)) (seq 0 (Z.to_nat (a_count a))).

(** getAccessorType, GltfModel.cpp 649-654. *)
Definition getAccessorType (g : gmodel) (i : Z) : res Z :=
  if (i <? 0) || (size (accessors g) <=? i) then Err InvalidArgument
  else let* a := at_ (accessors g) i in Ok (a_component a).

(** numPrimitiveMeshes 363-372 and getPrimitiveMesh 374-388: the loops run through the
    primitives mesh by mesh. *)
Definition primitives (g : gmodel) : list primitive := List.concat (meshes g).
Definition getPrimitiveMesh (g : gmodel) (k : nat) : res primitive :=
  match nth_error (primitives g) k with Some p => Ok p | None => Err RuntimeError end.

(** map::at *)
Definition atE {A} (k : string) (d : list (string * A)) : res A :=
  match sget k d with Some x => Ok x | None => Err IndexError end.

(** The material lookup, 418-425 and 452-459. *)
Definition material_at (g : gmodel) (i : Z) : res material :=
  if (i <? 0) || (size (materials g) <=? i) then Err RuntimeError else at_ (materials g) i.

(** extractPrimitiveMesh, 390-429. *)
Definition extractPrimitiveMesh (g : gmodel) (k : nat) : res (mesh vec3 vec3 * material) :=
  let* p := getPrimitiveMesh g k in
  let* ty := getAccessorType g (p_indices p) in
  let* idx := if ty =? UNSIGNED_SHORT then getVector ushort_layout g (p_indices p)
              else getVector uint_layout g (p_indices p) in
  let* va := atE "POSITION" (attributes p) in
  let* vs := getVector vec3_layout g va in
  let* na := atE "NORMAL" (attributes p) in
  let* ns := getVector vec3_layout g na in
  let* mt := material_at g (p_material p) in
  Ok (Mesh idx vs ns, mt).

(** cvImageFromImage, 215-248: an alpha channel is dropped. *)
Fixpoint drop_alpha (l : list Z) : list Z :=
  match l with r :: g :: b :: _ :: l => r :: g :: b :: drop_alpha l | _ => [] end.
Definition cvImageFromImage (i : image) : res mat3b :=
  if negb (component i =? 3) && negb (component i =? 4) then Err RuntimeError
  else if negb (size (pixels i) =? width i * height i * component i) then Err RuntimeError
  else Ok (Mat3b (height i) (width i) (if component i =? 3 then pixels i else drop_alpha (pixels i))).

(** extractTexture, 250-265. *)
Definition extractTexture (g : gmodel) (id : Z) : res mat3b :=
  if (id <? 0) || (size (textures g) <=? id) then Err InvalidArgument
  else
    let* t := at_ (textures g) id in
    if size (images g) <=? source t then Err RuntimeError
    else let* i := at_ (images g) (source t) in cvImageFromImage i.

(** The two texture blocks of extractTexturedPrimitiveMesh, 462-476. *)
Definition extract_map (g : gmodel) (key : string) (mt : material) : res mat3b :=
  match sget key (values mt) with
  | Some p => let* id := atE "index" (json p) in extractTexture g id
  | None => Ok no_image
  end.

(** One turn of getPolymorphicPrimitiveMeshes, 479-496, with
    extractTexturedPrimitiveMesh, 431-477. *)
Definition extract_mesh (g : gmodel) (k : nat) : res pmesh :=
  let* p := getPrimitiveMesh g k in
  let* (m, mt) := extractPrimitiveMesh g k in
  match sget "TEXCOORD_0" (attributes p) with
  | Some u =>
      let* uv := getVector vec2_layout g u in
      let* color := extract_map g "baseColorTexture" mt in
      let* rough := extract_map g "metallicRoughnessTexture" mt in
      Ok (PMesh m mt (Some (uv, color, rough)))
  | None => Ok (PMesh m mt None)
  end.

(** primitive_meshes, gltf_model.pyx 192-197. *)
Definition primitive_meshes (g : gmodel) : res (list pmesh) :=
  mapM (extract_mesh g) (seq 0 (List.length (primitives g))).

(** extract_primitive_mesh, gltf_model.pyx 199-202: extracts them all. *)
Definition extract_primitive_mesh (g : gmodel) (k : nat) : res pmesh :=
  let* ms := primitive_meshes g in
  match nth_error ms k with Some m => Ok m | None => Err IndexError end.

(** ** Materials *)

(** The material a TexturedMesh is constructed with, TexturedMesh.cpp 31-41. *)
Definition index_param (i : Z) : param := Param [] 0%Q [("index", i)].
Definition textured_material (rough : mat3b) : material :=
  Material "" ([("baseColorTexture", index_param 0)] ++
               (if empty rough then [] else [("metallicRoughnessTexture", index_param 1)]))%list.
(** TexturedMesh and Mesh constructors (assertions: Mesh/Model.v mk_tmesh). *)
Definition new_textured (g : mesh vec3 vec3) (uv : list vec2) (color rough : mat3b) : pmesh :=
  PMesh g (textured_material rough) (Some (uv, color, rough)).
Definition new_mesh (g : mesh vec3 vec3) : pmesh := PMesh g (Material "" []) None.

(** loadTexture, GltfModel.cpp 588-628.  [file] gives the content of the file and
    [decode] the image stbi makes of it, which may be nothing (LoadImageData's result is
    ignored, and the image fields keep unknown values [decode] stands for too). *)
Section Files.
  Variables (file : string -> option (list Z)) (decode : list Z -> Z * Z * Z * list Z).

  Definition loadTexture (g : gmodel) (path dir : string) : res (gmodel * Z) :=
    match file (dir ++ "/" ++ path)%string with
    | None => Err RuntimeError
    | Some [] => Err RuntimeError
    | Some bytes =>
        let '(w, h, c, px) := decode bytes in
        let img := Image (png (size (images g))) w h c px in
        Ok (GModel (buffers g) (views g) (accessors g) (meshes g) (nodes g) (scenes g) (defaultScene g)
                   (materials g) (images g ++ [img])%list (textures g ++ [Texture (size (images g)) 0])%list (samplers g),
            size (textures g))
    end.

  (** this->meshes[meshIndex].primitives[primitiveIndex].material = m, for the
      primitive with running number [k]. *)
  Fixpoint set_material (ms : list (list primitive)) (k : nat) (mt : Z) : list (list primitive) :=
    match ms with
    | [] => []
    | ps :: ms =>
        if Nat.ltb k (List.length ps) then
          match nth_error ps k with
          | Some p => set_nth ps k (Primitive (attributes p) (p_indices p) mt (p_mode p)) :: ms
          | None => ps :: ms
          end
        else ps :: set_material ms (k - List.length ps) mt
    end.

  (** material.name = "material_" + to_string(n) *)
  Definition material_name (n : Z) : string := ("material_" ++ NilZero.string_of_uint (Nat.to_uint (Z.to_nat n)))%string.

  (** updateMaterial, 530-586. *)
  Definition updateMaterial (g : gmodel) (k : nat) (color : Q * Q * Q) (path dir : string) : res gmodel :=
    match nth_error (primitives g) k with
    | None => Err InvalidArgument
    | Some p =>
        if (p_material p <? 0) || (size (materials g) <=? p_material p) then Err RuntimeError
        else
          let* mt := at_ (materials g) (p_material p) in
          let '(r, gr, b) := color in
          let vals := if negb (Qeq_bool r 0) && negb (Qeq_bool gr 0) && negb (Qeq_bool b 0)
                      then sset "baseColorFactor" (Param [r; gr; b; 1%Q] 0%Q []) (values mt) else values mt in
          let* (g, vals) :=
            if String.eqb path "" then Ok (g, vals)
            else let* (g, t) := loadTexture g path dir in Ok (g, sset "baseColorTexture" (index_param t) vals) in
          let mt := Material (material_name (size (materials g))) vals in
          Ok (GModel (buffers g) (views g) (accessors g) (set_material (meshes g) k (size (materials g))) (nodes g)
                     (scenes g) (defaultScene g) (materials g ++ [mt])%list (images g) (textures g) (samplers g))
    end.

  (** update_materials, gltf_model.pyx 111-137. *)
  Fixpoint update_from (g : gmodel) (k : nat) (dir : string) (l : list (option ((Q * Q * Q) * string))) : res gmodel :=
    match l with
    | [] => Ok g
    | x :: l =>
        let* g := if Nat.ltb k (List.length (primitives g)) then
                    match x with
                    | Some (color, path) => updateMaterial g k color path dir
                    | None => Ok g
                    end
                  else Ok g in
        update_from g (S k) dir l
    end.
  Definition update_materials (g : gmodel) (dir : string) (l : list (option ((Q * Q * Q) * string))) : res gmodel :=
    update_from g 0 dir l.
End Files.

(** addColoredMaterial, 630-647. *)
Definition addColoredMaterial (g : gmodel) (nm : string) (color : Q * Q * Q) (metallic roughness : Q) : gmodel * Z :=
  let '(r, gr, b) := color in
  let mt := Material nm [("baseColorFactor", Param [r; gr; b; 1%Q] 0%Q []);
                         ("metallicFactor", Param [] metallic []); ("roughNessFactor", Param [] roughness [])] in
  (GModel (buffers g) (views g) (accessors g) (meshes g) (nodes g) (scenes g) (defaultScene g)
          (materials g ++ [mt])%list (images g) (textures g) (samplers g), size (materials g)).

(** Equality of two std::map: here, same size and every entry found in the other. *)
Definition map_eqb {A} (eqb : A -> A -> bool) (a b : list (string * A)) : bool :=
  (size a =? size b) &&
  forallb (fun kv => match sget (fst kv) b with Some y => eqb (snd kv) y | None => false end) a.

(** parametersEqual and the operators ==, Mesh.cpp 177-218: number_array and
    number_value are not compared.  (has_number_value, string_value and
    additionalValues are not modelled: no code here sets them.) *)
Definition parametersEqual (a b : param) : bool := map_eqb Z.eqb (json a) (json b).
Definition hasSameMaterial (a b : pmesh) : bool :=
  map_eqb parametersEqual (values (mat a)) (values (mat b)) && String.eqb (name (mat a)) (name (mat b)).

(** hasDualTextureMaterial, TexturedMesh.cpp 99-111. *)
Definition hasDualTextureMaterial (m : pmesh) : res bool :=
  match sget "baseColorTexture" (values (mat m)) with
  | None => Ok false
  | Some c =>
      let* i := atE "index" (json c) in
      if negb (i =? 0) then Ok false
      else match sget "metallicRoughnessTexture" (values (mat m)) with
           | None => Ok false
           | Some r => let* j := atE "index" (json r) in Ok (j =? 1)
           end
  end.

(** from_mesh, textured_mesh.pyx 53-70: the metallic roughness texture defaults to a
    3 by 4 black image (29). *)
Definition default_texture : mat3b := Mat3b 3 4 (repeat 0 36).
Definition from_mesh (m : mesh vec3 vec3) (c : Z * Z * Z) : pmesh :=
  let '(r, g, b) := c in
  new_textured m (map (fun _ => (0, 0)) (vertices m))
    (Mat3b 2 2 (flat_map (fun _ => [r; g; b]) (seq 0 4))) default_texture.

(** Mesh copy constructor, Mesh.h 103-106; the implicit one of TexturedMesh calls it.
    The material is not copied. *)
Definition copy_mesh (m : pmesh) : pmesh := PMesh (geo m) (Material "" []) (tex m).

(** setURIs, GltfModel.cpp 498-508. *)
Definition setURIs (g : gmodel) (ext : string) : res gmodel :=
  if forallb (fun i => String.eqb (uri i) "") (images g) then
    Ok (GModel (buffers g) (views g) (accessors g) (meshes g) (nodes g) (scenes g) (defaultScene g) (materials g)
               (map (fun ki => let '(k, i) := ki in
                      Image (NilZero.string_of_uint (Nat.to_uint k) ++ ext)%string (width i) (height i) (component i) (pixels i))
                    (combine (seq 0 (List.length (images g))) (images g)))
               (textures g) (samplers g))
  else Err InvalidArgument.

(** saveImages, 510-528: the files written, as their pixels; data() is a null
    pointer for an image without pixels.  Writing itself does not fail here. *)
Definition saveImages (g : gmodel) : res (list (string * mat3b)) :=
  foldM (fun fs i =>
    match pixels i with
    | [] => Err RuntimeError
    | _ => let* m := cvImageFromImage i in
           if String.eqb (uri i) "" then Err InvalidArgument else Ok (sset (uri i) m fs)
    end) [] (images g).
