(** Model of /repo/sumo-api/sumo/threedee/glb_converter.pyx (gltf2glb), of save_as_gltf
    and save_as_glb (gltf_model.pyx), and of the parts of tiny_gltf/tiny_gltf.h that
    write the .gltf file and read the .glb file.
    A glTF document is a record: its buffers, buffer views and images, and [rest] for
    everything the converter copies.  Text formats (json.dumps, json.loads and
    tinygltf's JSON) and image formats (cv::imwrite, stbi) are arguments; their
    contract is in Glb/Spec.v.  A URI is one path component.  The keys "buffers" and
    "bufferViews" are present; null stands for an empty list, as tinygltf writes it. *)
From Coq Require Import List Bool ZArith QArith String.
From Verif.Base Require Import Py Fs.
From Verif.Mesh Require Import Model.
From Verif.Gltf Require Import Model.
Import ListNotations.
Local Open Scope string_scope.
Local Open Scope Z_scope.

Definition bytes := list Z.

(** The JSON objects, with the keys used: absent is [None]. *)
Record jbuffer := JBuffer { jb_uri : option string; jb_length : option Z }.
Record jview := JView { jv_buffer : option Z; jv_offset : option Z; jv_length : Z; jv_stride : Z; jv_target : Z }.
Record jimage := JImage { ji_uri : option string; ji_view : option Z; ji_mime : option (option string) }.
Record doc (R : Type) := Doc { d_buffers : option (list jbuffer); d_views : option (list jview); d_images : option (list jimage); d_rest : R }.
Arguments Doc {R}. Arguments d_buffers {R}. Arguments d_views {R}. Arguments d_images {R}. Arguments d_rest {R}.

(** ** The converter *)

(** BodyEncoder: body_length and the parts, glb_converter.pyx 22-36. *)
Record body := Body { body_length : Z; body_parts : list (Z * bytes) }.

(** (n + 3) & ~3 *)
Definition align (n : Z) : Z := Z.land (n + 3) (Z.lnot 3).
(** Space bytes up to the next multiple of 4, 53-56 and 96-100. *)
Definition pad (b : bytes) : bytes := (b ++ repeat 32 (Z.to_nat (align (size b) - size b)))%list.

(** add_to_body, 50-64, after reading the file. *)
Definition add_to_body (st : body) (buf : bytes) : body * Z * Z :=
  let buf := pad buf in
  (Body (body_length st + size buf) (body_parts st ++ [(body_length st, buf)])%list, body_length st, size buf).

(** struct.pack('<I', n); struct.error is OverflowError here. *)
Definition pack (n : Z) : res bytes :=
  if (0 <=? n) && (n <? 4294967296) then Ok (word_bytes n) else Err OverflowError.

(** export_string, 93-127. *)
Definition export_string (header : bytes) (st : body) : res bytes :=
  let header := pad header in
  let file_len := 12 + 8 + size header + 8 + body_length st in
  let* m := pack 1179937895 in
  let* v := pack 2 in
  let* l := pack file_len in
  let* h := pack (size header) in
  let* j := pack 1313821514 in
  let* b := pack (body_length st) in
  let* n := pack 5130562 in
  Ok (m ++ v ++ l ++ h ++ j ++ header ++ b ++ n ++ flat_map snd (body_parts st))%list.

Section Convert.
  Context {R : Type}.
  (** Reading a file next to the .gltf file, mimetypes.guess_type and json.dumps. *)
  Variables (file : string -> res bytes) (guess_type : string -> option string) (dumps : doc R -> bytes).

  (** The loop over the buffers, 163-182: the new entries, and the offset of each
      buffer (buffer_map). *)
  Fixpoint pack_buffers (st : body) (offset : Z) (bs : list jbuffer) : res (body * Z * list (jbuffer * Z)) :=
    match bs with
    | [] => Ok (st, offset, [])
    | b :: bs =>
        match jb_uri b with
        | None => Err KeyError
        | Some uri =>
            let* buf := file uri in
            let '(st, _, length) := add_to_body st buf in
            let* (st, last, out) := pack_buffers st (offset + length) bs in
            Ok (st, last, (JBuffer None (Some length), offset) :: out)
        end
    end.

  (** buffer_map[i] *)
  Definition buffer_map (offsets : list Z) (i : Z) : option Z :=
    if (i <? 0) then None else nth_error offsets (Z.to_nat i).

  (** One buffer view, 184-193: a missing key means offset 0. *)
  Definition move_view (offsets : list Z) (v : jview) : jview :=
    let new := match jv_offset v, jv_buffer v with
               | Some o, Some b => match buffer_map offsets b with Some base => o + base | None => 0 end
               | _, _ => 0
               end in
    JView (Some 0) (Some new) (jv_length v) (jv_stride v) (jv_target v).

  (** The loop over the images, 195-220 (buffer_map, buffer_index, buffer_offset and
      buffer_length are assigned there but not read again). *)
  Fixpoint pack_images (st : body) (views : list jview) (is : list jimage) : res (body * list jview * list jimage) :=
    match is with
    | [] => Ok (st, views, [])
    | i :: is =>
        match ji_uri i with
        | None => Err KeyError
        | Some uri =>
            if String.eqb uri "" then Err ValueError
            else
              let* buf := file uri in
              let '(st, offset, length) := add_to_body st buf in
              let v := JView (Some 0) (Some offset) length 0 0 in
              let i := JImage None (Some (size views)) (Some (guess_type uri)) in
              let* (st, views, out) := pack_images st (views ++ [v])%list is in
              Ok (st, views, i :: out)
        end
    end.

  (** gltf2glb on the document, 159-227: the new document and the body. *)
  Definition pack_doc (d : doc R) : res (doc R * body) :=
    match d_buffers d with
    | None => Err TypeError
    | Some bs =>
        let* (st, _, out) := pack_buffers (Body 0 []) 0 bs in
        match d_views d with
        | None => Err TypeError
        | Some vs =>
            let vs := map (move_view (map snd out)) vs in
            let* (st, vs, is) :=
              match d_images d with
              | None => Ok (st, vs, None)
              | Some is => let* (st, vs, is) := pack_images st vs is in Ok (st, vs, Some is)
              end in
            match map fst out with
            | [] => Err IndexError
            | b :: bs => Ok (Doc (Some (JBuffer (jb_uri b) (Some (body_length st)) :: bs)) (Some vs) is (d_rest d), st)
            end
        end
    end.

  (** The document and the bytes to be written, 159-231. *)
  Definition convert (d : doc R) : res (doc R * bytes) :=
    let* (d, st) := pack_doc d in
    let* glb := export_string (dumps d) st in
    Ok (d, glb).
End Convert.

(** ** Files *)

(** A material parameter as SerializeParameterMap writes and ParseParameterProperty
    reads it, tiny_gltf.h 4016-4044 and 2166-2202.  has_number_value is false (GltfModel.cpp
    never sets it), so a parameter that only has a number is written as a boolean.
    string_value is empty. *)
Definition write_param (p : param) : param :=
  match number_array p, json p with
  | [], j => Param [] 0%Q j
  | a, _ => Param a 0%Q []
  end.
Definition write_material (m : material) : material :=
  Material (name m) (map (fun kp => (fst kp, write_param (snd kp))) (values m)).

(** A material without name and parameters is written as null, tiny_gltf.h 4234-4254. *)
Definition null_material (m : material) : bool :=
  match name m, values m with "", [] => true | _, _ => false end.

(** Everything but buffers, views and images, as written.  (additionalValues, where
    ParseMaterial also puts the name, is not modelled.) *)
Definition skeleton (g : gmodel) : gmodel :=
  GModel [] [] (accessors g) (meshes g) (nodes g) (scenes g) (defaultScene g) (map write_material (materials g)) [] (textures g) (samplers g).

(** The document WriteGltfSceneToFile makes, tiny_gltf.h 4464-4566 with 4179-4232: all
    buffers get the same file name; an offset 0 is left out, and so are a stride below 4 and other targets.
    UpdateImageObject does nothing (TINYGLTF_NO_STB_IMAGE_WRITE, GltfModel.cpp 17). *)
Definition to_doc (g : gmodel) (bin : string) : doc gmodel :=
  Doc (match buffers g with [] => None | bs => Some (map (fun b => JBuffer (Some bin) (Some (size b))) bs) end)
      (match views g with
       | [] => None
       | vs => Some (map (fun v => JView (Some (v_buffer v)) (if 0 <? v_offset v then Some (v_offset v) else None)
                                          (v_length v) (if v_stride v <? 4 then 0 else v_stride v)
                                          (if (v_target v =? ARRAY) || (v_target v =? ELEMENT_ARRAY) then v_target v else 0)) vs)
       end)
      (match images g with [] => None | is => Some (map (fun i => JImage (Some (uri i)) None None) is) end)
      (skeleton g).

Section Files.
  (** tinygltf's JSON writer and reader, json.loads, json.dumps, the image codecs (by
      file name), mimetypes. *)
  Variables (write_json : doc gmodel -> bytes) (loads : bytes -> option (doc gmodel))
            (dumps : doc gmodel -> bytes) (parse : bytes -> option (doc gmodel))
            (encode : string -> mat3b -> option bytes) (decode : bytes -> option (Z * Z * Z * bytes))
            (guess_type : string -> option string).

  (** A loop. *)
  Fixpoint for_each {X} (f : X -> io bytes unit) (l : list X) : io bytes unit :=
    match l with [] => iret tt | x :: l => do* _ := f x in for_each f l end.

  (** ofstream: a failure to open the file is ignored; so is cv::imwrite returning false. *)
  Definition try_write (p : path) (b : bytes) : io bytes unit := fun s => (fst (write p b s), Ok tt).

  (** write_gltf_scene_to_file, gltf.pyx 79-85: each buffer is written to the one .bin
      file, then the document. *)
  Definition write_gltf_scene_to_file (g : gmodel) (folder : path) (root : string) : io bytes unit :=
    do* _ := for_each (fun b => try_write (join folder (Rel [(root ++ ".bin")%string])) b) (buffers g) in
    try_write (join folder (Rel [(root ++ ".gltf")%string])) (write_json (to_doc g (root ++ ".bin")%string)).

  (** saveImages, GltfModel.cpp 510-528. *)
  Definition save_image (folder : path) (i : image) : io bytes unit :=
    match pixels i with
    | [] => ilift (Err RuntimeError)
    | _ =>
        do* m := ilift (cvImageFromImage i) in
        if String.eqb (uri i) "" then ilift (Err InvalidArgument)
        else match encode (uri i) m with
             | None => ilift (Err RuntimeError)
             | Some b => try_write (join folder (Rel [uri i])) b
             end
    end.

  (** save_as_gltf, gltf_model.pyx 221-242. *)
  Definition save_as_gltf (g : gmodel) (folder : path) (root : string) : io bytes path :=
    do* d := isdir folder in
    if negb d then ilift (Err ValueError)
    else
      let gltf_path := join folder (Rel [(root ++ ".gltf")%string]) in
      do* _ := write_gltf_scene_to_file g folder root in
      do* f := isfile gltf_path in
      if negb f then ilift (Err IOError)
      else do* _ := for_each (save_image folder) (images g) in iret gltf_path.

  (** gltf2glb on files, 130-231.  The name ends in ".gltf".  The output is opened
      (and so emptied) before export_string runs, 89-90. *)
  Definition gltf2glb (input : path) (output : path) : io bytes unit :=
    do* text := read input in
    match loads text with
    | None => ilift (Err ValueError)
    | Some d =>
        do* (d, st) := fun s => (s, pack_doc (fun uri => snd (read (join (dirname input) (Rel [uri])) s)) guess_type d) in
        do* _ := @write bytes output [] in
        do* glb := ilift (export_string (dumps d) st) in
        write output glb
    end.

  (** save_as_glb, gltf_model.pyx 244-271; [temp] is the folder tempfile.mkdtemp makes. *)
  Definition save_as_glb (temp : list string) (g : gmodel) (p : path) : io bytes unit :=
    do* _ := mkdir_at temp in
    let '(root, extension) := splitext (basename p) in
    if negb (String.eqb extension ".glb") then ilift (Err AssertionError)
    else
      do* current_dir := getcwd in
      do* _ := chdir (Abs temp) in
      ifinally (do* gltf_path := save_as_gltf g (Abs temp) root in gltf2glb gltf_path p)
               (do* _ := rmtree (Abs temp) in chdir current_dir).

  (** ** Loading *)

  (** memcpy of 4 bytes. *)
  Definition word_at (b : bytes) (i : Z) : Z :=
    match skipn (Z.to_nat i) b with b0 :: b1 :: b2 :: b3 :: _ => bytes_word b0 b1 b2 b3 | _ => 0 end.

  (** [l .. l + n) of [b]; outside is undefined. *)
  Definition slice (b : bytes) (l n : Z) : res bytes :=
    if (0 <=? l) && (0 <=? n) && (l + n <=? size b) then Ok (firstn (Z.to_nat n) (skipn (Z.to_nat l) b)) else Err Undefined.

  (** ParseBuffer for an embedded buffer, tiny_gltf.h 2380-2459. Failing is IOError
      (gltf.pyx 76); data.at(0) throws for length 0; an external file is not modelled. *)
  Definition parse_buffer (glb : bytes) (bin_at bin_size : Z) (b : jbuffer) : res bytes :=
    match jb_length b with
    | None => Err IOError
    | Some n =>
        match jb_uri b with
        | Some _ => Err Undefined
        | None =>
            if bin_size =? 0 then Err IOError
            else if bin_size <? n then Err IOError
            else if n =? 0 then Err IndexError
            else slice glb bin_at n
        end
    end.

  (** ParseBufferView, 2484-2544. *)
  Definition parse_view (v : jview) : res view :=
    match jv_buffer v with
    | None => Err IOError
    | Some b =>
        if (252 <? jv_stride v) || negb (jv_stride v mod 4 =? 0) then Err IOError
        else Ok (View b (match jv_offset v with Some o => o | None => 0 end) (jv_length v) (jv_stride v)
                      (if (jv_target v =? ARRAY) || (jv_target v =? ELEMENT_ARRAY) then jv_target v else 0))
    end.

  (** ParseImage and the loading from a buffer view, 2238-2298, 3492-3538, 1396-1456. An
      image with a URI makes setURIs throw later. *)
  Definition parse_image (bs : list bytes) (vs : list view) (i : jimage) : res image :=
    match ji_view i, ji_uri i with
    | Some k, None =>
        if (size vs <=? k) then Err IOError
        else
          let* v := at_ vs k in
          let* b := at_ bs (v_buffer v) in
          let* data := slice b (v_offset v) (v_length v) in
          match decode data with
          | Some (w, h, c, px) => if (w <? 1) || (h <? 1) then Err IOError else Ok (Image "" w h c px)
          | None => Err IOError
          end
    | None, Some _ => Err InvalidArgument
    | _, _ => Err IOError
    end.

  Definition or_nil {X} (l : option (list X)) : list X := match l with Some l => l | None => [] end.

  (** LoadBinaryFromMemory, 3778-3849, with LoadFromString 3111-3530 (a missing section
      is part of [parse]; a material that is not an object, 3461-3466; an empty file
      makes data.at(0) throw). *)
  Definition load_binary (glb : bytes) : res gmodel :=
    if size glb =? 0 then Err IndexError
    else if size glb <? 20 then Err IOError
    else if negb (word_at glb 0 =? 1179937895) then Err IOError
    else
      let length := word_at glb 8 in
      let model_length := word_at glb 12 in
      if (size glb <? u32 (20 + model_length)) || (model_length <? 4) || negb (word_at glb 16 =? 1313821514) then Err IOError
      else
        let* text := slice glb 20 model_length in
        let bin_at := 20 + model_length + 8 in
        let bin_size := u32 (length - (20 + model_length)) in
        match parse text with
        | None => Err IOError
        | Some d =>
            let* bs := mapM (parse_buffer glb bin_at bin_size) (or_nil (d_buffers d)) in
            let* vs := mapM parse_view (or_nil (d_views d)) in
            let k := d_rest d in
            let* _ := if existsb null_material (materials k) then Err IOError else Ok tt in
            let* is := mapM (parse_image bs vs) (or_nil (d_images d)) in
            Ok (GModel bs vs (accessors k) (meshes k) (nodes k) (scenes k) (defaultScene k) (materials k) is (textures k) (samplers k))
        end.

  (** load_binary_from_file, gltf.pyx 55-77. *)
  Definition load_from_glb (p : path) : io bytes gmodel :=
    do* glb := read p in
    ilift (let* g := load_binary glb in setURIs g ".png").
End Files.
