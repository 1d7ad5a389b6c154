(** Vocabulary for the GLB properties: the file format, what a view denotes, the file
    system before and after, and the contracts of the text and image formats. *)
From Coq Require Import List ZArith QArith String Ascii.
From Verif.Base Require Import Py Fs.
From Verif.Mesh Require Import Model.
From Verif.Gltf Require Import Model Spec.
From Verif.Glb Require Import Model.
Import ListNotations.
Local Open Scope string_scope.
Local Open Scope list_scope.
Local Open Scope Z_scope.

(** ** The format *)

(** A 32-bit number, least significant byte first. *)
Definition le32 (n : Z) : bytes := [n mod 256; n / 256 mod 256; n / 65536 mod 256; n / 16777216 mod 256].

(** "glTF", version 2, the length of the file; the JSON chunk; the BIN chunk. *)
Definition glb_file (glb text bin : bytes) : Prop :=
  glb = [103; 108; 84; 70] ++ le32 2 ++ le32 (size glb) ++
        le32 (size text) ++ [74; 83; 79; 78] ++ text ++
        le32 (size bin) ++ [66; 73; 78; 0] ++ bin /\
  size glb < 4294967296 /\ size text mod 4 = 0 /\ size bin mod 4 = 0.

(** [x] followed by at most three spaces. *)
Definition padded (x y : bytes) : Prop := exists n, (n < 4)%nat /\ y = x ++ repeat 32 n.

(** [x] lies at offset [o] of [b]. *)
Definition lies_at (b : bytes) (o : Z) (x : bytes) : Prop :=
  exists pre post, b = pre ++ x ++ post /\ size pre = o.

(** The view denotes the bytes [x] of buffer content [b]. *)
Definition denotes (b : bytes) (v : jview) (x : bytes) : Prop :=
  lies_at b (match jv_offset v with Some o => o | None => 0 end) x /\ jv_length v = size x.

(** ** What packing does to a document *)

(** The contents of the buffers, one for each. *)
Definition contents (file : string -> res bytes) (bs : list jbuffer) (cs : list bytes) : Prop :=
  Forall2 (fun b c => exists u, jb_uri b = Some u /\ file u = Ok c) bs cs.

Definition readable_image (file : string -> res bytes) (i : jimage) : Prop :=
  exists u c, ji_uri i = Some u /\ u <> "" /\ file u = Ok c.

Section Packed.
  Context {R : Type}.
  Variables (file : string -> res bytes) (guess_type : string -> option string).

  (** [d'] with the single body [bin] says the same as [d] with its files. *)
  Definition same_document (d : doc R) (cs : list bytes) (d' : doc R) (bin : bytes) : Prop :=
    d_rest d' = d_rest d /\
    (exists bs, d_buffers d' = Some (JBuffer None (Some (size bin)) :: bs) /\ S (List.length bs) = List.length cs) /\
    exists vs vs', d_views d = Some vs /\ d_views d' = Some vs' /\
      (forall k v b c x, nth_error vs k = Some v -> jv_buffer v = Some (Z.of_nat b) -> nth_error cs b = Some c -> denotes c v x ->
         jv_offset v <> None \/ b = O ->
         exists v', nth_error vs' k = Some v' /\ jv_buffer v' = Some 0 /\ denotes bin v' x /\
           jv_stride v' = jv_stride v /\ jv_target v' = jv_target v) /\
      match d_images d with
      | None => d_images d' = None /\ List.length vs' = List.length vs
      | Some is => exists is', d_images d' = Some is' /\ List.length is' = List.length is /\
          List.length vs' = (List.length vs + List.length is)%nat /\
          forall k i, nth_error is k = Some i -> exists i' u c v' x,
            ji_uri i = Some u /\ file u = Ok c /\
            nth_error is' k = Some i' /\ ji_uri i' = None /\ ji_mime i' = Some (guess_type u) /\
            ji_view i' = Some (Z.of_nat (List.length vs + k)) /\ nth_error vs' (List.length vs + k) = Some v' /\
            jv_buffer v' = Some 0 /\ denotes bin v' x /\ padded c x
      end.
End Packed.

(** ** The contracts *)

(** Every parameter has an array or indices, not just a number. *)
Definition plain_param (p : param) : Prop :=
  number_value p = 0%Q /\ (number_array p = [] \/ json p = []) /\ NoDup (map fst (json p)).
Definition plain_material (m : material) : Prop :=
  NoDup (map fst (values m)) /\ Forall (fun kp => plain_param (snd kp)) (values m).

(** A material with a name or a parameter. *)
Definition has_material (m : material) : Prop := name m <> "" \/ values m <> [].

(** What tinygltf takes: the types SCALAR, VEC2, VEC3, VEC4, MAT2, MAT3, MAT4 and the
    component types BYTE to DOUBLE; -1 stands for nothing. *)
Definition fine_accessor (a : accessor) : Prop :=
  In (a_type a) [65; 2; 3; 4; 34; 35; 36] /\ 5120 <= a_component a <= 5130 /\ 0 <= a_count a /\ 0 <= a_offset a.
Definition fine_primitive (p : primitive) : Prop :=
  attributes p <> [] /\ NoDup (map fst (attributes p)) /\ -1 <= p_indices p /\ -1 <= p_material p.

(** What the text formats keep.  Sections must not be empty (a missing one is an
    error), and neither may the node list of a scene, the primitives of a mesh or the
    attributes of a primitive. *)
Definition writable (g : gmodel) : Prop :=
  accessors g <> [] /\ nodes g <> [] /\ scenes g <> [] /\
  Forall fine_accessor (accessors g) /\ Forall (fun s => s <> []) (scenes g) /\
  Forall (fun m => m <> [] /\ Forall fine_primitive m) (meshes g) /\
  Forall (fun t => -1 <= sampler t) (textures g) /\ -1 <= defaultScene g.

(** A document with nothing in [d_rest] that is written elsewhere. *)
Definition proper (d : doc gmodel) : Prop :=
  (exists b bs, d_buffers d = Some (b :: bs)) /\ (exists v vs, d_views d = Some (v :: vs)) /\
  buffers (d_rest d) = [] /\ views (d_rest d) = [] /\ images (d_rest d) = [] /\
  writable (d_rest d) /\ Forall plain_material (materials (d_rest d)).

(** tinygltf's writer followed by json.loads, and json.dumps (with the padding)
    followed by tinygltf's reader, give the document back (numbers are ones a double
    holds; the order of keys is not kept, and not looked at). *)
Definition json_ok (write_json : doc gmodel -> bytes) (loads : bytes -> option (doc gmodel))
                   (dumps : doc gmodel -> bytes) (parse : bytes -> option (doc gmodel)) : Prop :=
  forall d, proper d -> loads (write_json d) = Some d /\
    dumps d <> [] /\ forall y, padded (dumps d) y -> parse y = Some d.

(** cv::imwrite to a .png file and stbi, which stops at the end of the picture. *)
Definition png_ok (encode : string -> mat3b -> option bytes) (decode : bytes -> option (Z * Z * Z * bytes)) : Prop :=
  forall u m, is_image m -> data m <> [] ->
    exists b, encode (u ++ ".png")%string m = Some b /\ forall y, padded b y -> decode y = Some (cols m, rows m, 3, data m).

(** ** File systems *)

(** Nothing but the file at [l] differs. *)
Definition same_but {A} (l : list string) (s s' : fs A) : Prop :=
  cwd s' = cwd s /\ (forall l', l' <> l -> dget loc_eqb l' (files s') = dget loc_eqb l' (files s)) /\
  (forall l', isdir_at s' l' = isdir_at s l').
Definition unchanged {A} (s s' : fs A) : Prop :=
  cwd s' = cwd s /\ (forall l, dget loc_eqb l (files s') = dget loc_eqb l (files s)) /\
  (forall l, isdir_at s' l = isdir_at s l).

(** Components that are names. *)
Definition names (l : list string) : Prop := Forall (fun x => x <> "." /\ x <> "..") l.

(** What tempfile.mkdtemp finds: a name under which there is nothing. *)
Definition fresh {A} (s : fs A) (temp : list string) : Prop :=
  temp <> [] /\ names temp /\
  (forall l, above temp l = true -> dget loc_eqb l (files s) = None /\ isdir_at s l = false) /\
  isdir_at s (removelast temp) = true /\ above temp (cwd s) = false.

(** Same geometry, coordinates and images. *)
Definition same_shape (m m' : pmesh) : Prop := geo m' = geo m /\ tex m' = tex m.

(** A view as this code makes them: into the one buffer, with a stride and target glTF
    allows. *)
Definition stored_view (v : view) : Prop :=
  v_buffer v = 0 /\ 0 <= v_offset v /\
  (v_stride v = 0 \/ (4 <= v_stride v <= 252 /\ v_stride v mod 4 = 0)) /\
  (v_target v = 34962 \/ v_target v = 34963 \/ v_target v = 0).

(** An image in memory, to be saved as a .png file. *)
Definition png_image (i : image) : Prop :=
  (exists nm, uri i = (nm ++ ".png")%string) /\ pixels i <> [] /\
  exists m, cvImageFromImage i = Ok m /\ is_image m /\ data m <> [].

(** A model with one buffer, with everything in it that saving needs. *)
Definition packable (g : gmodel) : Prop :=
  (exists b, buffers g = [b] /\ b <> []) /\
  views g <> [] /\ Forall stored_view (views g) /\ writable g /\ Forall plain_material (materials g) /\
  NoDup (map uri (images g)) /\ Forall png_image (images g).

(** The current folder exists. *)
Definition sane {A} (s : fs A) : Prop := names (cwd s) /\ isdir_at s (cwd s) = true.

(** A place where a file can be written. *)
Definition can_write {A} (s : fs A) (l : list string) : Prop :=
  l <> [] /\ names l /\ isdir_at s (removelast l) = true /\ isdir_at s l = false.

(** The name [root].glb, where [root] does not consist of dots only (".glb" has no
    extension). *)
Definition glb_name (f root : string) : Prop :=
  f = (root ++ ".glb")%string /\ exists c, In c (list_ascii_of_string root) /\ c <> "."%char.
