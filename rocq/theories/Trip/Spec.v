(** What is asked of meshes and of the image formats, and what comes back. *)
From Coq Require Import List Bool ZArith QArith Ascii String.
From Verif.Base Require Import Py.
From Verif.Mesh Require Model.
From Verif.Gltf Require Model Spec.
From Verif.Uri Require Import Model.
From Verif.Uri Require Spec.
From Verif.Doc Require Import Model.
From Verif.Doc Require Import Spec.
From Verif.Text Require Spec.
From Verif.Trip Require Import Model.
Import ListNotations.
Local Open Scope Z_scope.

(** The bit patterns of infinity and of minus infinity. *)
Definition not_infinite (w : word) : Prop := w <> 2139095040 /\ w <> 4286578688.
Definition coordinates3 (v : vec3) : list word := let '(x, y, z) := v in [x; y; z].
Definition coordinates2 (v : vec2) : list word := let '(x, y) := v in [x; y].
Definition vec3_ok (v : vec3) : Prop := Forall (fun w => Gltf.Spec.is_word w /\ not_infinite w) (coordinates3 v).
Definition vec2_ok (v : vec2) : Prop := Forall (fun w => Gltf.Spec.is_word w /\ not_infinite w) (coordinates2 v).

(** A material: as in Doc/Spec, with doubles that 15 digits do not make infinite and
    UTF-8 strings. *)
Definition of_material (t : material) : Prop :=
  Text.Spec.utf8_string (ma_name t) /\
  Text.Spec.of_parameters Text.Spec.finite15 Text.Spec.utf8_string (ma_values t) /\
  Text.Spec.of_parameters Text.Spec.finite15 Text.Spec.utf8_string (ma_additional t) /\
  Text.Spec.of_map Text.Spec.finite15 Text.Spec.utf8_string (ma_extensions t) /\
  Text.Spec.of_value Text.Spec.finite15 Text.Spec.utf8_string (ma_extras t).
(** The material lists a texture exactly when the mesh has one. *)
Definition lists_texture (mt : material) (key : string) (i : mat3b) : Prop :=
  get key (ma_values mt) <> None <-> Gltf.Model.data i <> [].

(** Pictures that are small enough for stb_image. *)
Definition is_picture (i : mat3b) : Prop :=
  Gltf.Spec.is_image i /\ Forall (fun b => 0 <= b < 256) (Gltf.Model.data i) /\
  Gltf.Model.cols i <= 2 ^ 24 /\ Gltf.Model.rows i <= 2 ^ 24 /\ Gltf.Model.cols i * Gltf.Model.rows i * 3 <= 2 ^ 30.

(** The meshes that survive. *)
Record storable (t : tmesh) : Prop := {
  st_indices : Forall Gltf.Spec.is_word (Mesh.Model.indices (geo t));
  st_vertices : Mesh.Model.vertices (geo t) <> [] /\ Forall vec3_ok (Mesh.Model.vertices (geo t));
  st_normals : Mesh.Model.normals (geo t) <> [] /\ Forall vec3_ok (Mesh.Model.normals (geo t));
  st_material : material_ok (mat t) /\ of_material (mat t);
  st_texture :
    match tex t with
    | None => True
    | Some (uv, color, rough) =>
        Forall vec2_ok uv /\ is_picture color /\ is_picture rough /\
        lists_texture (mat t) "baseColorTexture" color /\ lists_texture (mat t) "metallicRoughnessTexture" rough
    end }.

(** The bytes of its arrays. *)
Definition bytes (t : tmesh) : Z :=
  4 * len (Mesh.Model.indices (geo t)) + 12 * len (Mesh.Model.vertices (geo t)) + 12 * len (Mesh.Model.normals (geo t)) +
  match tex t with Some (uv, _, _) => 8 * len uv | None => 0 end.

(** cv::imwrite to a .png file and stb_image: the picture comes back.  See C102. *)
Definition png_ok (encode : text -> mat3b -> option (list Z)) (decode : list Z -> option (Z * Z * Z * list Z)) : Prop :=
  forall name pic, is_picture pic -> Gltf.Model.data pic <> [] ->
    exists b, encode (name ++ lit ".png") pic = Some b /\ b <> [] /\
      decode b = Some (Gltf.Model.cols pic, Gltf.Model.rows pic, 3, Gltf.Model.data pic).

(** The same material but for the numbers of its textures. *)
Definition renumbered (mt mt' : material) : Prop :=
  ma_name mt' = ma_name mt /\ ma_additional mt' = ma_additional mt /\ ma_extensions mt' = ma_extensions mt /\
  ma_extras mt' = ma_extras mt /\ map fst (ma_values mt') = map fst (ma_values mt) /\
  forall key, key <> "baseColorTexture"%string -> key <> "metallicRoughnessTexture"%string ->
    get key (ma_values mt') = get key (ma_values mt).

(** What comes back: the same arrays and pictures, bit by bit, and the material as C97
    says. *)
Definition same_content (f : Q -> Q) (t t' : tmesh) : Prop :=
  geo t' = geo t /\ tex t' = tex t /\ exists mt, renumbered (mat t) mt /\ mat t' = after_material f mt.

(** The names of the pictures: 0.png, 1.png, ... *)
Definition picture_name (k : nat) : text := list_ascii_of_string (Gltf.Model.png (Z.of_nat k)).

(** * Bounds *)

(** The value of a bit pattern: sign, exponent and fraction. *)
Definition float_value (w : word) (q : Q) : Prop :=
  exists s e f, (s = 0 \/ s = 1) /\ 0 <= e < 255 /\ 0 <= f < 2 ^ 23 /\ w = s * 2 ^ 31 + e * 2 ^ 23 + f /\
    (q == (if s =? 1 then -1 else 1) * (if e =? 0 then inject_Z f * 2 ^ (-149) else inject_Z (2 ^ 23 + f) * 2 ^ (e - 150)))%Q.
(** [lo] and [hi] are the smallest and the largest value of the column. *)
Definition extremes (l : list word) (lo hi : Q) : Prop :=
  (exists w, In w l /\ float_value w lo) /\ (exists w, In w l /\ float_value w hi) /\
  forall w q, In w l -> float_value w q -> (lo <= q <= hi)%Q.
(** Numbers between -2^31 and 2^31. *)
Definition moderate (w : word) : Prop := exists q, float_value w q /\ (-2147483648 <= q <= 2147483648)%Q.

(** The columns of coordinates. *)
Definition column (k : nat) (l : list vec3) : list word := map (fun v : vec3 => nth k (coordinates3 v) 0) l.
Definition column2 (k : nat) (l : list vec2) : list word := map (fun v : vec2 => nth k (coordinates2 v) 0) l.
(** [lo] and [hi] are the smallest and the largest index. *)
Definition range (l : list Z) (lo hi : Z) : Prop := In lo l /\ In hi l /\ forall i, In i l -> lo <= i <= hi.

(** The bytes of the arrays of all. *)
Definition all_bytes (ts : list tmesh) : Z := fold_right (fun t n => bytes t + n) 0 ts.
