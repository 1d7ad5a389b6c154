(** Vocabulary for the glTF model properties. *)
From Coq Require Import List ZArith QArith String.
From Verif.Base Require Import Py.
From Verif.Mesh Require Import Model.
From Verif.Gltf Require Import Model.
Import ListNotations.
Local Open Scope string_scope.
Local Open Scope Z_scope.

(** 32 bits. *)
Definition is_word (w : Z) : Prop := 0 <= w < 4294967296.
Definition is_vec3 (v : vec3) : Prop := let '(x, y, z) := v in is_word x /\ is_word y /\ is_word z.
Definition is_vec2 (v : vec2) : Prop := let '(x, y) := v in is_word x /\ is_word y.

(** An RGB image: three bytes per pixel, or no image at all. *)
Definition is_image (i : mat3b) : Prop :=
  0 <= rows i /\ 0 <= cols i /\ size (data i) = cols i * rows i * 3 /\ (data i = [] -> i = no_image).

(** The material lists a texture exactly when the mesh has one. *)
Definition lists_texture (mt : material) (key : string) (i : mat3b) : Prop :=
  (exists p, sget key (values mt) = Some p) <-> data i <> [].

(** What can be stored: numbers in range, at least one vertex, images of the right
    length, and a material that fits. *)
Definition storable (m : pmesh) : Prop :=
  Forall is_word (indices (geo m)) /\
  Forall is_vec3 (vertices (geo m)) /\ vertices (geo m) <> [] /\
  Forall is_vec3 (normals (geo m)) /\ normals (geo m) <> [] /\
  match tex m with
  | None => True
  | Some (uv, color, rough) =>
      Forall is_vec2 uv /\ is_image color /\ is_image rough /\
      lists_texture (mat m) "baseColorTexture" color /\
      lists_texture (mat m) "metallicRoughnessTexture" rough
  end.

(** Same geometry, texture coordinates, images, and material up to the numbers
    under which it lists its textures. *)
Definition same_content (m m' : pmesh) : Prop :=
  geo m' = geo m /\ tex m' = tex m /\ name (mat m') = name (mat m) /\
  forall key, key <> "baseColorTexture" -> key <> "metallicRoughnessTexture" ->
    sget key (values (mat m')) = sget key (values (mat m)).

(** The two differ in at most the material of primitive [k]. *)
Definition same_primitives_but (k : nat) (g g' : gmodel) : Prop :=
  List.length (primitives g') = List.length (primitives g) /\
  (forall j, j <> k -> nth_error (primitives g') j = nth_error (primitives g) j) /\
  (forall p, nth_error (primitives g) k = Some p -> exists mt,
     nth_error (primitives g') k = Some (Primitive (attributes p) (p_indices p) mt (p_mode p))).
