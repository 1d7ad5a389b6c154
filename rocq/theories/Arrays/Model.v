(** Model of how numpy arrays become meshes and back: base/vector.pyx 46-125,
    threedee/mesh.pyx 17-113 and 143-147, threedee/textured_mesh.pyx 25-71 and
    129-156, with Rot3.__mul__ and Pose3.__mul__ on arrays (geometry/rot3.pyx 58-64,
    geometry/pose3.pyx 54-69), all under /repo/sumo-api/sumo.
    A number is a real.  [f32] is the conversion of a double to float32 by astype;
    other arithmetic is exact.  The dtype and the number of dimensions of an argument,
    which Cython checks when it converts it, are right by type.  Textures are the
    images of Gltf; their conversion from and to numpy is in Wrap.  Who owns a mesh
    is in Own: here a mesh object is the mesh it refers to. *)
From Coq Require Import List Bool ZArith Arith String Reals.
From Verif.Base Require Import Py Vec.
From Verif.Mesh Require Model.
From Verif.Gltf Require Model.
From Verif.Cloud Require Model.
From Verif.Geom Require Model.
Import ListNotations.

(** A two-dimensional float array: shape[0], shape[1] and a[i, j]. *)
Record arr := Arr { nrow : nat; ncol : nat; entry : nat -> nat -> R }.

(** vector3f, vector.pyx 102-103, of the column points[:,i]. *)
Definition vector3f (a : arr) (i : nat) : vec := V (entry a 0 i) (entry a 1 i) (entry a 2 i).

(** vector3fs_of_array, vector.pyx 108-115.  It returns a C++ vector and has no
    except clause: when the assertion fails, Cython prints the exception, drops it
    and returns an empty vector. *)
Definition vector3fs_of_array (a : arr) : list vec :=
  if Nat.eqb (nrow a) 3 then map (vector3f a) (seq 0 (ncol a)) else [].

(** array_of_vector3fs 117-122. *)
Definition array_of_vector3fs (ps : list vec) : arr :=
  Arr 3 (List.length ps) (fun r i => coord r (nth i ps vzero)).

(** vector2f 54-55, vector2fs_of_array 60-67 and array_of_vector2fs 69-74. *)
Definition vector2f (a : arr) (i : nat) : R * R := (entry a 0 i, entry a 1 i).
Definition vector2fs_of_array (a : arr) : list (R * R) :=
  if Nat.eqb (nrow a) 2 then map (vector2f a) (seq 0 (ncol a)) else [].
Definition array_of_vector2fs (ps : list (R * R)) : arr :=
  Arr 2 (List.length ps) (fun r i => match r with O => fst (nth i ps (0%R, 0%R)) | _ => snd (nth i ps (0%R, 0%R)) end).

(** uint32s_of_array and array_of_uint32s, mesh.pyx 17-28: a uint32 array is the list
    of its entries. *)
Definition uint32s_of_array (i : list Z) : list Z := i.
Definition array_of_uint32s (i : list Z) : list Z := i.

(** The C++ Mesh (Mesh.h 208-214) or, with [tex], TexturedMesh (TexturedMesh.h). *)
Record cmesh := CMesh {
  c_indices : list Z; c_vertices : list vec; c_normals : list vec;
  c_material : Gltf.Model.material;
  tex : option (list (R * R) * Gltf.Model.mat3b * Gltf.Model.mat3b) }.

(** Mesh::Mesh, Mesh.cpp 23-29. *)
Definition new_mesh (debug : bool) (i : list Z) (v n : list vec) : res cmesh :=
  let* _ := Cloud.Model.cpp_assert debug (Nat.eqb (List.length v) (List.length n)) in
  Ok (CMesh i v n (Gltf.Model.Material "" []) None).

(** TexturedMesh::TexturedMesh, TexturedMesh.cpp 19-46. *)
Definition new_textured (debug : bool) (i : list Z) (v n : list vec) (uv : list (R * R))
  (color rough : Gltf.Model.mat3b) : res cmesh :=
  let* _ := Cloud.Model.cpp_assert debug (Nat.eqb (List.length v) (List.length n)) in
  let* _ := Cloud.Model.cpp_assert debug (Nat.leb (List.length uv) (List.length v)) in
  Ok (CMesh i v n (Gltf.Model.mat (Gltf.Model.new_textured (Mesh.Model.Mesh [] [] []) [] color rough))
       (Some (uv, color, rough))).

(** Mesh.__init__, mesh.pyx 33-40. *)
Definition Mesh_init (debug : bool) (i : list Z) (v n : arr) : res cmesh :=
  if negb (Nat.eqb (ncol v) (ncol n)) then Err AssertionError else
  new_mesh debug (uint32s_of_array i) (vector3fs_of_array v) (vector3fs_of_array n).

(** TexturedMesh.__init__, textured_mesh.pyx 24-47. *)
Definition TexturedMesh_init (debug : bool) (i : list Z) (v n uv : arr) (color rough : Gltf.Model.mat3b) : res cmesh :=
  if negb (Nat.eqb (ncol v) (ncol n)) then Err AssertionError else
  if negb (Nat.leb (ncol uv) (ncol v)) then Err AssertionError else
  new_textured debug (uint32s_of_array i) (vector3fs_of_array v) (vector3fs_of_array n)
    (vector2fs_of_array uv) color rough.

(** is_textured, indices, vertices, normals, num_indices, num_vertices and same_size:
    mesh.pyx 46-69. *)
Definition is_textured (m : cmesh) : bool := match tex m with Some _ => true | None => false end.
Definition indices (m : cmesh) : list Z := array_of_uint32s (c_indices m).
Definition vertices (m : cmesh) : arr := array_of_vector3fs (c_vertices m).
Definition normals (m : cmesh) : arr := array_of_vector3fs (c_normals m).
Definition num_indices (m : cmesh) : nat := List.length (c_indices m).
Definition num_vertices (m : cmesh) : nat := List.length (c_vertices m).
Definition same_size (a b : cmesh) : bool :=
  Nat.eqb (num_indices a) (num_indices b) && Nat.eqb (num_vertices a) (num_vertices b).

(** has_same_material, mesh.pyx 163-165; hasSameMaterial (Mesh.cpp 216-218) reads the
    materials only. *)
Definition has_same_material (a b : cmesh) : bool :=
  let only m := Gltf.Model.PMesh (Mesh.Model.Mesh [] [] []) (c_material m) None in
  Gltf.Model.hasSameMaterial (only a) (only b).

(** uv_coords, base_color and metallic_roughness, textured_mesh.pyx 129-138.  They
    exist for a TexturedMesh only. *)
Definition uv_coords (m : cmesh) : res arr :=
  match tex m with Some (uv, _, _) => Ok (array_of_vector2fs uv) | None => Err AttributeError end.
Definition base_color (m : cmesh) : res Gltf.Model.mat3b :=
  match tex m with Some (_, c, _) => Ok c | None => Err AttributeError end.
Definition metallic_roughness (m : cmesh) : res Gltf.Model.mat3b :=
  match tex m with Some (_, _, r) => Ok r | None => Err AttributeError end.

(** np.dot of a 3 by 3 matrix and an array: shapes that do not fit are a ValueError. *)
Definition mrow (m : mat) (r : nat) : vec :=
  match r with
  | O => V (m00 m) (m01 m) (m02 m)
  | S O => V (m10 m) (m11 m) (m12 m)
  | _ => V (m20 m) (m21 m) (m22 m)
  end.
Definition np_dot (m : mat) (a : arr) : res arr :=
  if Nat.eqb (nrow a) 3 then Ok (Arr 3 (ncol a) (fun r i => dot (mrow m r) (vector3f a i)))
  else Err ValueError.

(** np.transpose, the sum with a vector (of three entries, broadcast along the rows;
    an array with another number of columns does not fit, except one column, which
    cannot occur here) and astype(np.float32). *)
Definition np_transpose (a : arr) : arr := Arr (ncol a) (nrow a) (fun i j => entry a j i).
Definition add_vector (a : arr) (t : vec) : res arr :=
  if Nat.eqb (ncol a) 3 then Ok (Arr (nrow a) 3 (fun i j => entry a i j + coord j t)%R) else Err ValueError.
Definition astype (f32 : R -> R) (a : arr) : arr := Arr (nrow a) (ncol a) (fun i j => f32 (entry a i j)).

(** Rot3.__mul__ with an array, rot3.pyx 58-64; Pose3.__mul__ with a two-dimensional
    array, pose3.pyx 59-69, and transform_all_from 54-57. *)
Definition rot_times (r : mat) (a : arr) : res arr := np_dot r a.
Definition pose_times (t : Geom.Model.pose) (a : arr) : res arr :=
  if negb (Nat.eqb (nrow a) 3) then Err AssertionError else
  let* b := rot_times (Geom.Model.pR t) a in
  let* c := add_vector (np_transpose b) (Geom.Model.pt t) in
  Ok (np_transpose c).

(** The constructor call of rotate and transform: Mesh.rotate and transform, mesh.pyx
    81-91, build a Mesh; TexturedMesh.rotate and transform, textured_mesh.pyx
    140-156, build a TexturedMesh with the old texture coordinates and textures. *)
Definition rebuild (debug : bool) (m : cmesh) (v n : arr) : res cmesh :=
  match tex m with
  | None => Mesh_init debug (indices m) v n
  | Some _ =>
      let* uv := uv_coords m in
      let* c := base_color m in
      let* r := metallic_roughness m in
      TexturedMesh_init debug (indices m) v n uv c r
  end.
Definition rotate (f32 : R -> R) (debug : bool) (r : mat) (m : cmesh) : res cmesh :=
  let* v := rot_times r (vertices m) in
  let* n := rot_times r (normals m) in
  rebuild debug m (astype f32 v) (astype f32 n).
Definition transform (f32 : R -> R) (debug : bool) (t : Geom.Model.pose) (m : cmesh) : res cmesh :=
  let* v := pose_times t (vertices m) in
  let* n := rot_times (Geom.Model.pR t) (normals m) in
  rebuild debug m (astype f32 v) (astype f32 n).

(** calculate_face_normals and estimate_normals, mesh.pyx 93-97 and 143-147. *)
Definition calculate_face_normals (i : list Z) (v : arr) : res arr :=
  let* ns := Mesh.Model.CalculateFaceNormals (uint32s_of_array i) (vector3fs_of_array v) in
  Ok (array_of_vector3fs ns).
Definition estimate_normals (i : list Z) (v : arr) : res arr :=
  let* ns := Mesh.Model.EstimateNormals (uint32s_of_array i) (vector3fs_of_array v) in
  Ok (array_of_vector3fs ns).

(** The arrays TexturedMesh is called with when only the first three are given,
    textured_mesh.pyx 27-29: no texture coordinates and two black 3 by 4 images. *)
Definition default_uv : arr := Arr 2 0 (fun _ _ => 0%R).

(** from_mesh, textured_mesh.pyx 53-71; [color] is the base color texture it makes
    (see Wrap for how). *)
Definition from_mesh (debug : bool) (m : cmesh) (color : Gltf.Model.mat3b) : res cmesh :=
  TexturedMesh_init debug (indices m) (vertices m) (normals m)
    (Arr 2 (num_vertices m) (fun _ _ => 0%R)) color Gltf.Model.default_texture.

(** An Open3D triangle mesh: integer triangles, vertices and vertex normals, which
    np.asarray shows as arrays with one row each (also when there are none). *)
Record o3d := O3d { triangles : list (Z * Z * Z); o_vertices : list vec; vertex_normals : list vec }.
Definition rows_of (ps : list vec) : arr :=
  Arr (List.length ps) 3 (fun i r => coord r (nth i ps vzero)).
(** astype(np.uint32).flatten() of the triangles. *)
Definition to_uint32 (z : Z) : Z := (z mod 2 ^ 32)%Z.
Definition flatten (ts : list (Z * Z * Z)) : list Z :=
  flat_map (fun t => let '(a, b, c) := t in [to_uint32 a; to_uint32 b; to_uint32 c]) ts.

(** from_open3d_mesh, mesh.pyx 99-113: the mesh and the Open3D mesh afterwards.
    [compute] is Open3D's compute_vertex_normals; [textured]: called on TexturedMesh. *)
Definition from_open3d_mesh (f32 : R -> R) (compute : o3d -> list vec) (debug textured : bool) (o : o3d)
  : res cmesh * o3d :=
  let idx := flatten (triangles o) in
  let v := np_transpose (astype f32 (rows_of (o_vertices o))) in
  let o := if negb (Nat.eqb (List.length (vertex_normals o)) (List.length (o_vertices o)))
           then O3d (triangles o) (o_vertices o) (compute o) else o in
  let n := np_transpose (astype f32 (rows_of (vertex_normals o))) in
  (if textured
   then TexturedMesh_init debug idx v n default_uv Gltf.Model.default_texture Gltf.Model.default_texture
   else Mesh_init debug idx v n, o).
