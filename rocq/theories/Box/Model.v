(** Box3d (threedee/box_3d.pyx), ComputeBbox (threedee/compute_bbox.pyx) and the
    box handling of BBEvaluator (metrics/bb_evaluator.py).

    Floats are reals: neither float rounding nor the float32 storage of mesh
    vertices is modelled.  A 3*n array is the list of its columns. *)
From Coq Require Import Reals List Bool.
From Verif.Base Require Import Py Vec.
From Verif.Geom Require Import Model.
Import ListNotations.
Open Scope R_scope.

(** np.amin(points, axis=1) / np.amax(points, axis=1) of a 3*n array with columns
    [p :: ps]; an array without columns (numpy raises ValueError) is guarded
    against at each use in this file. *)
Definition vmin2 (p q : vec) : vec := V (Rmin (vx p) (vx q)) (Rmin (vy p) (vy q)) (Rmin (vz p) (vz q)).
Definition vmax2 (p q : vec) : vec := V (Rmax (vx p) (vx q)) (Rmax (vy p) (vy q)) (Rmax (vz p) (vz q)).
Definition amin (p : vec) (ps : list vec) : vec := fold_left vmin2 ps p.
Definition amax (p : vec) (ps : list vec) : vec := fold_left vmax2 ps p.

(** * Box3d *)
Record box := Box { min_corner : vec; max_corner : vec }.

(** __init__, box_3d.pyx 28-36. *)
Definition mk_box (corner1 corner2 : vec) : box :=
  Box (amin corner1 [corner2]) (amax corner1 [corner2]).

(** point_in_box 48-54. *)
Definition Rltb (x y : R) : bool := if Rlt_dec x y then true else false.
Definition point_in_box (b : box) (p : vec) : bool :=
  (Rltb (vx (min_corner b)) (vx p) && Rltb (vy (min_corner b)) (vy p) && Rltb (vz (min_corner b)) (vz p)) &&
  (Rltb (vx p) (vx (max_corner b)) && Rltb (vy p) (vy (max_corner b)) && Rltb (vz p) (vz (max_corner b))).

(** corners 56-78. *)
Definition corners (b : box) : list vec :=
  let n := min_corner b in let m := max_corner b in
  [ V (vx n) (vy n) (vz m); V (vx m) (vy n) (vz m); V (vx m) (vy m) (vz m); V (vx n) (vy m) (vz m);
    V (vx n) (vy n) (vz n); V (vx m) (vy n) (vz n); V (vx m) (vy m) (vz n); V (vx n) (vy m) (vz n) ].

(** volume 80-83, center 85-92. *)
Definition volume (b : box) : R :=
  let d := vsub (max_corner b) (min_corner b) in vx d * vy d * vz d.
Definition center (b : box) : vec := smul (1 / 2) (vadd (max_corner b) (min_corner b)).

(** merge 223-234. *)
Definition merge (boxes : list box) : box :=
  match boxes with
  | [] => mk_box vzero vzero
  | b :: bs => mk_box (amin (min_corner b) (map min_corner bs))
                      (amax (max_corner b) (map max_corner bs))
  end.

(** _to_mesh_helper 239-287: (vertices, indices, normals). *)
Definition vert_lut : list nat :=
  [0; 1; 2; 3;  1; 5; 6; 2;  5; 4; 7; 6;  4; 0; 3; 7;  3; 2; 6; 7;  4; 5; 1; 0]%nat.
Definition face_indices (normals_out : bool) (j : nat) : list nat :=
  if normals_out then [j; j+1; j+2; j; j+2; j+3]%nat else [j; j+2; j+1; j; j+3; j+2]%nat.
Definition mesh_indices (normals_out : bool) : list nat :=
  flat_map (fun i => face_indices normals_out (4 * i)%nat) (seq 0 6).
Definition face_dirs : list vec :=
  [V 0 0 1; V 1 0 0; V 0 0 (-1); V (-1) 0 0; V 0 1 0; V 0 (-1) 0].
Definition to_mesh_helper (b : box) (normals_out : bool) : list vec * list nat * list vec :=
  let vertices := map (fun i => nth i (corners b) vzero) vert_lut in
  let normals := flat_map (fun d => [d; d; d; d]) face_dirs in
  (vertices, mesh_indices normals_out, if normals_out then normals else map vopp normals).

(** * ComputeBbox *)

(** from_point_cloud, compute_bbox.pyx 21-38. *)
Definition from_point_cloud (points : list vec) : box :=
  match points with
  | [] => mk_box vzero vzero
  | p :: ps => mk_box (amin p ps) (amax p ps)
  end.

(** from_mesh 40-48 and from_meshes 50-60; a mesh is its vertex array here.
    from_gltf_object 62-72 is from_meshes on the primitive meshes. *)
Definition from_mesh (vertices : list vec) : box := from_point_cloud vertices.
Definition from_meshes (meshes : list (list vec)) : box := merge (map from_point_cloud meshes).

(** * BBEvaluator *)

(** posed_bbox of an element, bb_evaluator.py 38-44. *)
Definition posed_bbox (T : pose) (bounds : box) : box :=
  from_point_cloud (transform_all_from T (corners bounds)).

(** Quick test of _shape_similarity 90-96: true when 0 is returned at once. *)
Definition quick_reject (b1 b2 : box) : bool :=
  existsb (fun axis =>
      Rltb (coord axis (max_corner b2)) (coord axis (min_corner b1)) ||
      Rltb (coord axis (max_corner b1)) (coord axis (min_corner b2))) (seq 0 3).

(** _bbox2pymesh 110-128: vertices and triangles handed to pymesh.form_mesh. *)
Definition pymesh_faces : list (nat * nat * nat) :=
  [(0, 1, 2); (0, 2, 3); (3, 2, 7); (3, 7, 4); (4, 7, 6); (4, 6, 5);
   (5, 6, 1); (5, 1, 0); (0, 3, 4); (0, 4, 5); (1, 6, 7); (1, 7, 2)]%nat.
Definition bbox2pymesh (T : pose) (bounds : box) : list vec * list (nat * nat * nat) :=
  (transform_all_from T (corners bounds), pymesh_faces).

(** Rest of _shape_similarity 98-107.  pymesh.boolean and the volume of a pymesh
    mesh are parameters. *)
Section IoU.
  Variable mesh_volume : list vec * list (nat * nat * nat) -> R.
  Variable boolean_intersection :
    list vec * list (nat * nat * nat) -> list vec * list (nat * nat * nat) -> list vec * list (nat * nat * nat).
  Definition bb_shape_similarity (T1 : pose) (bounds1 : box) (T2 : pose) (bounds2 : box) : R :=
    if quick_reject (posed_bbox T1 bounds1) (posed_bbox T2 bounds2) then 0
    else
      let box1 := bbox2pymesh T1 bounds1 in
      let box2 := bbox2pymesh T2 bounds2 in
      let intersection := Rabs (mesh_volume (boolean_intersection box1 box2)) in
      let union := Rabs (mesh_volume box1) + Rabs (mesh_volume box2) - intersection in
      intersection / union.
End IoU.
