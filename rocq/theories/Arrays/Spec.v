(** What the statements about arrays and meshes mean, without the functions under
    study. *)
From Coq Require Import List ZArith Arith Reals.
From Verif.Base Require Import Vec.
From Verif.Arrays Require Import Model.
Import ListNotations.

(** numpy's array_equal: same shape and same entries. *)
Definition array_equal (a b : arr) : Prop :=
  nrow a = nrow b /\ ncol a = ncol b /\
  forall i j, (i < nrow a)%nat -> (j < ncol a)%nat -> entry a i j = entry b i j.

(** The point in column [j] of an array of points. *)
Definition column (a : arr) (j : nat) : vec := V (entry a 0 j) (entry a 1 j) (entry a 2 j).
(** The point in row [i], for an array that has one point per row. *)
Definition row (a : arr) (i : nat) : vec := V (entry a i 0) (entry a i 1) (entry a i 2).

(** A point after conversion of its coordinates. *)
Definition each (f : R -> R) (p : vec) : vec := V (f (vx p)) (f (vy p)) (f (vz p)).

(** A mesh with a normal for every vertex and no more texture coordinates than
    vertices, as the constructors ask for. *)
Definition proper (m : cmesh) : Prop :=
  List.length (c_vertices m) = List.length (c_normals m) /\
  match tex m with Some (uv, _, _) => (List.length uv <= List.length (c_vertices m))%nat | None => True end.

(** [m'] is [m] with other vertices and normals: the class, the indices, the number
    of vertices, texture coordinates and textures are the same. *)
Definition same_but_points (m m' : cmesh) : Prop :=
  is_textured m' = is_textured m /\ indices m' = indices m /\ num_vertices m' = num_vertices m /\
  tex m' = tex m.

(** All coordinates have a value that the conversion keeps. *)
Definition fixed (f : R -> R) (ps : list vec) : Prop := forall p, In p ps -> each f p = p.
