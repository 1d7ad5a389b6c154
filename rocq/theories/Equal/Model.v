(** Comparisons: almost_equal, == and the assertions of Rot3, Pose3, Box3d, Mesh,
    GltfModel, ProjectObject and ProjectObjectDict.  Numbers are finite (reals). *)
From Coq Require Import Reals List Bool String.
From Verif.Base Require Import Py Vec.
From Verif.Geom Require Import Model.
From Verif.Box Require Import Model.
From Verif.Symm Require Import Model.
From Verif.Scene Require Import Model.
Import ListNotations.
Local Open Scope R_scope.

Definition Rleb (x y : R) : bool := if Rle_dec x y then true else false.
Definition Req_b (x y : R) : bool := if Req_EM_T x y then true else false.

(** np.isclose(a, b, rtol, atol) of two numbers. *)
Definition isclose (rtol atol a b : R) : bool := Rleb (Rabs (a - b)) (atol + rtol * Rabs b).
(** np.allclose of two arrays of the same shape, given by their entries. *)
Fixpoint allclose (rtol atol : R) (a b : list R) : bool :=
  match a, b with
  | x :: a', y :: b' => isclose rtol atol x y && allclose rtol atol a' b'
  | _, _ => true
  end.
(** The default tolerances of numpy. *)
Definition default_rtol : R := 1 / 100000.
Definition default_atol : R := 1 / 100000000.

(** np.testing.assert_array_almost_equal(a, b, decimal): every difference is less than
    1.5 * 10 ** -decimal. *)
Fixpoint all_below (bound : R) (a b : list R) : bool :=
  match a, b with
  | x :: a', y :: b' => (if Rlt_dec (Rabs (x - y)) bound then true else false) && all_below bound a' b'
  | _, _ => true
  end.
Definition assert_array_almost_equal (decimal : nat) (a b : list R) : res unit :=
  if all_below (3 / 2 / 10 ^ decimal) a b then Ok tt else Err AssertionError.
(** np.testing.assert_array_equal and np.array_equal. *)
Fixpoint array_equal (a b : list R) : bool :=
  match a, b with
  | x :: a', y :: b' => Req_b x y && array_equal a' b'
  | [], [] => true
  | _, _ => false
  end.
Definition assert_array_equal (a b : list R) : res unit := if array_equal a b then Ok tt else Err AssertionError.

(** * Rot3 and Pose3 *)

Definition vec_entries (v : vec) : list R := [vx v; vy v; vz v].
(** matrix() of a rotation, row by row. *)
Definition rot_entries (r : mat) : list R := [m00 r; m01 r; m02 r; m10 r; m11 r; m12 r; m20 r; m21 r; m22 r].
(** matrix34() of a pose, column by column. *)
Definition pose_entries (p : pose) : list R :=
  let '(x, y, z, t) := matrix34 p in vec_entries x ++ vec_entries y ++ vec_entries z ++ vec_entries t.

(** almost_equal, assert_almost_equal, assert_equal: rot3.pyx 109-124, pose3.pyx 86-93.
    The further arguments go to numpy. *)
Definition rot_almost_equal rtol atol (a b : mat) : bool := allclose rtol atol (rot_entries a) (rot_entries b).
Definition rot_assert_almost_equal decimal (a b : mat) : res unit := assert_array_almost_equal decimal (rot_entries a) (rot_entries b).
Definition rot_assert_equal (a b : mat) : res unit := assert_array_equal (rot_entries a) (rot_entries b).
Definition pose_almost_equal rtol atol (a b : pose) : bool := allclose rtol atol (pose_entries a) (pose_entries b).
Definition pose_assert_almost_equal decimal (a b : pose) : res unit := assert_array_almost_equal decimal (pose_entries a) (pose_entries b).
Definition pose_assert_equal (a b : pose) : res unit := assert_array_equal (pose_entries a) (pose_entries b).

(** * Box3d, box_3d.pyx 94-110 *)
Definition box_almost_equal rtol atol (a b : box) : bool :=
  allclose rtol atol (vec_entries (min_corner a)) (vec_entries (min_corner b)) &&
  allclose rtol atol (vec_entries (max_corner a)) (vec_entries (max_corner b)).
Definition box_eq (a b : box) : bool :=
  array_equal (vec_entries (min_corner a)) (vec_entries (min_corner b)) &&
  array_equal (vec_entries (max_corner a)) (vec_entries (max_corner b)).

(** * Models and objects *)

Section Objects.
  Context {M : Type}.
  (** numPrimitiveMeshes of a model (GltfModel.cpp 363-372), and num_indices and
      num_vertices of its primitive meshes (gltf_model.pyx 197-202). *)
  Variable count : M -> nat.
  Variable sizes : M -> res (list (nat * nat)).

  (** Mesh.same_size, mesh.pyx 66-68. *)
  Definition mesh_same_size (a b : nat * nat) : bool := Nat.eqb (fst a) (fst b) && Nat.eqb (snd a) (snd b).

  (** extract_primitive_mesh, gltf_model.pyx 204-207: extracts all and takes one. *)
  Definition extract (m : M) (i : nat) : res (nat * nat) :=
    let* l := sizes m in match nth_error l i with Some x => Ok x | None => Err IndexError end.

  (** GltfModel.same_size, gltf_model.pyx 164-173. *)
  Fixpoint same_size_loop (a b : M) (is_ : list nat) : res bool :=
    match is_ with
    | [] => Ok true
    | i :: is_ =>
        let* my_mesh := extract a i in
        let* other_mesh := extract b i in
        if negb (mesh_same_size my_mesh other_mesh) then Ok false else same_size_loop a b is_
    end.
  Definition same_size (a b : M) : res bool :=
    if negb (Nat.eqb (count b) (count a)) then Ok false else same_size_loop a b (seq 0 (count a)).

  Definition opt_str_eqb (a b : option string) : bool :=
    match a, b with Some x, Some y => String.eqb x y | None, None => true | _, _ => false end.

  (** ProjectObject.almost_equal, project_object.py 167-181.  None has no method
      num_primitive_meshes. *)
  Definition object_almost_equal (a b : pobject M) : res bool :=
    let* same := match o_meshes a with
                 | None => Ok true
                 | Some m => match o_meshes b with None => Err AttributeError | Some m' => same_size m m' end
                 end in
    if negb same then Ok false
    else Ok (String.eqb (o_id a) (o_id b) && pose_almost_equal default_rtol default_atol (o_pose a) (o_pose b) &&
             opt_str_eqb (o_category a) (o_category b) && sym_eqb (o_symmetry a) (o_symmetry b) &&
             isclose default_rtol default_atol (o_score a) (o_score b) && Bool.eqb (o_evaluated a) (o_evaluated b)).

  (** ProjectObjectDict.almost_equal, project_object_dict.py 39-48. *)
  Fixpoint dict_loop (self : list (string * pobject M)) (keys : list string) (other : list (string * pobject M)) : res bool :=
    match keys with
    | [] => Ok true
    | k :: keys =>
        if negb (smem k other) then Ok false
        else
          let* mine := sgetE k self in
          let* theirs := sgetE k other in
          let* r := object_almost_equal mine theirs in
          if negb r then Ok false else dict_loop self keys other
    end.
  Definition dict_almost_equal (self other : list (string * pobject M)) : res bool :=
    if negb (Nat.eqb (List.length self) (List.length other)) then Ok false
    else dict_loop self (map fst self) other.
End Objects.

(** * The guard of ProjectObjectDict, project_object_dict.py 29-37 *)

(** What a program may try to store. *)
Inductive stored (M : Type) := AnObject (o : pobject M) | SomethingElse.
Arguments AnObject {M}. Arguments SomethingElse {M}.
(** d[k] = v runs __setitem__, which asserts.  The constructor, update and setdefault
    are those of dict, which do not call it. *)
Inductive dict_op (M : Type) :=
  | SetItem (k : string) (v : stored M) | Update (kvs : list (string * stored M)) | SetDefault (k : string) (v : stored M) | DelItem (k : string).
Arguments SetItem {M}. Arguments Update {M}. Arguments SetDefault {M}. Arguments DelItem {M}.

Definition is_object {M} (v : stored M) : bool := match v with AnObject _ => true | SomethingElse => false end.
Definition del_key {V} (k : string) (d : list (string * V)) : list (string * V) := filter (fun kv => negb (String.eqb k (fst kv))) d.

Definition dict_step {M} (d : list (string * stored M)) (op : dict_op M) : res (list (string * stored M)) :=
  match op with
  | SetItem k v => if is_object v then Ok (sset k v d) else Err AssertionError
  | Update kvs => Ok (fold_left (fun d kv => sset (fst kv) (snd kv) d) kvs d)
  | SetDefault k v => Ok (if smem k d then d else sset k v d)
  | DelItem k => if smem k d then Ok (del_key k d) else Err KeyError
  end.
(** The constructor ProjectObjectDict(kvs), and a program that goes on after an exception. *)
Definition dict_init {M} (kvs : list (string * stored M)) : list (string * stored M) :=
  fold_left (fun d kv => sset (fst kv) (snd kv) d) kvs [].
Definition dict_run {M} (ops : list (dict_op M)) (d : list (string * stored M)) : list (string * stored M) :=
  fold_left (fun d op => match dict_step d op with Ok d' => d' | Err _ => d end) ops d.
