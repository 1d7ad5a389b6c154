(** Box3d.point_in_box of sumo/threedee/box_3d.pyx on numpy arrays, and the corner attributes.
    The box, corners, volume and center are those of Box/Model.v. *)
From Coq Require Import Reals List Bool Arith.
From Verif.Base Require Import Py Vec.
From Verif.Box Require Import Model.
Import ListNotations.
Open Scope R_scope.

(** A float array by its last axis: the vectors along it, in order, for all the other
    indices.  A number is like an array of one vector with one entry. *)
Record points := Points { last_axis : nat; rows : list (list R) }.

(** np.all(a op v) for v of shape (3,): numpy repeats along the last axis if it has length 1. *)
Definition all_against (op : R -> R -> bool) (a : points) (v : vec) : res bool :=
  let w := [vx v; vy v; vz v] in
  if Nat.eqb (last_axis a) 3 then Ok (forallb (fun row => forallb (fun xy => op (fst xy) (snd xy)) (combine row w)) (rows a))
  else if Nat.eqb (last_axis a) 1 then Ok (forallb (fun row => forallb (op (hd 0 row)) w) (rows a))
  else Err BroadcastError.

(** point_in_box, box_3d.pyx 48-54 *)
Definition point_in_box (b : box) (point : points) : res bool :=
  let* above := all_against (fun x y => Rltb y x) point (min_corner b) in
  if above then all_against Rltb point (max_corner b) else Ok false.

(** box.min_corner[i] = v and box.max_corner[i] = v, 38-46: the properties return the
    arrays of the box themselves. *)
Definition set_coord (i : nat) (v : R) (p : vec) : vec :=
  match i with O => V v (vy p) (vz p) | S O => V (vx p) v (vz p) | _ => V (vx p) (vy p) v end.
Definition assign_min (b : box) (i : nat) (v : R) : box := Box (set_coord i v (min_corner b)) (max_corner b).
Definition assign_max (b : box) (i : nat) (v : R) : box := Box (min_corner b) (set_coord i v (max_corner b)).
