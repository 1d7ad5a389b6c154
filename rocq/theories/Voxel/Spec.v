(** Cells of a regular grid of cubes. *)
From Coq Require Import Reals ZArith List String QArith.
From Verif.Base Require Import Py Vec.
From Verif.Assoc Require Import Model Spec.
From Verif.Points Require Import Model.
From Verif.Voxel Require Import Model.
Import ListNotations.
Open Scope R_scope.

(** Point [p] lies in cell [v] of the grid of cubes of side [s] at [c] (lower faces
    included). *)
Definition in_cell (s : R) (c : vec) (v : vox) (p : vec) : Prop :=
  IZR (ix v) * s <= vx p - vx c < (IZR (ix v) + 1) * s /\
  IZR (iy v) * s <= vy p - vy c < (IZR (iy v) + 1) * s /\
  IZR (iz v) * s <= vz p - vz c < (IZR (iz v) + 1) * s.

(** [p] is not below the corner on any axis. *)
Definition above (c p : vec) : Prop := vx c <= vx p /\ vy c <= vy p /\ vz c <= vz p.

(** Coordinates that the sizes of a grid leave room for. *)
Definition in_grid (sx sy : Z) (v : vox) : Prop :=
  (0 <= ix v < sx /\ 0 <= iy v < sy /\ 0 <= iz v)%Z.

(** The cells occupied by a batch of points. *)
Definition occupied (s : R) (c : vec) (ps : list vec) (v : vox) : Prop :=
  exists p, In p ps /\ in_cell s c v p.

(** [n] is one more than the largest cell coordinate [f] of the batch. *)
Definition extent (f : vox -> Z) (s : R) (c : vec) (ps : list vec) (n : Z) : Prop :=
  (forall v, occupied s c ps v -> (f v < n)%Z) /\ (exists v, occupied s c ps v /\ (f v = n - 1)%Z).

(** Sequences of batches in which every batch either stays within the extents
    reached so far or is at least as large in both x and y. *)
Inductive growing (s : R) (c : vec) : Z -> Z -> list (list vec) -> Prop :=
| growing_nil sx sy : growing s c sx sy []
| growing_keep sx sy b bs bx by' :
    (forall p, In p b -> above c p) -> extent ix s c b bx -> extent iy s c b by' ->
    (bx <= sx)%Z -> (by' <= sy)%Z -> growing s c sx sy bs -> growing s c sx sy (b :: bs)
| growing_grow sx sy b bs bx by' :
    (forall p, In p b -> above c p) -> extent ix s c b bx -> extent iy s c b by' ->
    (sx <= bx)%Z -> (sy <= by')%Z -> growing s c bx by' bs -> growing s c sx sy (b :: bs).

(** A grid as add_points leaves it: positive voxel size, stored voxels distinct and
    inside the sizes. *)
Record well_formed (g : grid) : Prop := {
  wf_scale : 0 < g_scale g;
  wf_nodup : NoDup (g_voxels g);
  wf_in : forall v, In v (g_voxels g) -> in_grid (g_size_x g) (g_size_y g) v }.

(** The evaluator one gets by passing the scenes in the order of the base class
    constructor (submission first). *)
Definition straight_evaluator (query : list vec -> vec -> R * nat) (thresh : R)
  (submission ground_truth : @scene (Geom.Model.pose * grid)) (ts : list Q) (cats : list string) :=
  (let* sub := mapM prepare_elem submission in
   let* gt := mapM prepare_elem ground_truth in
   evaluator_init (voxel_similarity query thresh) sub gt ts cats)%res.
