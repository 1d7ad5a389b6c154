(** VoxelGrid (threedee/voxel_grid.py), Voxelizer (threedee/voxelizer.pyx) and
    VoxelEvaluator (metrics/voxel_evaluator.py).

    Coordinates are reals, voxel indices are unbounded integers: the int32 range
    of the index arrays is not modelled. *)
From Coq Require Import Reals ZArith List Bool String QArith.
From Verif.Base Require Import Py Vec.
From Verif.Assoc Require Import Model.
From Verif.Geom Require Import Model.
From Verif.Box Require Import Model.
From Verif.Points Require Import Model.
Import ListNotations.
Open Scope R_scope.

(** A row of the Nx3 array of voxel indices. *)
Record vox := Vox { ix : Z; iy : Z; iz : Z }.

(** _linearize_voxels 211-227, one row. *)
Definition linearize (size_x size_y : Z) (v : vox) : Z :=
  (ix v * 1 + iy v * size_x + iz v * (size_x * size_y))%Z.

(** _vectorize_voxels 230-246, one entry; np.divmod rounds down like Coq's.
    Division by a size 0 does not occur: add_points sets both sizes to at least 1. *)
Definition vectorize (size_x size_y : Z) (n : Z) : vox :=
  let temp := (n / size_x)%Z in
  Vox (n mod size_x) (temp mod size_y) (temp / size_y).

(** np.union1d: sorted distinct entries of both. *)
Fixpoint insert_unique (x : Z) (l : list Z) : list Z :=
  match l with
  | [] => [x]
  | y :: t => if Z.ltb x y then x :: l else if Z.eqb x y then l else y :: insert_unique x t
  end.
Definition union1d (a b : list Z) : list Z := fold_right insert_unique [] (a ++ b).

(** np.floor *)
Definition floor (r : R) : Z := Int_part r.

(** State of a VoxelGrid: _scale, _min_corner, _voxels_3d, _size_x, _size_y. *)
Record grid := Grid { g_scale : R; g_corner : vec; g_voxels : list vox; g_size_x : Z; g_size_y : Z }.

(** Lines 122-125: voxel_index = floor((point - min_corner) * scale). *)
Definition voxel_index (scale : R) (corner p : vec) : vox :=
  Vox (floor ((vx p - vx corner) * scale)) (floor ((vy p - vy corner) * scale))
      (floor ((vz p - vz corner) * scale)).

Definition zmax (f : vox -> Z) (v : vox) (vs : list vox) : Z :=
  fold_left (fun m w => Z.max m (f w)) vs (f v).

(** add_points 104-136: the grid afterwards and the outcome.  np.amin of an empty
    array raises ValueError. *)
Definition add_points (g : grid) (points : list vec) : grid * res unit :=
  match map (voxel_index (g_scale g) (g_corner g)) points with
  | [] => (g, Err ValueError)
  | v :: vs =>
      if existsb (fun w => Z.ltb (ix w) 0 || Z.ltb (iy w) 0 || Z.ltb (iz w) 0) (v :: vs)
      then (g, Err ValueError)
      else
        let new_size_x := (zmax ix v vs + 1)%Z in
        let new_size_y := (zmax iy v vs + 1)%Z in
        let '(size_x, size_y) :=
          if Z.ltb (g_size_x g) new_size_x || Z.ltb (g_size_y g) new_size_y
          then (new_size_x, new_size_y) else (g_size_x g, g_size_y g) in
        let merged := union1d (map (linearize size_x size_y) (g_voxels g))
                              (map (linearize size_x size_y) (v :: vs)) in
        (Grid (g_scale g) (g_corner g) (map (vectorize size_x size_y) merged) size_x size_y, Ok tt)
  end.

(** __init__ 44-68. *)
Definition mk_grid (voxel_size : R) (min_corner : vec) (points : option (list vec)) : res grid :=
  if Rle_dec voxel_size 0 then Err ValueError
  else
    let g := Grid (1 / voxel_size) min_corner [] 0 0 in
    match points with
    | None => Ok g
    | Some ps => let '(g', r) := add_points g ps in let* _ := r in Ok g'
    end.

(** voxel_size 98-102, voxel_centers 138-149. *)
Definition voxel_size (g : grid) : R := 1 / g_scale g.
Definition voxel_centers (g : grid) : list vec :=
  let s := voxel_size g in
  let off := V (vx (g_corner g) + 1 / 2 * s) (vy (g_corner g) + 1 / 2 * s) (vz (g_corner g) + 1 / 2 * s) in
  map (fun v => V (IZR (ix v) * s + vx off) (IZR (iy v) * s + vy off) (IZR (iz v) * s + vz off)) (g_voxels g).

(** bounds 151-162: np.amin over no voxel raises ValueError. *)
Definition bounds (g : grid) : res box :=
  match voxel_centers g with
  | [] => Err ValueError
  | c :: cs =>
      let h := 1 / 2 * voxel_size g in
      Ok (mk_box (vsub (amin c cs) (V h h h)) (vadd (amax c cs) (V h h h)))
  end.

(** Voxelizer.run, voxelizer.pyx 37-48, on the sampled points (ModelSampler is the
    subject of another area). *)
Definition voxelize (size : R) (points : list vec) : res grid :=
  let bbox := from_point_cloud points in
  mk_grid size (min_corner bbox) (Some points).

(** A sequence of add_points calls, each outcome ignored by the caller. *)
Definition add_batches (g : grid) (batches : list (list vec)) : grid :=
  fold_left (fun g b => fst (add_points g b)) batches g.

(** * VoxelEvaluator *)

(** What the constructor stores on an element, voxel_evaluator.py 38-49: posed
    points (no color columns) and posed bounding box. *)
Definition prepare (T : pose) (g : grid) : res (list row * box) :=
  let* b := bounds g in
  Ok (map (fun p => Row p []) (transform_all_from T (voxel_centers g)),
      from_point_cloud (transform_all_from T (corners b))).

Section Evaluator.
  Variable query : list vec -> vec -> R * nat.

  (** _shape_similarity 110-125 on prepared elements. *)
  Definition voxel_similarity (thresh : R) (e1 e2 : elem (list row * box)) : Q :=
    points_iou query (fst (e_info e1)) (snd (e_info e1)) (fst (e_info e2)) (snd (e_info e2)) thresh.

  Definition prepare_elem (ke : string * elem (pose * grid)) : res (string * elem (list row * box)) :=
    let '(k, e) := ke in
    let* i := prepare (fst (e_info e)) (snd (e_info e)) in
    Ok (k, mkElem (e_id e) (e_category e) (e_score e) (e_evaluated e) i).

  (** __init__ 21-51, with the argument order of line 51. *)
  Definition voxel_evaluator (thresh : R) (submission ground_truth : @scene (pose * grid))
    (thresholds : list Q) (categories : list string) : res (@evaluator (list row * box)) :=
    let* sub := mapM prepare_elem submission in
    let* gt := mapM prepare_elem ground_truth in
    evaluator_init (voxel_similarity thresh) gt sub thresholds categories.
End Evaluator.
