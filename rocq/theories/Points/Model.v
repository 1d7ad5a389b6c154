(** Point-set similarity and surface errors of sumo/metrics/utils.py 393-591.

    Coordinates are reals.  The BallTree of scikit-learn is a parameter
    [query tree q] giving the distance to and the index of a nearest neighbour;
    its contract is in Spec.v. *)
From Coq Require Import Reals List Bool String QArith ZArith.
From Verif.Base Require Import Py Vec.
From Verif.Assoc Require Import Model.
From Verif.Box Require Import Model.
Import ListNotations.
Open Scope R_scope.

(** A row of an N x D array of points: position [0:3] and remaining columns [3:6]
    (the color; no columns for voxel centers). *)
Record row := Row { r_pos : vec; r_col : list R }.

Definition Rleb (x y : R) : bool := if Rle_dec x y then true else false.
Definition Rsum (l : list R) : R := fold_right Rplus 0 l.

Section Points.
  Variable query : list vec -> vec -> R * nat.

  (** nearest_neighbors, utils.py 431-467: (ind1to2, ind2to1, dist1to2, dist2to1). *)
  Definition nearest_neighbors (points1 points2 : list vec)
    : list nat * list nat * list R * list R :=
    match points1, points2 with
    | [], _ | _, [] => ([], [], [], [])
    | _, _ =>
        let q12 := map (query points2) points1 in
        let q21 := map (query points1) points2 in
        (map snd q12, map snd q21, map fst q12, map fst q21)
    end.

  (** Quick test of points_iou, lines 414-418. *)
  Definition iou_quick_reject (bbox1 bbox2 : box) (thresh : R) : bool :=
    existsb (fun axis =>
      Rltb (coord axis (max_corner bbox2) + thresh) (coord axis (min_corner bbox1)) ||
      Rltb (coord axis (max_corner bbox1) + thresh) (coord axis (min_corner bbox2))) (seq 0 3).

  (** Lines 420-428: what points_iou computes when the quick test does not fire.
      A ratio of two counts, hence rational. *)
  Definition iou_full (points1 points2 : list row) (thresh : R) : Q :=
    let '(_, _, dist1to2, dist2to1) := nearest_neighbors (map r_pos points1) (map r_pos points2) in
    let intersection := (List.length (filter (fun d => Rleb d thresh) dist1to2) +
                         List.length (filter (fun d => Rleb d thresh) dist2to1))%nat in
    let union := (List.length points1 + List.length points2)%nat in
    if Nat.eqb union 0 then 0%Q
    else (inject_Z (Z.of_nat intersection) / inject_Z (Z.of_nat union))%Q.

  (** points_iou, utils.py 393-428. *)
  Definition points_iou (points1 : list row) (bbox1 : box) (points2 : list row) (bbox2 : box)
    (thresh : R) : Q :=
    if iou_quick_reject bbox1 bbox2 thresh then 0%Q else iou_full points1 points2 thresh.

  (** Lines 503-518: the RMSSSD of one correspondence. *)
  Definition pair_rmsssd (points1 points2 : list row) : res R :=
    let '(_, _, dist1to2, dist2to1) := nearest_neighbors (map r_pos points1) (map r_pos points2) in
    let n_matched := (List.length dist1to2 + List.length dist2to1)%nat in
    Ok (if Nat.ltb 0 n_matched then
          sqrt ((Rsum (map Rsqr dist1to2) + Rsum (map Rsqr dist2to1)) / INR n_matched)
        else 0).

  (** points[idx] on rows: IndexError out of range. *)
  Definition rows_at (points : list row) (idx : list nat) : res (list (list R)) :=
    mapM (fun i => match nth_error points i with Some r => Ok (r_col r) | None => Err IndexError end) idx.

  Definition sub_row (a b : list R) : list R := map (fun p => fst p - snd p) (combine a b).

  (** numpy's [a - b] on a (n, k) and a (m, k) array: n = m, or one of them is 1. *)
  Definition broadcast_sub (a b : list (list R)) : res (list (list R)) :=
    if Nat.eqb (List.length a) (List.length b) then Ok (map (fun p => sub_row (fst p) (snd p)) (combine a b))
    else match a, b with
         | [x], _ => Ok (map (fun y => sub_row x y) b)
         | _, [y] => Ok (map (fun x => sub_row x y) a)
         | _, _ => Err BroadcastError
         end.

  (** np.sum(d * d) *)
  Definition sum_squares (d : list (list R)) : R := Rsum (map (fun r => Rsum (map Rsqr r)) d).

  (** Lines 560-583: the color error of one correspondence. *)
  Definition pair_color (sub_points gt_points : list row) : res R :=
    let '(idx1to2, idx2to1, _, _) := nearest_neighbors (map r_pos sub_points) (map r_pos gt_points) in
    let* g := rows_at gt_points idx1to2 in
    let* color_diff1to2 := broadcast_sub (map r_col sub_points) g in
    let* s := rows_at sub_points idx2to1 in
    let* color_diff2to1 := broadcast_sub (map r_col gt_points) s in
    let n_matched := (List.length color_diff1to2 + List.length color_diff2to1)%nat in
    Ok (if Nat.ltb 0 n_matched then
          sqrt ((sum_squares color_diff1to2 + sum_squares color_diff2to1) / INR n_matched)
        else 0).

  (** The loop both errors share (points_rmsssd 485-527, color_rmsssd 546-591), with
      [pair] computing the value of one correspondence from the posed points.
      State: the cache and the list of values. *)
  Section Average.
    Context {A : Type}.
    Variable posed_points : A -> list row.
    Variable pair : list row -> list row -> res R.
    Variable ev : @evaluator A.

    (** Body of the inner loop. *)
    Definition avg_step (st : sdict (sdict R) * list R) (entry : string * corr)
      : res (sdict (sdict R) * list R) :=
      let '(cache, vals) := st in
      let '(det_id, c) := entry in
      let cache := if smem det_id cache then cache else sset det_id [] cache in
      let* row := sgetE det_id cache in
      match sget (c_gt c) row with
      | Some v => Ok (cache, vals ++ [v])
      | None =>
          let* d := sgetE det_id (ev_submission ev) in
          let* g := sgetE (c_gt c) (ev_ground_truth ev) in
          let* v := pair (posed_points (e_info d)) (posed_points (e_info g)) in
          Ok (sset det_id (sset (c_gt c) v row) cache, vals ++ [v])
      end.

    Definition avg_thresh (st : sdict (sdict R) * list R) (t : Q) : res (sdict (sdict R) * list R) :=
      let* table := dgetE Qeq_bool t (ev_agnostic ev) in
      foldM avg_step st table.

    (** The result; [None] stands for math.inf. *)
    Definition assoc_average : res (option R) :=
      let* st := foldM avg_thresh (([] : sdict (sdict R)), []) (ev_thresholds ev) in
      let vals := snd st in
      Ok (match vals with [] => None | _ => Some (Rsum vals / INR (List.length vals)) end).
  End Average.

  (** points_rmsssd 470-527 and color_rmsssd 530-591. *)
  Definition points_rmsssd {A} (posed_points : A -> list row) (ev : @evaluator A) : res (option R) :=
    assoc_average posed_points pair_rmsssd ev.
  Definition color_rmsssd {A} (posed_points : A -> list row) (ev : @evaluator A) : res (option R) :=
    assoc_average posed_points pair_color ev.

  (** MeshEvaluator: element data is the sampled points; posed_bbox is their
      bounding box (mesh_evaluator.py 139-147); _shape_similarity 206-221. *)
  Definition mesh_bbox (points : list row) : box := from_point_cloud (map r_pos points).
  Definition mesh_similarity (thresh : R) (e1 e2 : elem (list row)) : Q :=
    points_iou (e_info e1) (mesh_bbox (e_info e1)) (e_info e2) (mesh_bbox (e_info e2)) thresh.
End Points.
