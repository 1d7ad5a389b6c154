(** Rotation and translation errors, sumo/metrics/evaluator.py 321-445. *)
From Coq Require Import Reals List Bool String QArith.
From Verif.Base Require Import Py Vec.
From Verif.Assoc Require Import Model.
From Verif.Geom Require Import Model.
From Verif.Symm Require Import Model.
Import ListNotations.
Open Scope R_scope.

Section PoseError.
  (** np.linalg.norm(logm(M)): Frobenius norm of the matrix logarithm. *)
  Variable lognorm : mat -> R.

  (** symmetric_rot, 411-421: axis_rot_func[axis](rotation) applied on the right. *)
  Definition axis_rot (axis : nat) (t : R) : mat :=
    match axis with O => Rx t | S O => Ry t | _ => Rz t end.
  Definition symmetric_rot (rot : mat) (axis : nat) (t : R) : mat := rot_mul rot (axis_rot axis t).

  (** cylindrical_symmetric_rot, 423-445.  Euler angles are (z, y, x); index
      2 - axis of the ground truth is overwritten with that of the detection. *)
  Definition cylindrical_symmetric_rot (det_rot gt_rot : mat) (axis : nat) : res mat :=
    let* de := matrix_to_euler det_rot in
    let* ge := matrix_to_euler gt_rot in
    let '(dz, dy, dx) := de in
    let '(gz, gy, gx) := ge in
    Ok (euler_to_matrix
          (match axis with
           | O => (gz, gy, dx)
           | S O => (gz, dy, gx)
           | _ => (dz, gy, gx)
           end)).

  (** One iteration of the loop of rotation_error_1, 384-402; [None] stands for
      the early return of 0. *)
  Definition check_axis (det_rot : mat) (rots : list mat) (axis : nat) (sym : symmetry_type)
    : res (option (list mat)) :=
    match sym with
    | spherical => Ok None
    | twoFold => Ok (Some (rots ++ map (fun rot => symmetric_rot rot axis PI) rots))
    | fourFold =>
        let new_rots := map (fun rot => symmetric_rot rot axis (1 / 2 * PI)) rots in
        let new_rots := new_rots ++ map (fun rot => symmetric_rot rot axis PI) rots in
        let new_rots := new_rots ++ map (fun rot => symmetric_rot rot axis (3 / 2 * PI)) rots in
        Ok (Some (rots ++ new_rots))
    | cylindrical =>
        let* rots' := mapM (fun rot => cylindrical_symmetric_rot det_rot rot axis) rots in
        Ok (Some rots')
    | none => Ok (Some rots)
    end.

  Fixpoint check_axes (det_rot : mat) (rots : list mat) (axis : nat) (syms : list symmetry_type)
    : res (option (list mat)) :=
    match syms with
    | [] => Ok (Some rots)
    | sym :: syms =>
        let* r := check_axis det_rot rots axis sym in
        match r with
        | None => Ok None
        | Some rots => check_axes det_rot rots (S axis) syms
        end
    end.

  (** errors, 406-408, and their minimum, 409 (the list is never empty). *)
  Definition rot_difference (det_rot gt_rot : mat) : R :=
    sqrt (1 / 2) * lognorm (mmul (mtr det_rot) gt_rot).
  Fixpoint min_list (x : R) (l : list R) : R :=
    match l with [] => x | y :: l => min_list (if Rlt_dec y x then y else x) l end.

  (** rotation_error_1, 366-409. *)
  Definition rotation_error_1 (det_rot gt_rot : mat) (s : symmetry) : res R :=
    let* r := check_axes det_rot [gt_rot] 0 [x_symmetry s; y_symmetry s; z_symmetry s] in
    match r with
    | None => Ok 0
    | Some rots =>
        match map (rot_difference det_rot) rots with
        | [] => Err ValueError
        | e :: es => Ok (min_list e es)
        end
    end.

  (** Pose and symmetry of an element. *)
  Definition placed := elem (pose * symmetry).

  (** Lines 345-355: errors of one evaluated correspondence.  np.linalg.norm of
      the difference of the translations. *)
  Definition pair_errors (det_element gt_element : placed) : res (R * R) :=
    let* rot := rotation_error_1 (pR (fst (e_info det_element))) (pR (fst (e_info gt_element)))
                                 (snd (e_info gt_element)) in
    Ok (rot, norm (vsub (pt (fst (e_info gt_element))) (pt (fst (e_info det_element))))).

  (** Body of the loop over the correspondences, 344-355. *)
  Definition corr_errors (ev : @evaluator (pose * symmetry)) (c : corr) : res (list (R * R)) :=
    let* det_element := sgetE (c_det c) (ev_submission ev) in
    let* gt_element := sgetE (c_gt c) (ev_ground_truth ev) in
    if e_evaluated gt_element then
      let* e := pair_errors det_element gt_element in Ok [e]
    else Ok [].

  Definition rmean (l : list R) : R := fold_right Rplus 0 l / INR (List.length l).

  (** One threshold, 342-359. *)
  Definition thresh_errors (ev : @evaluator (pose * symmetry)) (t : Q) : res (list (R * R)) :=
    let* table := dgetE Qeq_bool t (ev_agnostic ev) in
    let* es := mapM (corr_errors ev) (dvalues table) in
    let l := List.concat es in
    match l with
    | [] => Ok []
    | _ => Ok [(rmean (map fst l), rmean (map snd l))]
    end.

  (** pose_error, 321-364.  [None] is (math.inf, math.inf). *)
  Definition pose_error (ev : @evaluator (pose * symmetry)) : res (option (R * R)) :=
    let* per := mapM (thresh_errors ev) (ev_thresholds ev) in
    let l := List.concat per in
    match l with
    | [] => Ok None
    | _ => Ok (Some (rmean (map fst l), rmean (map snd l)))
    end.
End PoseError.
