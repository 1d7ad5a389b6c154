(** C29-C32, C58, C59: poses, rotations, quaternions and Euler angles. *)
From Coq Require Import Reals Lra List.
From Verif.Base Require Import Py Vec.
From Verif.Geom Require Import Model Spec Proofs.
Import ListNotations.
Open Scope R_scope.

(** C29: poses form a group acting on points. *)
Theorem C29_pose_group :
  (forall a b c, compose (compose a b) c = compose a (compose b c)) /\
  (forall a, compose pose_id a = a /\ compose a pose_id = a) /\
  (forall a, rotation (pR a) ->
     rotation (pR (inverse a)) /\ compose (inverse a) a = pose_id /\ compose a (inverse a) = pose_id /\
     inverse (inverse a) = a).
Proof.
  split; [exact compose_assoc|]. split; [intro; split; [apply compose_id_l|apply compose_id_r]|].
  intros a H. split; [apply inverse_rotation, H|]. split; [apply compose_inverse_l, H|].
  split; [apply compose_inverse_r, H|apply inverse_involutive, H].
Qed.

Theorem C29_pose_action :
  (forall p, transform_from pose_id p = p) /\
  (forall a b p, transform_from (compose a b) p = transform_from a (transform_from b p)) /\
  (forall a p, rotation (pR a) -> transform_to a (transform_from a p) = p /\ transform_from a (transform_to a p) = p) /\
  (forall a q, transform_to a q = transform_from (inverse a) q) /\
  (forall a p q, rotation (pR a) -> dist (transform_from a p) (transform_from a q) = dist p q).
Proof.
  split; [intros []; apply vec_eq; simpl; ring|]. split; [exact transform_from_compose|].
  split; [intros a p H; split; [apply transform_to_from, H|apply transform_from_to, H]|].
  split; [exact transform_to_inverse|exact transform_from_dist].
Qed.

(** Column i of the array result is the single-point result of column i. *)
Theorem C29_array_versions : forall a ps,
  length (transform_all_from a ps) = length ps /\ length (transform_all_to a ps) = length ps /\
  forall i p, nth_error ps i = Some p ->
    nth_error (transform_all_from a ps) i = Some (transform_from a p) /\
    nth_error (transform_all_to a ps) i = Some (transform_to a p).
Proof.
  intros a ps. rewrite transform_all_from_map, transform_all_to_map, !map_length.
  split; [reflexivity|]. split; [reflexivity|]. intros i p H.
  split; apply map_nth_error; exact H.
Qed.

Example C29_example :
  let a := Pose (M33 0 (-1) 0 1 0 0 0 0 1) (V 1 2 3) in
  rotation (pR a) /\ transform_from a (V 1 0 0) = V 1 3 3 /\ transform_to a (V 1 3 3) = V 1 0 0 /\
  inverse a = Pose (M33 0 1 0 (-1) 0 0 0 0 1) (V (-2) 1 (-3)).
Proof.
  split; [split; [apply mat_eq; simpl; ring|unfold det; simpl; ring]|].
  split; [apply vec_eq; simpl; ring|]. split; [apply vec_eq; simpl; ring|].
  apply pose_eq; [apply mat_eq|apply vec_eq]; simpl; ring.
Qed.

(** C30: the axis rotations are rotations, about their axis, by their angle. *)
Theorem C30_axis_rotations : forall t,
  (rotation (Rx t) /\ rotate (Rx t) (V 1 0 0) = V 1 0 0 /\
   rotate (Rx t) (V 0 1 0) = V 0 (cos t) (sin t)) /\
  (rotation (Ry t) /\ rotate (Ry t) (V 0 1 0) = V 0 1 0 /\
   rotate (Ry t) (V 0 0 1) = V (sin t) 0 (cos t)) /\
  (rotation (Rz t) /\ rotate (Rz t) (V 0 0 1) = V 0 0 1 /\
   rotate (Rz t) (V 1 0 0) = V (cos t) (sin t) 0).
Proof.
  intro t. split; [|split]; (split; [auto using Rx_rotation, Ry_rotation, Rz_rotation|]);
    split; apply vec_eq; simpl; ring.
Qed.

Theorem C30_angles_add : forall a b,
  rot_mul (Rx a) (Rx b) = Rx (a + b) /\ rot_mul (Ry a) (Ry b) = Ry (a + b) /\
  rot_mul (Rz a) (Rz b) = Rz (a + b) /\
  rot_inverse (Rx a) = Rx (- a) /\ rot_inverse (Ry a) = Ry (- a) /\ rot_inverse (Rz a) = Rz (- a).
Proof.
  intros a b. split; [apply Rx_add|]. split; [apply Ry_add|]. split; [apply Rz_add|].
  split; [apply Rx_inv|]. split; [apply Ry_inv|apply Rz_inv].
Qed.

Theorem C30_rotations_closed : forall a b, rotation a -> rotation b ->
  rotation (rot_mul a b) /\ rotation (rot_inverse a) /\
  rot_mul (rot_inverse a) a = mid /\ rot_mul a (rot_inverse a) = mid /\
  forall u v, dot (rotate a u) (rotate a v) = dot u v /\ norm (rotate a u) = norm u /\
    rotate a (cross u v) = cross (rotate a u) (rotate a v) /\
    unrotate a (rotate a u) = u /\ rotate a (unrotate a u) = u.
Proof.
  intros a b Ha Hb. split; [apply rotation_mmul; assumption|]. split; [apply rotation_mtr, Ha|].
  split; [apply Ha|]. split; [apply rotation_right, Ha|]. intros u v.
  split; [apply rotation_dot, Ha|]. split; [apply rotation_norm, Ha|].
  split; [apply rotation_cross, Ha|]. split; [apply unrotate_rotate, Ha|apply rotate_unrotate, Ha].
Qed.

Example C30_example : rotation (Rx 1) /\ Rz (PI / 2) = M33 0 (-1) 0 1 0 0 0 0 1.
Proof.
  split; [apply Rx_rotation|]. unfold Rz, FromScalars. rewrite cos_PI2, sin_PI2. reflexivity.
Qed.

(** C31: quaternions and matrices. *)
Theorem C31_quat_to_matrix : forall q, unit_quat q ->
  rotation (quat_to_matrix q) /\
  (forall v, qpure (rotate (quat_to_matrix q) v) = qmul (qmul q (qpure v)) (qconj q)) /\
  (forall p, unit_quat p -> (quat_to_matrix p = quat_to_matrix q <-> p = q \/ p = qneg q)) /\
  (forall p, unit_quat p -> quat_to_matrix (qmul p q) = rot_mul (quat_to_matrix p) (quat_to_matrix q)).
Proof.
  intros q H. split; [apply quat_to_matrix_rotation, H|]. split; [intro; apply quat_to_matrix_conj, H|].
  split.
  - intros p Hp. split; [apply quat_to_matrix_inj; assumption|].
    intros [->| ->]; [reflexivity|apply quat_to_matrix_neg].
  - intros p Hp. apply quat_to_matrix_mul; assumption.
Qed.

Theorem C31_matrix_to_quat : forall m, rotation m ->
  unit_quat (matrix_to_quat m) /\ quat_to_matrix (matrix_to_quat m) = m.
Proof. exact matrix_to_quat_sound. Qed.

Theorem C31_quat_roundtrip : forall q, unit_quat q ->
  matrix_to_quat (quat_to_matrix q) = q \/ matrix_to_quat (quat_to_matrix q) = qneg q.
Proof. exact matrix_to_quat_inverse. Qed.

(** One rotation for each of the four branches, and the quaternion of one of them. *)
Example C31_example :
  rotation mid /\ rotation (M33 1 0 0 0 (-1) 0 0 0 (-1)) /\ rotation (M33 (-1) 0 0 0 1 0 0 0 (-1)) /\
  rotation (M33 (-1) 0 0 0 (-1) 0 0 0 1) /\
  unit_quat (Q4 (1/2) (1/2) (1/2) (1/2)) /\
  quat_to_matrix (Q4 (1/2) (1/2) (1/2) (1/2)) = M33 0 0 1 1 0 0 0 1 0 /\
  quat_to_matrix (Q4 0 1 0 0) = M33 1 0 0 0 (-1) 0 0 0 (-1).
Proof.
  split; [apply rotation_id|].
  do 3 (split; [split; [apply mat_eq; simpl; ring|unfold det; simpl; ring]|]).
  split; [unfold unit_quat; simpl; lra|].
  split; rewrite quat_to_matrix_poly; apply mat_eq; simpl; lra.
Qed.

(** C32: Euler angles. *)
Theorem C32_euler_to_matrix : forall z y x,
  rotation (euler_to_matrix (z, y, x)) /\
  euler_to_matrix (z, y, x) = rot_mul (Rz z) (rot_mul (Ry y) (Rx x)) /\
  unit_quat (euler_to_quat (z, y, x)) /\
  quat_to_matrix (euler_to_quat (z, y, x)) = euler_to_matrix (z, y, x).
Proof.
  intros. split; [apply euler_to_matrix_rotation|].
  split; [unfold euler_to_matrix, rot_mul; apply mmul_assoc|apply euler_to_quat_spec].
Qed.

(** A rotation converts without error; away from gimbal lock it is recovered. *)
Theorem C32_matrix_roundtrip : forall m, rotation m ->
  (exists e, matrix_to_euler m = Ok e) /\
  (gimbal_free m ->
   exists z y x, matrix_to_euler m = Ok (z, y, x) /\ euler_to_matrix (z, y, x) = m /\
     - PI < z <= PI /\ - (PI / 2) < y < PI / 2 /\ - PI < x <= PI).
Proof.
  intros m H. split; [destruct (matrix_to_euler_eq m H) as [_ E]; eexists; exact E|].
  apply matrix_to_euler_sound, H.
Qed.

Theorem C32_euler_roundtrip : forall z y x,
  - PI < z <= PI -> - (PI / 2) < y < PI / 2 -> - PI < x <= PI ->
  gimbal_free (euler_to_matrix (z, y, x)) /\
  matrix_to_euler (euler_to_matrix (z, y, x)) = Ok (z, y, x).
Proof.
  intros z y x Hz Hy Hx. split; [apply euler_gimbal_free, Hy|apply matrix_to_euler_inverse; assumption].
Qed.

Theorem C32_quat_roundtrip : forall q, unit_quat q -> gimbal_free (quat_to_matrix q) ->
  exists e, quat_to_euler q = Ok e /\ (euler_to_quat e = q \/ euler_to_quat e = qneg q).
Proof. exact quat_to_euler_sound. Qed.

(** At gimbal lock the round trip can change the rotation. *)
Theorem C32_gimbal_lock_refuted : exists m e,
  rotation m /\ matrix_to_euler m = Ok e /\ euler_to_matrix e <> m.
Proof.
  exists gimbal_witness, (0, PI / 2, 0).
  split; [exact gimbal_witness_rotation|]. split; [exact gimbal_witness_euler|exact gimbal_witness_lost].
Qed.

Example C32_example : - PI < 1 <= PI /\ - (PI / 2) < 1/2 < PI / 2 /\
  gimbal_free (euler_to_matrix (1, 1/2, -1)) /\ matrix_to_euler (euler_to_matrix (1, 1/2, -1)) = Ok (1, 1/2, -1).
Proof.
  assert (P := PI2_1). split; [lra|]. split; [lra|]. apply C32_euler_roundtrip; lra.
Qed.

(** C58: AxisAngle and the camera constructors. *)
Theorem C58_axis_angle : forall d a, dot d d = 1 ->
  rotation (AxisAngle d a) /\ rotate (AxisAngle d a) d = d /\
  trace (AxisAngle d a) = 1 + 2 * cos a /\
  (forall v, dot d v = 0 ->
     rotate (AxisAngle d a) v = vadd (smul (cos a) v) (smul (sin a) (cross d v))) /\
  (forall b, rot_mul (AxisAngle d a) (AxisAngle d b) = AxisAngle d (a + b)).
Proof.
  intros d a H. split; [apply axis_angle_rotation, H|]. split; [apply axis_angle_fixes, H|].
  split; [apply axis_angle_trace, H|]. split; [apply axis_angle_perp|].
  intro b. apply axis_angle_add, H.
Qed.

Theorem C58_axis_angle_axes : forall a,
  AxisAngle (V 1 0 0) a = Rx a /\ AxisAngle (V 0 1 0) a = Ry a /\ AxisAngle (V 0 0 1) a = Rz a.
Proof. intro a. split; [apply axis_angle_x|]. split; [apply axis_angle_y|apply axis_angle_z]. Qed.

(** Optical axis (camera z) and down axis (camera y) in the world frame. *)
Theorem C58_enu_camera : forall roll pitch yaw,
  rotation (ENU_camera roll pitch yaw) /\
  rotate (ENU_camera roll pitch yaw) (V 0 0 1) =
    V (sin yaw * cos pitch) (cos yaw * cos pitch) (sin pitch) /\
  rotate (ENU_camera 0 0 yaw) (V 0 1 0) = V 0 0 (-1).
Proof.
  intros. split; [apply enu_camera_rotation|]. split.
  - apply vec_eq; simpl; ring.
  - apply vec_eq; simpl; rewrite ?sin_0, ?cos_0; ring.
Qed.
Theorem C58_maya_camera : forall roll pitch yaw,
  rotation (Maya_camera roll pitch yaw) /\
  rotate (Maya_camera roll pitch yaw) (V 0 0 1) =
    V (sin yaw * cos pitch) (sin pitch) (- (cos yaw * cos pitch)) /\
  rotate (Maya_camera 0 0 yaw) (V 0 1 0) = V 0 (-1) 0.
Proof.
  intros. split; [apply maya_camera_rotation|]. split.
  - apply vec_eq; simpl; ring.
  - apply vec_eq; simpl; rewrite ?sin_0, ?cos_0; ring.
Qed.
Example C58_example : dot (V (3/5) 0 (4/5)) (V (3/5) 0 (4/5)) = 1.
Proof. unfold dot; simpl; field. Qed.

(** C59: matrix and JSON forms of a pose. *)
Theorem C59_pose_formats : forall a,
  FromMatrix34 (matrix34 a) = a /\ pose_from_json (pose_to_json a) = a /\
  FromColumns (rot_column (pR a) 0) (rot_column (pR a) 1) (rot_column (pR a) 2) = pR a /\
  (forall j, (j < 3)%nat -> rot_column (pR a) j =
     rotate (pR a) (match j with O => V 1 0 0 | S O => V 0 1 0 | _ => V 0 0 1 end)).
Proof.
  intro a. split; [apply matrix34_roundtrip|]. split; [apply pose_json_roundtrip|].
  split; [destruct a as [[]]; reflexivity|].
  intros [|[|j]] _; destruct a as [[]]; apply vec_eq; simpl; ring.
Qed.
Example C59_example : matrix34 (Pose (M33 0 (-1) 0 1 0 0 0 0 1) (V 1 2 3)) =
  (V 0 1 0, V (-1) 0 0, V 0 0 1, V 1 2 3).
Proof. reflexivity. Qed.

Print Assumptions C29_pose_group.
Print Assumptions C29_pose_action.
Print Assumptions C29_array_versions.
Print Assumptions C30_axis_rotations.
Print Assumptions C30_angles_add.
Print Assumptions C30_rotations_closed.
Print Assumptions C31_quat_to_matrix.
Print Assumptions C31_matrix_to_quat.
Print Assumptions C31_quat_roundtrip.
Print Assumptions C32_euler_to_matrix.
Print Assumptions C32_matrix_roundtrip.
Print Assumptions C32_euler_roundtrip.
Print Assumptions C32_quat_roundtrip.
Print Assumptions C32_gimbal_lock_refuted.
Print Assumptions C58_axis_angle.
Print Assumptions C58_axis_angle_axes.
Print Assumptions C58_enu_camera.
Print Assumptions C58_maya_camera.
Print Assumptions C59_pose_formats.
