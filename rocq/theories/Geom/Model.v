(** Rot3, Pose3 (sumo/geometry) and the rotation conversions of
    sumo/metrics/utils.py.  Floats are reals. *)
From Coq Require Import Reals Lra List.
From Verif.Base Require Import Py Vec.
Import ListNotations.
Open Scope R_scope.

(** * Rot3, geometry/rot3.pyx *)

(** FromScalars, rot3.pyx 64-69 (row by row). *)
Definition FromScalars := M33.

(** FromColumns, rot3.pyx 71-74: np.stack((x, y, z), axis=1). *)
Definition FromColumns (x y z : vec) : mat :=
  M33 (vx x) (vx y) (vx z) (vy x) (vy y) (vy z) (vz x) (vz y) (vz z).

(** __call__, rot3.pyx 38-40: column j. *)
Definition rot_column (r : mat) (j : nat) : vec :=
  match j with
  | O => V (m00 r) (m10 r) (m20 r)
  | S O => V (m01 r) (m11 r) (m21 r)
  | _ => V (m02 r) (m12 r) (m22 r)
  end.

(** inverse 42-44, rotate 46-48, unrotate 50-52, __mul__ with a Rot3 58-61. *)
Definition rot_inverse (r : mat) : mat := mtr r.
Definition rotate (r : mat) (p : vec) : vec := mvec r p.
Definition unrotate (r : mat) (q : vec) : vec := mvec (mtr r) q.
Definition rot_mul (r s : mat) : mat := mmul r s.

(** __mul__ with a 3*n array, rot3.pyx 62-64: np.dot(R, p).  A 3*n array is the
    list of its columns. *)
Definition rot_mul_array (r : mat) (p : list vec) : list vec := map (mvec r) p.

(** Rx, Ry, Rz: rot3.pyx 76-89. *)
Definition Rx (t : R) : mat := FromScalars 1 0 0 0 (cos t) (- sin t) 0 (sin t) (cos t).
Definition Ry (t : R) : mat := FromScalars (cos t) 0 (sin t) 0 1 0 (- sin t) 0 (cos t).
Definition Rz (t : R) : mat := FromScalars (cos t) (- sin t) 0 (sin t) (cos t) 0 0 0 1.

(** AxisAngle, rot3.pyx 91-105: dd^T + cos a (I - dd^T) + sin a skew(d). *)
Definition AxisAngle (d : vec) (a : R) : mat :=
  let c := cos a in let s := sin a in
  M33 (vx d * vx d + c * (1 - vx d * vx d) + s * 0)
      (vx d * vy d + c * (0 - vx d * vy d) + s * (- vz d))
      (vx d * vz d + c * (0 - vx d * vz d) + s * vy d)
      (vy d * vx d + c * (0 - vy d * vx d) + s * vz d)
      (vy d * vy d + c * (1 - vy d * vy d) + s * 0)
      (vy d * vz d + c * (0 - vy d * vz d) + s * (- vx d))
      (vz d * vx d + c * (0 - vz d * vx d) + s * (- vy d))
      (vz d * vy d + c * (0 - vz d * vy d) + s * vx d)
      (vz d * vz d + c * (1 - vz d * vz d) + s * 0).

(** ENU_R_CAMERA 19-21 and MAYA_R_CAMERA 24-26 (transposes of the literals). *)
Definition ENU_R_CAMERA : mat := mtr (M33 1 0 0 0 0 (-1) 0 1 0).
Definition MAYA_R_CAMERA : mat := mtr (M33 1 0 0 0 (-1) 0 0 0 (-1)).

(** ENU_camera 125-134, Maya_camera 136-147. *)
Definition ENU_camera (roll pitch yaw : R) : mat :=
  rot_mul (rot_mul (rot_mul ENU_R_CAMERA (Ry yaw)) (Rx pitch)) (Rz roll).
Definition Maya_camera (roll pitch yaw : R) : mat :=
  rot_mul (rot_mul (rot_mul MAYA_R_CAMERA (Ry yaw)) (Rx pitch)) (Rz roll).

(** to_json / from_json, rot3.pyx 198-224: the three columns under X, Y, Z. *)
Definition rot_to_json (r : mat) : vec * vec * vec :=
  (rot_column r 0, rot_column r 1, rot_column r 2).
Definition rot_from_json (j : vec * vec * vec) : mat :=
  let '(x, y, z) := j in FromColumns x y z.

(** * Pose3, geometry/pose3.pyx *)
Record pose := Pose { pR : mat; pt : vec }.

(** Default constructor, 26-33. *)
Definition pose_id : pose := Pose mid vzero.

(** compose 43-44. *)
Definition compose (a b : pose) : pose :=
  Pose (rot_mul (pR a) (pR b)) (vadd (mvec (pR a) (pt b)) (pt a)).

(** inverse 46-48. *)
Definition inverse (a : pose) : pose :=
  let Rt := rot_inverse (pR a) in Pose Rt (vopp (mvec Rt (pt a))).

(** transform_from 50-52. *)
Definition transform_from (a : pose) (p : vec) : vec := vadd (mvec (pR a) p) (pt a).

(** numpy transposition of a 3*n array seen as columns gives the n*3 array whose
    rows are those columns; adding a 3-vector broadcasts over the rows. *)
Definition add_to_rows (rows : list vec) (t : vec) : list vec := map (fun r => vadd r t) rows.
Definition sub_from_rows (rows : list vec) (t : vec) : list vec := map (fun r => vsub r t) rows.

(** transform_all_from 54-57. *)
Definition transform_all_from (a : pose) (p : list vec) : list vec :=
  add_to_rows (rot_mul_array (pR a) p) (pt a).

(** transform_to 72-74, transform_all_to 76-79. *)
Definition transform_to (a : pose) (q : vec) : vec := unrotate (pR a) (vsub q (pt a)).
Definition transform_all_to (a : pose) (q : list vec) : list vec :=
  map (unrotate (pR a)) (sub_from_rows q (pt a)).

(** matrix34 81-82: four columns; FromMatrix34 104-108 (shape check not modelled:
    the type has the shape). *)
Definition matrix34 (a : pose) : vec * vec * vec * vec :=
  (rot_column (pR a) 0, rot_column (pR a) 1, rot_column (pR a) 2, pt a).
Definition FromMatrix34 (m : vec * vec * vec * vec) : pose :=
  let '(x, y, z, t) := m in Pose (FromColumns x y z) t.

(** to_json 235-240, from_json 221-233. *)
Definition pose_to_json (a : pose) := (rot_to_json (pR a), pt a).
Definition pose_from_json (j : (vec * vec * vec) * vec) : pose :=
  Pose (rot_from_json (fst j)) (snd j).

(** * Rotation conversions, metrics/utils.py *)

(** Quaternion in (w, i, j, k) order. *)
Record quat := Q4 { qw : R; qx : R; qy : R; qz : R }.

(** Final normalization, utils.py 105-106. *)
Definition qnormalize (q : quat) : quat :=
  let D := sqrt (qw q * qw q + qx q * qx q + qy q * qy q + qz q * qz q) in
  Q4 (qw q / D) (qx q / D) (qy q / D) (qz q / D).

(** matrix_to_quat, utils.py 61-106. *)
Definition matrix_to_quat (m : mat) : quat :=
  let tr := m00 m + m11 m + m22 m in
  qnormalize
  (if Rlt_dec 0 tr then
    let S := sqrt (tr + 1) * 2 in
    Q4 (1 / 4 * S) ((m21 m - m12 m) / S) ((m02 m - m20 m) / S) ((m10 m - m01 m) / S)
  else if Rlt_dec (m11 m) (m00 m) then
    if Rlt_dec (m22 m) (m00 m) then
      let S := sqrt (1 + m00 m - m11 m - m22 m) * 2 in
      Q4 ((m21 m - m12 m) / S) (1 / 4 * S) ((m01 m + m10 m) / S) ((m02 m + m20 m) / S)
    else if Rlt_dec (m22 m) (m11 m) then
      let S := sqrt (1 + m11 m - m00 m - m22 m) * 2 in
      Q4 ((m02 m - m20 m) / S) ((m01 m + m10 m) / S) (1 / 4 * S) ((m12 m + m21 m) / S)
    else
      let S := sqrt (1 + m22 m - m00 m - m11 m) * 2 in
      Q4 ((m10 m - m01 m) / S) ((m02 m + m20 m) / S) ((m12 m + m21 m) / S) (1 / 4 * S)
  else if Rlt_dec (m22 m) (m11 m) then
      let S := sqrt (1 + m11 m - m00 m - m22 m) * 2 in
      Q4 ((m02 m - m20 m) / S) ((m01 m + m10 m) / S) (1 / 4 * S) ((m12 m + m21 m) / S)
    else
      let S := sqrt (1 + m22 m - m00 m - m11 m) * 2 in
      Q4 ((m10 m - m01 m) / S) ((m02 m + m20 m) / S) ((m12 m + m21 m) / S) (1 / 4 * S)).

(** quat_to_matrix, utils.py 109-126: q = sqrt(2) * quat, then the outer product. *)
Definition quat_to_matrix (quat0 : quat) : mat :=
  let k := sqrt 2 in
  let w := k * qw quat0 in let x := k * qx quat0 in
  let y := k * qy quat0 in let z := k * qz quat0 in
  M33 (1 - y * y - z * z) (x * y - z * w) (x * z + y * w)
      (x * y + z * w) (1 - x * x - z * z) (y * z - x * w)
      (x * z - y * w) (y * z + x * w) (1 - x * x - y * y).

(** math.atan2 (signed zeros and infinities are outside the model). *)
Definition atan2 (y x : R) : R :=
  if Rlt_dec 0 x then atan (y / x)
  else if Rlt_dec x 0 then (if Rle_dec 0 y then atan (y / x) + PI else atan (y / x) - PI)
  else if Rlt_dec 0 y then PI / 2
  else if Rlt_dec y 0 then - (PI / 2)
  else 0.

(** quat_to_euler, utils.py 129-150: (z, y, x).  math.asin raises ValueError
    outside [-1, 1]. *)
Definition quat_to_euler (q : quat) : res (R * R * R) :=
  let s := -2 * (qx q * qz q - qw q * qy q) in
  if Rle_dec (-1) s then
    if Rle_dec s 1 then
      Ok (atan2 (2 * (qx q * qy q + qw q * qz q))
                (qw q * qw q + qx q * qx q - qy q * qy q - qz q * qz q),
          asin s,
          atan2 (2 * (qy q * qz q + qw q * qx q))
                (qw q * qw q - qx q * qx q - qy q * qy q + qz q * qz q))
    else Err ValueError
  else Err ValueError.

(** euler_to_quat, utils.py 153-174. *)
Definition euler_to_quat (e : R * R * R) : quat :=
  let '(z, y, x) := e in
  let cz := cos (1 / 2 * z) in let sz := sin (1 / 2 * z) in
  let cy := cos (1 / 2 * y) in let sy := sin (1 / 2 * y) in
  let cx := cos (1 / 2 * x) in let sx := sin (1 / 2 * x) in
  Q4 (cz * cy * cx + sz * sy * sx)
     (cz * cy * sx - sz * sy * cx)
     (cz * sy * cx + sz * cy * sx)
     (sz * cy * cx - cz * sy * sx).

(** euler_to_matrix, utils.py 177-191. *)
Definition euler_to_matrix (e : R * R * R) : mat :=
  let '(z, y, x) := e in rot_mul (rot_mul (Rz z) (Ry y)) (Rx x).

(** matrix_to_euler, utils.py 194-209. *)
Definition matrix_to_euler (m : mat) : res (R * R * R) := quat_to_euler (matrix_to_quat m).
