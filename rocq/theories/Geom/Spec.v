(** Rotation quaternions and angles, stated independently of the conversions. *)
From Coq Require Import Reals List.
From Verif.Base Require Import Vec.
From Verif.Geom Require Import Model.
Open Scope R_scope.

(** Unit quaternion. *)
Definition unit_quat (q : quat) : Prop :=
  qw q * qw q + qx q * qx q + qy q * qy q + qz q * qz q = 1.

(** Hamilton product and conjugation: the rotation a unit quaternion stands for is
    v |-> q v q*. *)
Definition qmul (a b : quat) : quat :=
  Q4 (qw a * qw b - qx a * qx b - qy a * qy b - qz a * qz b)
     (qw a * qx b + qx a * qw b + qy a * qz b - qz a * qy b)
     (qw a * qy b - qx a * qz b + qy a * qw b + qz a * qx b)
     (qw a * qz b + qx a * qy b - qy a * qx b + qz a * qw b).
Definition qconj (a : quat) : quat := Q4 (qw a) (- qx a) (- qy a) (- qz a).
Definition qneg (a : quat) : quat := Q4 (- qw a) (- qx a) (- qy a) (- qz a).
Definition qpure (v : vec) : quat := Q4 0 (vx v) (vy v) (vz v).

(** Pitch of the matrix is not +-90 degrees. *)
Definition gimbal_free (m : mat) : Prop := Rabs (m20 m) < 1.
