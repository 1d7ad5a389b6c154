(** What quaternions, surreal poses and the vector functions are meant to do. *)
From Coq Require Import Reals ZArith List Bool.
From Verif.Base Require Import Py Vec.
From Verif.Geom Require Import Model Spec.
From Verif.Quat Require Import Model.
Import ListNotations.
Open Scope R_scope.

Definition qzero : quat := Q4 0 0 0 0.
Definition qscale (c : R) (q : quat) : quat := Q4 (c * qw q) (c * qx q) (c * qy q) (c * qz q).
Definition qsq (q : quat) : R := qw q * qw q + qx q * qx q + qy q * qy q + qz q * qz q.

(** [m] is the rotation v |-> q v q* / |q|^2 of a quaternion other than 0. *)
Definition turns (q : quat) (m : mat) : Prop :=
  q <> qzero /\ forall v, qpure (smul (qsq q) (mvec m v)) = qmul (qmul q (qpure v)) (qconj q).

(** What is asked of Eigen's quaternions: [normalized] of a quaternion other than 0 is
    its positive multiple of norm 1; [matrix] of a unit quaternion is its rotation; the
    constructor from a rotation matrix gives a unit quaternion of that rotation. *)
Definition eigen_ok (E : eigen) : Prop :=
  (forall m, rotation m -> unit_quat (of_matrix E m) /\ turns (of_matrix E m) m) /\
  (forall q, q <> qzero -> unit_quat (normalized E q) /\ exists k, 0 < k /\ normalized E q = qscale k q) /\
  (forall q, unit_quat q -> turns q (to_matrix E q)).

(** The array, however it lies in memory, shows this 3*3 matrix of doubles. *)
Definition entry_of (m : mat) (i j : nat) : R :=
  match i, j with
  | 0, 0 => m00 m | 0, 1 => m01 m | 0, _ => m02 m
  | 1, 0 => m10 m | 1, 1 => m11 m | 1, _ => m12 m
  | _, 0 => m20 m | _, 1 => m21 m | _, _ => m22 m
  end%nat.
Definition shows_matrix (a : ndarray) (m : mat) : Prop :=
  nd_shape a = [3; 3]%nat /\ nd_type a = Double /\
  forall i j, (i < 3)%nat -> (j < 3)%nat -> item a [i; j] = entry_of m i j.

(** The array shows these numbers, of any number type. *)
Definition shows_list (a : ndarray) (l : list R) : Prop :=
  nd_shape a = [List.length l] /\ nd_type a <> NotANumber /\
  forall i, (i < List.length l)%nat -> item a [i] = nth i l 0.
Definition wxyz (q : quat) : list R := [qw q; qx q; qy q; qz q].
Definition xyzw (q : quat) : list R := [qx q; qy q; qz q; qw q].

(** * Vectors *)
(** Vectors of the same length, added and scaled entry by entry; sums of squares. *)
Definition ssq (v : list R) : R := fold_right Rplus 0 (map (fun x => x * x) v).
Definition scaled (k : R) (v : list R) : list R := map (Rmult k) v.
(** The value of a result of unitize on [v]. *)
Definition value (v : list R) (u : unitized) : list R := match u with Same => v | New w => w end.

(** Looking along -N, left of the direction [d] is the direction [d] turned by 90 degrees
    about N: the cross product of N and d. *)
Definition leftward (N d : vec) : vec := cross N d.
