(** What comparisons should mean. *)
From Coq Require Import Reals List Bool String Lra.
From Verif.Base Require Import Py Vec.
From Verif.Geom Require Import Model.
From Verif.Box Require Import Model.
From Verif.Symm Require Import Model.
From Verif.Scene Require Import Model.
From Verif.Equal Require Import Model.
Local Open Scope R_scope.

(** Within an absolute tolerance and a share of the second number. *)
Definition near (rtol atol x y : R) : Prop := Rabs (x - y) <= atol + rtol * Rabs y.
Definition vnear rtol atol (u v : vec) : Prop := forall i, (i < 3)%nat -> near rtol atol (coord i u) (coord i v).
(** The images of the unit vectors. *)
Definition axis (j : nat) : vec := match j with O => V 1 0 0 | S O => V 0 1 0 | _ => V 0 0 1 end.
Definition rnear rtol atol (a b : mat) : Prop := forall j, (j < 3)%nat -> vnear rtol atol (mvec a (axis j)) (mvec b (axis j)).
Definition pnear rtol atol (a b : pose) : Prop := rnear rtol atol (pR a) (pR b) /\ vnear rtol atol (pt a) (pt b).
(** Every coordinate differs by less than a bound. *)
Definition vbelow bound (u v : vec) : Prop := forall i, (i < 3)%nat -> Rabs (coord i u - coord i v) < bound.
Definition rbelow bound (a b : mat) : Prop := forall j, (j < 3)%nat -> vbelow bound (mvec a (axis j)) (mvec b (axis j)).
Definition pbelow bound (a b : pose) : Prop := rbelow bound (pR a) (pR b) /\ vbelow bound (pt a) (pt b).

(** Sum of the absolute coordinates. *)
Definition extent (p : vec) : R := Rabs (vx p) + Rabs (vy p) + Rabs (vz p).

(** Two objects agree in everything but geometry. *)
Definition same_labels {M} (a b : pobject M) : Prop :=
  o_id a = o_id b /\ o_category a = o_category b /\ o_symmetry a = o_symmetry b /\ o_evaluated a = o_evaluated b.

(** num_primitive_meshes is the number of meshes there are. *)
Definition counted {M} (count : M -> nat) (sizes : M -> res (list (nat * nat))) : Prop :=
  forall m l, sizes m = Ok l -> List.length l = count m.
