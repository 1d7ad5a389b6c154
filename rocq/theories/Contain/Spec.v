(** Points in the interior of a box; arrays of points. *)
From Coq Require Import Reals List.
From Verif.Base Require Import Vec.
From Verif.Box Require Import Model Spec.
From Verif.Contain Require Import Model.
Import ListNotations.
Open Scope R_scope.

(** A ball around the point stays in the box. *)
Definition interior (b : box) (p : vec) : Prop := exists e, 0 < e /\ forall q, dist p q < e -> inside b q.

(** Arrays of shape (3,), (n, 3), and (3, n). *)
Definition coords (p : vec) : list R := [vx p; vy p; vz p].
Definition one_point (p : vec) : points := Points 3 [coords p].
Definition point_rows (ps : list vec) : points := Points 3 (map coords ps).
Definition point_columns (ps : list vec) : points := Points (length ps) [map vx ps; map vy ps; map vz ps].

(** Weighted mean with nonnegative weights. *)
Definition weighted (ws : list R) (ps : list vec) : vec := fold_right vadd vzero (map (fun wp => smul (fst wp) (snd wp)) (combine ws ps)).
Definition convex_combination (ps : list vec) (p : vec) : Prop :=
  exists ws, length ws = length ps /\ Forall (fun w => 0 <= w) ws /\ fold_right Rplus 0 ws = 1 /\ weighted ws ps = p.
