(** Boxes as sets of points, and surfaces as lists of triangles. *)
From Coq Require Import Reals List Permutation.
From Verif.Base Require Import Vec.
From Verif.Geom Require Import Model.
From Verif.Box Require Import Model.
Import ListNotations.
Open Scope R_scope.

(** Componentwise order. *)
Definition vle (p q : vec) : Prop := vx p <= vx q /\ vy p <= vy q /\ vz p <= vz q.
Definition vlt (p q : vec) : Prop := vx p < vx q /\ vy p < vy q /\ vz p < vz q.

(** The points of a box. *)
Definition inside (b : box) (p : vec) : Prop := vle (min_corner b) p /\ vle p (max_corner b).
Definition box_le (a b : box) : Prop := forall p, inside a p -> inside b p.
Definition normalized (b : box) : Prop := vle (min_corner b) (max_corner b).

(** [m] is the smallest box containing all of [bs]. *)
Definition least_upper_box (bs : list box) (m : box) : Prop :=
  normalized m /\ (forall b, In b bs -> box_le b m) /\
  (forall u, (forall b, In b bs -> box_le b u) -> box_le m u).

(** [b] contains the points and each of its six faces touches one. *)
Definition tight (b : box) (ps : list vec) : Prop :=
  (forall p, In p ps -> inside b p) /\
  (forall axis, (axis < 3)%nat ->
     (exists p, In p ps /\ coord axis p = coord axis (min_corner b)) /\
     (exists p, In p ps /\ coord axis p = coord axis (max_corner b))).

(** * Triangulated surfaces *)
Definition triangle : Type := vec * vec * vec.

(** Directed edges of a triangle in the order of its vertices. *)
Definition tri_edges (t : triangle) : list (vec * vec) :=
  let '(a, b, c) := t in [(a, b); (b, c); (c, a)].
Definition edges (s : list triangle) : list (vec * vec) := flat_map tri_edges s.
Definition flip (e : vec * vec) : vec * vec := (snd e, fst e).

(** Every directed edge is used as often as its reverse. *)
Definition closed_surface (s : list triangle) : Prop := Permutation (map flip (edges s)) (edges s).

(** Volume enclosed by a closed surface with the normals of its winding. *)
Definition tri_volume (t : triangle) : R := let '(a, b, c) := t in dot a (cross b c) / 6.
Definition signed_volume (s : list triangle) : R := fold_right Rplus 0 (map tri_volume s).

(** Normal direction given by the winding. *)
Definition winding_normal (t : triangle) : vec := let '(a, b, c) := t in cross (vsub b a) (vsub c a).

(** The triangles of an indexed mesh, three indices at a time. *)
Fixpoint triples {A} (l : list A) : list (A * A * A) :=
  match l with
  | a :: b :: c :: t => (a, b, c) :: triples t
  | _ => []
  end.
Definition tri_at (vs : list vec) (f : nat * nat * nat) : triangle :=
  let '(i, j, k) := f in (nth i vs vzero, nth j vs vzero, nth k vs vzero).
Definition indexed_surface (vs : list vec) (idx : list nat) : list triangle := map (tri_at vs) (triples idx).

(** The region an element occupies: its bounds moved by its pose. *)
Definition posed_region (T : pose) (b : box) (q : vec) : Prop :=
  exists p, inside b p /\ q = transform_from T p.
