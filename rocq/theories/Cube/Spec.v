(** Vocabulary for the cube map properties. *)
From Coq Require Import Reals List ZArith.
From Verif.Base Require Import Py Vec.
From Verif.Depth Require Import Model.
From Verif.Cloud Require Import Model.
Import ListNotations.
Local Open Scope R_scope.

(** The six faces in the order of the image, from left to right; y points down. *)
Inductive side_of := Back | Left | Front | Right | Up | Down.
Definition faces : list side_of := [Back; Left; Front; Right; Up; Down].
Definition axis (f : side_of) : vec :=
  match f with
  | Back => V 0 0 (-1) | Left => V (-1) 0 0 | Front => V 0 0 1
  | Right => V 1 0 0 | Up => V 0 (-1) 0 | Down => V 0 1 0
  end.

(** [v] is on the face [f] of the cube [-1,1]^3, and inside it. *)
Definition on_face (f : side_of) (v : vec) : Prop :=
  dot (axis f) v = 1 /\ forall g, axis g <> axis f -> axis g <> vopp (axis f) -> dot (axis g) v < 1.

(** Largest coordinate. *)
Definition maxnorm (v : vec) : R := Rmax (Rabs (vx v)) (Rmax (Rabs (vy v)) (Rabs (vz v))).

(** Same direction. *)
Definition along (v w : vec) : Prop := exists t, 0 < t /\ w = smul t v.

(** The pixels (row, column) of an image, row by row. *)
Definition raster (h w : nat) : list (nat * nat) := list_prod (seq 0 h) (seq 0 w).

Definition measured (d : depth) : Prop := exists x, 0 < x /\ d = Fin x.
Definition measuredb (d : depth) : bool := match d with Fin x => if Rlt_dec 0 x then true else false | Inf => false end.

(** A point and colour for a pixel: in the given direction, at the given distance. *)
Definition sees (dir : nat * nat -> vec) (rgb : image color) (range : image depth) (p : nat * nat) (q : vec * color) : Prop :=
  snd q = pixel rgb (fst p) (snd p) /\ Fin (norm (fst q)) = pixel range (fst p) (snd p) /\ along (dir p) (fst q).

Definition black : color := Color 0 0 0.
