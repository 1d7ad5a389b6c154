(** Vocabulary for the inverse depth properties. *)
From Coq Require Import Reals ZArith.
From Verif.Base Require Import Py.
From Verif.Depth Require Import Model.
Open Scope R_scope.

(** A rounding: monotone, relative error at most 2^-24 (float32 to nearest; a
    double rounding is more accurate and meets the same bound).  Overflow and
    underflow are left out. *)
Definition rounding (f : R -> R) : Prop :=
  (forall x y, x <= y -> f x <= f y) /\ forall x, Rabs (f x - x) <= / 16777216 * Rabs x.

(** Order on depths. *)
Definition closer (a b : depth) : Prop :=
  match a, b with
  | Fin x, Fin y => x <= y
  | _, Inf => True
  | Inf, Fin _ => False
  end.
Definition positive (d : depth) : Prop := match d with Fin x => 0 < x | Inf => True end.

(** Reciprocal of a depth, in units of [n]. *)
Definition per (n : R) (d : depth) : R := match d with Fin x => n / x | Inf => 0 end.

(** [b] holds the results of [f] on the pixels of [a]. *)
Definition pixelwise {A B} (f : A -> res B) (a : image A) (b : image B) : Prop :=
  height b = height a /\ width b = width a /\
  forall v u, (v < height a)%nat -> (u < width a)%nat -> f (pixel a v u) = Ok (pixel b v u).
