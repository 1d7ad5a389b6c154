(** A submission that is a copy of the ground truth. *)
From Coq Require Import Reals List String QArith ZArith.
From Verif.Base Require Import Py Vec.
From Verif.Assoc Require Import Model.
From Verif.AP Require Import Model Spec.
From Verif.Points Require Import Model Spec.
Import ListNotations.

(** The same objects in the same order; ids, scores and "evaluated" may differ. *)
Definition copies {A} (sub gt : list (elem A)) : Prop :=
  Forall2 (fun d g => e_category d = e_category g /\ e_info d = e_info g) sub gt.

(** [g] is the original of [d]. *)
Definition original {A} (sub gt : list (elem A)) (d g : elem A) : Prop := In (d, g) (combine sub gt).

(** A copy reaches every threshold and is less similar to all others. *)
Definition told_apart {A} (sim : elem A -> elem A -> Q) (sub gt : list (elem A)) (ts : list Q) : Prop :=
  forall d g, original sub gt d g ->
    (forall t, In t ts -> (t <= sim d g)%Q) /\ (forall g', In g' gt -> g' <> g -> (sim d g' < sim d g)%Q).

(** The average precision of [n] correct detections of [n] objects. *)
Definition full_marks (n : nat) : Q := (Qnat n / (Qnat n + epsilon))%Q.

Local Open Scope R_scope.

(** Every object has sampled points; of two different objects, one has a point further
    than [thresh] from all points of the other. *)
Definition spread (thresh : R) (gt : list (elem (list row))) : Prop :=
  (forall g, In g gt -> e_info g <> []) /\
  (forall g g', In g gt -> In g' gt -> g <> g' -> exists r,
    (In r (e_info g) /\ ~ near thresh (map r_pos (e_info g')) (r_pos r)) \/
    (In r (e_info g') /\ ~ near thresh (map r_pos (e_info g)) (r_pos r))).
