(** What a report may say. *)
From Coq Require Import Reals List String QArith.
From Verif.Base Require Import Py Vec.
From Verif.Geom Require Import Model.
From Verif.Box Require Import Model Spec.
From Verif.Assoc Require Import Model Spec.
From Verif.Points Require Import Model.
From Verif.Run Require Import Model.
Import ListNotations.
Local Open Scope string_scope.
Local Open Scope list_scope.

(** Kinds of numbers. *)
Definition fraction (n : number) : Prop := exists q, n = Rat q /\ (0 <= q <= 1)%Q.
Definition share (n : number) : Prop := exists r, n = Num r /\ (0 <= r <= 1)%R.
Definition angle (n : number) : Prop := n = Inf \/ exists r, n = Num r /\ (0 <= r <= PI)%R.
Definition amount (n : number) : Prop := n = Inf \/ exists r, n = Num r /\ (0 <= r)%R.

(** A score in [0, 1] when there is something to find, else nan. *)
Definition score_if (P : Prop) (n : number) : Prop := (P -> fraction n) /\ (~ P -> n = Nan).

(** Something to find in a scene, and in a scene within some categories. *)
Definition wanted {A} (gt : list (elem A)) : Prop := exists g, In g gt /\ e_evaluated g = true.
Definition wanted_in {A} (cats : list string) (gt : list (elem A)) : Prop :=
  exists g, In g gt /\ e_evaluated g = true /\ In (e_category g) cats.

(** Poses are rigid motions and boxes have their corners the right way round. *)
Definition well_placed (l : list (elem prepared)) : Prop :=
  forall e, In e l -> rotation (pR (pr_pose (e_info e))) /\ normalized (pr_bounds (e_info e)).
Definition with_points (l : list (elem prepared)) : Prop := forall e, In e l -> pr_points (e_info e) <> [].

(** The five documented numbers: each in its range, the pose errors infinite together, and
    infinite exactly when the shape score is 0 or nan.  [W] and [Wc] say that there is
    something to find, in any category and in those evaluated. *)
Definition plausible (W Wc : Prop) (shape rotation translation semantics percept : number) : Prop :=
  score_if W shape /\ angle rotation /\ amount translation /\ score_if Wc semantics /\ share percept /\
  (rotation = Inf <-> translation = Inf) /\
  (forall q, shape = Rat q -> (q == 0)%Q <-> rotation = Inf) /\ (shape = Nan -> rotation = Inf).

(** A report contains them. *)
Definition five (cats : list string) (gt : list (elem prepared)) (m : sdict number) : Prop :=
  exists shape rotation translation semantics percept,
    sget "shape_score" m = Some shape /\ sget "rotation_error" m = Some rotation /\
    sget "translation_error" m = Some translation /\ sget "semantics_score" m = Some semantics /\
    sget "perceptual_score" m = Some percept /\
    plausible (wanted gt) (wanted_in cats gt) shape rotation translation semantics percept.

(** The two other numbers of the mesh and voxel tracks: infinite together, and then the
    pose errors are infinite, too. *)
Definition two_more (m : sdict number) : Prop :=
  exists points color, sget "rms_points_error" m = Some points /\ amount points /\
    sget "rms_color_error" m = Some color /\ amount color /\ (points = Inf <-> color = Inf) /\
    (points = Inf -> sget "rotation_error" m = Some Inf).

(** * The program *)

(** Objects as loaded: rigid poses, proper boxes. *)
Definition in_order {S} (l : list (elem (object S))) : Prop :=
  forall e, In e l -> rotation (pR (ob_pose (e_info e))) /\ normalized (ob_bounds (e_info e)).

(** What is printed, in this order. *)
Definition printed (shape translation rotation semantics percept : number) : list (string * number) :=
  [("Shape Score (1 is best)", shape); ("Translation Error (0 is best)", translation);
   ("Rotation Error (0 is best)", rotation); ("Semantics Score (1 is best)", semantics);
   ("Perceptual Score (1 is best)", percept)].
