(** Describing the same scene differently: other names for the objects, or another
    coordinate frame. *)
From Coq Require Import Reals List String QArith.
From Verif.Base Require Import Py Vec.
From Verif.Geom Require Import Model Spec.
From Verif.Symm Require Import Model.
From Verif.Assoc Require Import Model.
From Verif.Points Require Import Model.
From Verif.Box Require Import Model.
Import ListNotations.

Definition injective (f : string -> string) : Prop := forall x y, f x = f y -> x = y.

(** [e'] is [e] under its new name; what it looks like is not compared. *)
Definition relabelled {A B} (f : string -> string) (e : elem A) (e' : elem B) : Prop :=
  e_id e' = f (e_id e) /\ e_category e' = e_category e /\ e_score e' = e_score e /\ e_evaluated e' = e_evaluated e.

(** The same elements in the same order, under new keys and names. *)
Definition relabelled_scene {A B} (f : string -> string) (s : @scene A) (s' : @scene B) : Prop :=
  Forall2 (fun kv kv' => fst kv' = f (fst kv) /\ relabelled f (snd kv) (snd kv')) s s'.

(** Elements at the same place of two scenes. *)
Definition partners {A B} (s : @scene A) (s' : @scene B) (e : elem A) (e' : elem B) : Prop :=
  exists k k', In ((k, e), (k', e')) (combine s s').

(** The similarity of partners is the same number. *)
Definition same_similarities {A B} (sim : elem A -> elem A -> Q) (sim' : elem B -> elem B -> Q)
    (sub : @scene A) (sub' : @scene B) (gt : @scene A) (gt' : @scene B) : Prop :=
  forall d d' g g', partners sub sub' d d' -> partners gt gt' g g' -> (sim d g == sim' d' g')%Q.

(** The same correspondence under the new names. *)
Definition renamed_corr (f h : string -> string) (c c' : corr) : Prop :=
  c_det c' = f (c_det c) /\ c_gt c' = h (c_gt c) /\ (c_sim c == c_sim c')%Q /\ c_score c' = c_score c /\ c_eval c' = c_eval c.
Definition renamed_table (f h : string -> string) (t t' : sdict corr) : Prop :=
  Forall2 (fun kc kc' => fst kc' = f (fst kc) /\ renamed_corr f h (snd kc) (snd kc')) t t'.
(** One table per threshold. *)
Definition renamed_tables (f h : string -> string) (a a' : qdict (sdict corr)) : Prop :=
  Forall2 (fun x x' => fst x' = fst x /\ renamed_table f h (snd x) (snd x')) a a'.

(** Same outcome: the same exception, or related results. *)
Definition same_outcome {A B} (P : A -> B -> Prop) (x : res A) (y : res B) : Prop :=
  match x, y with
  | Ok a, Ok b => P a b
  | Err e, Err e' => e = e'
  | _, _ => False
  end.

(** Two evaluators that found the same matches. *)
Definition same_matches {A B} (f h : string -> string) (ev : @evaluator A) (ev' : @evaluator B) : Prop :=
  ev_thresholds ev' = ev_thresholds ev /\ ev_categories ev' = ev_categories ev /\
  renamed_tables f h (ev_agnostic ev) (ev_agnostic ev') /\
  Forall2 (fun x x' => fst x' = fst x /\ renamed_tables f h (snd x) (snd x')) (ev_category ev) (ev_category ev').

Local Open Scope R_scope.

(** The points of [rs] moved by [T]; colors stay. *)
Definition moved_points (T : pose) (rs : list row) : list row :=
  map (fun r => Row (vadd (mvec (pR T) (r_pos r)) (pt T)) (r_col r)) rs.
(** A pose seen from another frame. *)
Definition moved_pose (T P : pose) : pose := Pose (mmul (pR T) (pR P)) (vadd (mvec (pR T) (pt P)) (pt T)).

(** A scene under new names, with every element changed by [m]. *)
Definition redescribed {A B} (f : string -> string) (m : A -> B) (s : @scene A) : @scene B :=
  map (fun kv => (f (fst kv), mkElem (f (e_id (snd kv))) (e_category (snd kv)) (e_score (snd kv)) (e_evaluated (snd kv)) (m (e_info (snd kv))))) s.

(** A turn about the vertical axis: y is kept. *)
Definition upright (m : mat) : Prop := rotation m /\ forall v, vy (mvec m v) = vy v.
