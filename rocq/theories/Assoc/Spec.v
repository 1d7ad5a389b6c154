(** What a correct association is, stated without the code's helpers.

    Scenes are given as the list of their elements in dictionary order.  A
    matching is any relation between detections and ground-truth elements. *)
From Coq Require Import List String QArith.
From Verif.Base Require Import Py Sort.
From Verif.Assoc Require Import Model.
Import ListNotations.

Section Spec.
  Context {A : Type}.
  Variable sim : elem A -> elem A -> Q.
  Variables dets gts : list (elem A).
  Variable thr : Q.

  (** [d] is served before [d']: higher score, or equal score and listed first. *)
  Definition higher_priority (d d' : elem A) : Prop :=
    (e_score d' < e_score d)%Q \/ (e_score d == e_score d' /\ before dets d d')%Q.

  (** Detection [d] prefers [g] to [g']: more similar, or equally similar and
      listed later in the ground truth. *)
  Definition prefers (d g g' : elem A) : Prop :=
    (sim d g' < sim d g)%Q \/ (sim d g == sim d g' /\ before gts g' g)%Q.

  Record one_to_one (M : elem A -> elem A -> Prop) : Prop := {
    oo_det : forall d g, M d g -> In d dets;
    oo_gt : forall d g, M d g -> In g gts;
    oo_thr : forall d g, M d g -> (thr <= sim d g)%Q;
    oo_fun : forall d g g', M d g -> M d g' -> g = g';
    oo_inj : forall d d' g, M d g -> M d' g -> d = d'
  }.

  (** [d] and [g] could be matched and both would be better off: [d] is free or
      prefers [g] to what it has, and [g] is free or held by a detection of
      lower priority. *)
  Definition blocking_pair (M : elem A -> elem A -> Prop) (d g : elem A) : Prop :=
    In d dets /\ In g gts /\ (thr <= sim d g)%Q /\
    (forall g', M d g' -> prefers d g g') /\
    (forall d', M d' g -> higher_priority d d').

  Definition stable (M : elem A -> elem A -> Prop) : Prop :=
    one_to_one M /\ forall d g, ~ blocking_pair M d g.
End Spec.

(** A dictionary keyed by element id: every entry sits under its own id and keys
    are unique (Python dictionaries have unique keys). *)
Definition keyed_by_id {A} (s : scene) : Prop :=
  NoDup (map fst s) /\ forall k (e : elem A), In (k, e) s -> k = e_id e.

(** The elements of a scene in dictionary order. *)
Definition elements {A} (s : scene) : list (elem A) := map snd s.

(** The matching that a table of correspondences (keyed by detection id) stands
    for. *)
Definition pairs {A} (dets gts : list (elem A)) (assoc : sdict corr) (d g : elem A) : Prop :=
  In d dets /\ In g gts /\ exists c, sget (e_id d) assoc = Some c /\ c_gt c = e_id g.

(** Every stored correspondence describes a real pair, with the right values. *)
Definition faithful {A} (sim : elem A -> elem A -> Q) (dets gts : list (elem A))
  (assoc : sdict corr) : Prop :=
  forall k c, sget k assoc = Some c -> exists d g,
    In d dets /\ In g gts /\ k = e_id d /\
    c_det c = e_id d /\ c_gt c = e_id g /\ c_sim c = sim d g /\
    c_score c = e_score d /\ c_eval c = e_evaluated g.

(** The part of a scene that belongs to one category. *)
Definition restrict {A} (cat : string) (s : scene) : @scene A :=
  filter (fun kv => if string_dec (e_category (snd kv)) cat then true else false) s.

(** Number of matched detections in a table. *)
Definition matches (assoc : sdict corr) : nat := List.length assoc.
