(** Detections added to a submission. *)
From Coq Require Import List String QArith.
From Verif.Assoc Require Import Model.
Import ListNotations.
Local Open Scope Q_scope.

(** Less confident than everything already submitted. *)
Definition lower {A} (extra sub : list (elem A)) : Prop :=
  forall x d, In x extra -> In d sub -> e_score x < e_score d.

(** Similar to nothing. *)
Definition useless {A} (sim : elem A -> elem A -> Q) (extra gt : list (elem A)) (ts : list Q) : Prop :=
  forall x g t, In x extra -> In g gt -> In t ts -> sim x g < t.

(** No two detections have the same score. *)
Definition distinct_scores {A} (l : list (elem A)) : Prop :=
  forall d d', In d l -> In d' l -> e_score d == e_score d' -> d = d'.

(** No added detection has the score of one already there. *)
Definition untied {A} (extra sub : list (elem A)) : Prop :=
  forall x d, In x extra -> In d sub -> ~ e_score x == e_score d.

(** The second score is at least the first; a score that is not defined stays so. *)
Definition no_lower (s s' : option Q) : Prop :=
  match s, s' with Some a, Some b => a <= b | None, None => True | _, _ => False end.
Definition same_score (s s' : option Q) : Prop :=
  match s, s' with Some a, Some b => a == b | None, None => True | _, _ => False end.
