(** What the shape and semantics scores should be, in terms of a matching. *)
From Coq Require Import List Bool String QArith ZArith.
From Verif.Assoc Require Import Model Spec.
From Verif.AP Require Import Model Spec.
Import ListNotations.

Section Spec.
  Context {A : Type}.

  (** The judged detections, in order: a detection matched to an evaluated element
      is correct, an unmatched one is false, one matched to a non-evaluated
      element is left out. *)
  Inductive judged (M : elem A -> elem A -> Prop) : list (elem A) -> list bool -> list Q -> Prop :=
  | judged_nil : judged M [] [] []
  | judged_correct d g ds vs ss : M d g -> e_evaluated g = true ->
      judged M ds vs ss -> judged M (d :: ds) (true :: vs) (e_score d :: ss)
  | judged_ignored d g ds vs ss : M d g -> e_evaluated g = false ->
      judged M ds vs ss -> judged M (d :: ds) vs ss
  | judged_false d ds vs ss : (forall g, ~ M d g) ->
      judged M ds vs ss -> judged M (d :: ds) (false :: vs) (e_score d :: ss).

  (** Number of evaluated elements. *)
  Definition n_evaluated (gts : list (elem A)) : nat := List.length (filter e_evaluated gts).

  (** [ap] is the average precision of the detections against the evaluated ground
      truth under a stable matching at threshold [t]. *)
  Definition scene_ap (sim : elem A -> elem A -> Q) (dets gts : list (elem A)) (t ap : Q) : Prop :=
    exists M vs ss ranked,
      stable sim dets gts t M /\ judged M dets vs ss /\
      ranking vs ss ranked /\ ap_of ranked (n_evaluated gts) ap.

  (** Arithmetic mean of a non-empty list. *)
  Definition is_mean (l : list Q) (q : Q) : Prop :=
    l <> [] /\ q * inject_Z (Z.of_nat (List.length l)) == fold_right Qplus 0 l.

  Definition of_category (cat : string) (els : list (elem A)) : list (elem A) :=
    filter (fun e => if string_dec (e_category e) cat then true else false) els.

  (** Categories of [cats] with evaluated ground truth, in order. *)
  Definition scored_categories (cats : list string) (gts : list (elem A)) : list string :=
    filter (fun c => Nat.ltb 0 (n_evaluated (of_category c gts))) cats.
End Spec.
