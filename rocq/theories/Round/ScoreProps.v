(** Property C91: shape_score and semantics_score in double arithmetic. *)
From Coq Require Import List Bool String QArith Qabs ZArith Lia Lqa Arith Permutation.
From Verif.Base Require Import Py.
From Verif.Assoc Require Import Model Spec Props.
From Verif.AP Require Import Model Spec Proofs Props.
From Verif.Scores Require Import Model Spec Proofs Props.
From Verif.Round Require Import Model Spec Rounding Proofs Proofs3 Props ScoreModel ScoreSpec ScoreProofs.
Import ListNotations.
Local Open Scope Q_scope.
Local Close Scope string_scope.

Section Both.
  Context {A : Type}.
  Variable sim : elem A -> elem A -> Q.
  Variables (argsort : list Q -> list nat) (order : nat -> sum_tree).
  Variables (sub gt : @scene A) (ts : list Q) (cats : list string) (ev : @evaluator A).
  Hypothesis sorts : argsort_ok argsort.
  Hypothesis adds : adds_each_once order.
  Hypothesis sub_keyed : keyed_by_id sub.
  Hypothesis gt_keyed : keyed_by_id gt.
  Hypothesis built : evaluator_init sim sub gt ts cats = Ok ev.
  Hypothesis sub_moderate : moderate (List.length (elements sub)).
  Hypothesis gt_moderate : moderate (n_evaluated (elements gt)).

  Lemma near_from : forall k aps r r', mean_or_nan aps r ->
    (r = None /\ r' = None) \/ (exists s s', r = Some s /\ r' = Some s' /\ double s' /\ 0 <= s' /\ Qabs (s' - s) <= Qnat k * 2 ^ (-49)) ->
    near_mean k aps r'.
  Proof.
    intros k aps r r' M [[-> ->]|(s & s' & -> & -> & D & P & B)].
    - destruct aps; [reflexivity|destruct M].
    - split; [exact D|]. split; [exact P|]. exists s. split; [|exact B]. destruct aps; [destruct M|exact M].
  Qed.

  (** The shape score is, up to rounding, the mean over the thresholds of the average
      precision (C13); NaN without evaluated objects. *)
  Theorem C91_shape_score : moderate (List.length ts) ->
    exists r, f_shape_score argsort order ev = Ok r /\
      ((0 < n_evaluated (elements gt))%nat ->
         exists ordered aps, Permutation ordered ts /\ Forall2 (scene_ap sim (elements sub) (elements gt)) ordered aps /\
           near_mean (n_evaluated (elements gt) + 1 + List.length ts) aps r) /\
      (n_evaluated (elements gt) = 0%nat -> r = None).
  Proof.
    intro Mt. destruct (C13_shape_score_is_mean_ap A sim argsort sub gt ts cats ev sorts sub_keyed gt_keyed built) as (r & E & H1 & H2).
    assert (N := shape_near sim argsort sorts sub gt ts cats ev sub_keyed gt_keyed built sub_moderate gt_moderate order adds Mt).
    assert (X : exists r', f_shape_score argsort order ev = Ok r' /\ ((r = None /\ r' = None) \/
      (exists s s', r = Some s /\ r' = Some s' /\ double s' /\ 0 <= s' /\ Qabs (s' - s) <= Qnat (n_evaluated (elements gt) + 1 + List.length ts) * 2 ^ (-49)))).
    { destruct N as [[N1 N2]|(s & s' & N1 & N2 & D & P & B)]; rewrite E in N1; injection N1 as ->; eexists; (split; [exact N2|]); [left; auto|right; exists s, s'; auto 10]. }
    destruct X as (r' & E' & X). exists r'. split; [exact E'|]. split.
    - intro Hp. destruct (H1 Hp) as (ordered & aps & P & F & B & M). exists ordered, aps. split; [exact P|]. split; [exact F|]. eapply near_from; [exact M|exact X].
    - intro Hz. specialize (H2 Hz). destruct X as [[_ X]|(s & s' & X & _)]; [exact X|congruence].
  Qed.

  Theorem C91_semantics_score : moderate (List.length ts * List.length cats) ->
    exists r ordered rows, f_semantics_score argsort order ev = Ok r /\ Permutation ordered ts /\
      Forall2 (fun t row =>
        Forall2 (fun c ap => scene_ap sim (of_category c (elements sub)) (of_category c (elements gt)) t ap)
          (scored_categories cats (elements gt)) row) ordered rows /\
      near_mean (n_evaluated (elements gt) + 1 + List.length ts * List.length cats) (List.concat rows) r.
  Proof.
    intro Mt. destruct (C13_semantics_score_is_mean_ap A sim argsort sub gt ts cats ev sorts sub_keyed gt_keyed built) as (r & ordered & rows & E & P & F & B & M).
    assert (N := semantics_near sim argsort sorts sub gt ts cats ev sub_keyed gt_keyed built sub_moderate gt_moderate order adds Mt).
    assert (X : exists r', f_semantics_score argsort order ev = Ok r' /\ ((r = None /\ r' = None) \/
      (exists s s', r = Some s /\ r' = Some s' /\ double s' /\ 0 <= s' /\ Qabs (s' - s) <= Qnat (n_evaluated (elements gt) + 1 + List.length ts * List.length cats) * 2 ^ (-49)))).
    { destruct N as [[N1 N2]|(s & s' & N1 & N2 & D & P' & B')]; rewrite E in N1; injection N1 as ->; eexists; (split; [exact N2|]); [left; auto|right; exists s, s'; auto 10]. }
    destruct X as (r' & E' & X). exists r', ordered, rows. split; [exact E'|]. split; [exact P|]. split; [exact F|]. eapply near_from; [exact M|exact X].
  Qed.

  (** The scores that are compared in C13 and elsewhere, over the rationals, are those of
      the code to within the same bound. *)
  Theorem C91_same_as_exact :
    (moderate (List.length ts) ->
       (shape_score argsort ev = Ok None /\ f_shape_score argsort order ev = Ok None) \/
       (exists s s', shape_score argsort ev = Ok (Some s) /\ f_shape_score argsort order ev = Ok (Some s') /\
          Qabs (s' - s) <= Qnat (n_evaluated (elements gt) + 1 + List.length ts) * 2 ^ (-49))) /\
    (moderate (List.length ts * List.length cats) ->
       (semantics_score argsort ev = Ok None /\ f_semantics_score argsort order ev = Ok None) \/
       (exists s s', semantics_score argsort ev = Ok (Some s) /\ f_semantics_score argsort order ev = Ok (Some s') /\
          Qabs (s' - s) <= Qnat (n_evaluated (elements gt) + 1 + List.length ts * List.length cats) * 2 ^ (-49))).
  Proof.
    split; intro Mt.
    - destruct (shape_near sim argsort sorts sub gt ts cats ev sub_keyed gt_keyed built sub_moderate gt_moderate order adds Mt) as [N|(s & s' & N1 & N2 & _ & _ & B)]; [left; exact N|right; exists s, s'; auto].
    - destruct (semantics_near sim argsort sorts sub gt ts cats ev sub_keyed gt_keyed built sub_moderate gt_moderate order adds Mt) as [N|(s & s' & N1 & N2 & _ & _ & B)]; [left; exact N|right; exists s, s'; auto].
  Qed.
End Both.

(** * One after the other, as an order of adding *)
Fixpoint left_to_right (n : nat) : sum_tree :=
  match n with O => Entry 0 | S O => Entry 0 | S m => Plus (left_to_right m) (Entry m) end.
Lemma left_to_right_once : adds_each_once left_to_right.
Proof.
  intros n H. induction n as [|[|n] IH]; [lia|apply Permutation_refl|]. change (entries (left_to_right (S (S n)))) with (entries (left_to_right (S n)) ++ [S n]).
  rewrite seq_S. apply Permutation_app; [apply IH; lia|apply Permutation_refl].
Qed.

(** A score above 1: nine objects, each found. *)
Definition names9 : list string := ["a"; "b"; "c"; "d"; "e"; "f"; "g"; "h"; "i"]%string.
Definition scene9 : @scene unit := map (fun k => (k, mkElem k "chair" 1 true tt)) names9.
Definition same_id (a b : elem unit) : Q := if String.eqb (e_id a) (e_id b) then 1 else 0.
Theorem C91_at_most_one_refuted :
  exists sim argsort order (sub gt : @scene unit) ts cats ev s, argsort_ok argsort /\ adds_each_once order /\ keyed_by_id sub /\ keyed_by_id gt /\
    evaluator_init sim sub gt ts cats = Ok ev /\ f_shape_score argsort order ev = Ok (Some s) /\ f_semantics_score argsort order ev = Ok (Some s) /\ s == 1 + 2 ^ (-52).
Proof.
  exists same_id, stable_argsort, left_to_right, scene9, scene9, [1#2], ["chair"%string]. do 2 eexists. split; [apply stable_argsort_ok|]. split; [apply left_to_right_once|].
  assert (K : keyed_by_id scene9).
  { split; [|intros k e I; unfold scene9, names9 in I; cbn [map] in I; repeat (destruct I as [I|I]; [injection I as <- <-; reflexivity|]); destruct I]. 
    unfold scene9. rewrite map_map. cbn [fst]. rewrite map_id. repeat constructor; simpl; intuition discriminate. }
  split; [exact K|]. split; [exact K|]. split; [vm_compute; reflexivity|]. split; [vm_compute; reflexivity|]. split; [vm_compute; reflexivity|]. vm_compute. reflexivity.
Qed.

(** Example: the scenes of C13_example; the bound is below 10^-13. *)
Example C91_case :
  (exists ev s s', evaluator_init ex_sim ex_sub ex_gt [3#4; 1#2] ["chair"%string; "wall"%string] = Ok ev /\
    f_shape_score stable_argsort left_to_right ev = Ok (Some s) /\ f_semantics_score stable_argsort left_to_right ev = Ok (Some s') /\
    277#1000 < s < 278#1000 /\ 62#100 < s' < 63#100) /\
  Qnat (n_evaluated (elements ex_gt) + 1 + 2 * 2) * 2 ^ (-49) < 1 # 10000000000000.
Proof.
  split; [|vm_compute; reflexivity]. do 3 eexists. split; [vm_compute; reflexivity|]. split; [vm_compute; reflexivity|].
  split; [vm_compute; reflexivity|]. repeat split; reflexivity.
Qed.

Print Assumptions C91_shape_score.
Print Assumptions C91_semantics_score.
Print Assumptions C91_same_as_exact.
Print Assumptions C91_at_most_one_refuted.
