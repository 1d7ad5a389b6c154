(** Property C13: shape and semantics scores. *)
From Coq Require Import List Bool String QArith ZArith Permutation Arith Lia Lqa.
From Verif.Base Require Import Py PyFacts Sort.
From Verif.Assoc Require Import Model Spec Proofs Props.
From Verif.AP Require Import Model Spec Proofs.
From Verif.Scores Require Import Model Spec Proofs.
Import ListNotations.
Open Scope string_scope.
Open Scope Q_scope.

(** [r] is the mean of [aps]; NaN when there are none. *)
Definition mean_or_nan (aps : list Q) (r : option Q) : Prop :=
  match aps, r with
  | [], None => True
  | _ :: _, Some s => is_mean aps s
  | _, _ => False
  end.

Lemma np_mean_mean_or_nan : forall l, mean_or_nan l (np_mean l).
Proof.
  intros [|x l]; [exact I|]. apply np_mean_is_mean. split; [discriminate|].
  eexists; split; reflexivity.
Qed.

(** The score is the mean over the thresholds of the AP of the judged detections;
    NaN without thresholds or without evaluated ground truth. *)
Theorem C13_shape_score_is_mean_ap :
  forall A (sim : elem A -> elem A -> Q) argsort (sub gt : scene) ts cats ev,
  argsort_ok argsort -> keyed_by_id sub -> keyed_by_id gt ->
  evaluator_init sim sub gt ts cats = Ok ev ->
  exists r, shape_score argsort ev = Ok r /\
    ((0 < n_evaluated (elements gt))%nat ->
      exists order aps, Permutation order ts /\
        Forall2 (scene_ap sim (elements sub) (elements gt)) order aps /\
        (forall a, In a aps -> 0 <= a <= 1) /\ mean_or_nan aps r) /\
    (n_evaluated (elements gt) = 0%nat -> r = None).
Proof.
  intros A sim argsort sub gt ts cats ev Ha Kd Kg H.
  destruct (init_fields sim _ _ _ _ _ H) as (F1 & F2 & F3 & F4).
  unfold shape_score. rewrite F1.
  destruct (Nat.eq_dec (n_evaluated (elements gt)) 0) as [Hz|Hz].
  - assert (E : mapM (shape_step argsort ev) (sort_thresholds ts) = Ok (map (fun _ => []) (sort_thresholds ts))).
    { apply mapM_Ok. intros t Ht. rewrite sort_thresholds_In in Ht. unfold shape_step, dgetE.
      rewrite (keyed_agnostic sim sub gt ts cats ev t Kd Kg H Ht). cbn [bind].
      destruct (det_vectors _ _) as [ms ss]. rewrite F4.
      change (count_evaluated (dvalues gt)) with (n_evaluated (elements gt)). rewrite Hz. reflexivity. }
    rewrite E. cbn [bind]. eexists; split; [reflexivity|]. split; [lia|]. intros _.
    replace (List.concat (map (fun _ : Q => @nil (option Q)) (sort_thresholds ts))) with (@nil (option Q)).
    + reflexivity.
    + clear. induction (sort_thresholds ts); simpl; auto.
  - destruct (mapM_concat_one Q (shape_step argsort ev)
      (fun t ap => scene_ap sim (elements sub) (elements gt) t ap /\ 0 <= ap <= 1) (sort_thresholds ts))
      as (aps & E & F).
    { intros t Ht. rewrite sort_thresholds_In in Ht. unfold shape_step, dgetE.
      rewrite (keyed_agnostic sim sub gt ts cats ev t Kd Kg H Ht). cbn [bind].
      destruct (ap_step_det sim argsort sub gt t true Ha Kd Kg ltac:(lia)) as (ap & B & S & Eq).
      exists ap. split; [|auto]. rewrite F3, F4.
      change (count_evaluated (dvalues gt)) with (n_evaluated (elements gt)).
      destruct (det_vectors _ _) as [ms ss].
      destruct (Nat.ltb_spec 0 (n_evaluated (elements gt))); [exact Eq|lia]. }
    rewrite E. cbn [bind]. rewrite concat_ones, mean_opt_some.
    eexists; split; [reflexivity|]. split; [intros _|intro; contradiction].
    exists (sort_thresholds ts), aps. split; [unfold sort_thresholds; apply Permutation_sym, isort_perm|].
    split; [|split; [|apply np_mean_mean_or_nan]].
    + clear - F. induction F; constructor; tauto.
    + clear - F. intros a Ha. induction F; [destruct Ha|]. destruct Ha as [<-|Ha]; tauto.
Qed.

Theorem C13_shape_score_bounds :
  forall A (sim : elem A -> elem A -> Q) argsort (sub gt : scene) ts cats ev,
  argsort_ok argsort -> keyed_by_id sub -> keyed_by_id gt ->
  evaluator_init sim sub gt ts cats = Ok ev ->
  (ts <> [] -> (exists g, In g (elements gt) /\ e_evaluated g = true) ->
    exists s, shape_score argsort ev = Ok (Some s) /\ 0 <= s <= 1) /\
  (ts = [] \/ (forall g, In g (elements gt) -> e_evaluated g = false) ->
    shape_score argsort ev = Ok None).
Proof.
  intros A sim argsort sub gt ts cats ev Ha Kd Kg H.
  destruct (C13_shape_score_is_mean_ap A sim argsort sub gt ts cats ev Ha Kd Kg H) as (r & E & H1 & H2).
  assert (Hz : (forall g, In g (elements gt) -> e_evaluated g = false) -> n_evaluated (elements gt) = 0%nat).
  { intro Hx. unfold n_evaluated. destruct (filter e_evaluated (elements gt)) as [|g l] eqn:Ef; [reflexivity|].
    assert (Hg : In g (filter e_evaluated (elements gt))) by (rewrite Ef; left; reflexivity).
    apply filter_In in Hg as [Hg1 Hg2]. rewrite Hx in Hg2 by exact Hg1. discriminate. }
  split.
  - intros Hts (g & Hg & He).
    assert (Hn : (0 < n_evaluated (elements gt))%nat).
    { unfold n_evaluated. assert (Hi : In g (filter e_evaluated (elements gt))) by (apply filter_In; auto).
      destruct (filter e_evaluated (elements gt)); [destruct Hi|simpl; lia]. }
    destruct (H1 Hn) as (order & aps & P & F & B & M).
    destruct aps as [|a aps].
    + inversion F; subst. apply Permutation_nil in P. contradiction.
    + destruct r as [s|]; [|destruct M]. exists s. split; [exact E|]. exact (is_mean_bounds _ _ M B).
  - intros [->|Hx].
    + destruct (Nat.eq_dec (n_evaluated (elements gt)) 0) as [Z0|Z0]; [rewrite E, (H2 Z0); reflexivity|].
      destruct (H1 ltac:(lia)) as (order & aps & P & F & B & M).
      apply Permutation_sym, Permutation_nil in P. subst order. inversion F; subst.
      destruct r; [destruct M|exact E].
    + rewrite E, (H2 (Hz Hx)). reflexivity.
Qed.

(** Semantics: the mean over thresholds and scored categories of the AP of the
    detections of that category. *)
Theorem C13_semantics_score_is_mean_ap :
  forall A (sim : elem A -> elem A -> Q) argsort (sub gt : scene) ts cats ev,
  argsort_ok argsort -> keyed_by_id sub -> keyed_by_id gt ->
  evaluator_init sim sub gt ts cats = Ok ev ->
  exists r order rows, semantics_score argsort ev = Ok r /\ Permutation order ts /\
    Forall2 (fun t row =>
      Forall2 (fun c ap => scene_ap sim (of_category c (elements sub)) (of_category c (elements gt)) t ap)
        (scored_categories cats (elements gt)) row) order rows /\
    (forall row a, In row rows -> In a row -> 0 <= a <= 1) /\
    mean_or_nan (List.concat rows) r.
Proof.
  intros A sim argsort sub gt ts cats ev Ha Kd Kg H.
  destruct (init_fields sim _ _ _ _ _ H) as (F1 & F2 & F3 & F4).
  unfold semantics_score. rewrite F1.
  assert (Hstep : forall t, In t ts -> exists row,
    semantics_step argsort ev t = Ok (map Some row) /\
    Forall2 (fun c ap => scene_ap sim (of_category c (elements sub)) (of_category c (elements gt)) t ap /\ 0 <= ap <= 1)
        (scored_categories cats (elements gt)) row).
  { intros t Ht. unfold semantics_step. rewrite F2.
    rewrite (mapM_Ok _ _ (cat_vectors ev t) (fun cat =>
      det_vectors (assoc_at sim (by_category cat sub) (by_category cat gt) t) (dvalues (by_category cat sub))) cats)
      by (intros cat Hc; eapply cat_vectors_ok; eauto). cbn [bind].
    clear F2 H. induction cats as [|c cats IH]; [exists []; split; [reflexivity|constructor]|].
    destruct IH as (row & Er & Fr). unfold scored_categories. cbn [map combine mapM filter].
    fold (scored_categories cats (elements gt)).
    unfold cat_ap at 1. rewrite cat_count_spec, F4.
    assert (Kd' := by_category_keyed sim c sub Kd). assert (Kg' := by_category_keyed sim c gt Kg).
    rewrite <- (of_category_by_category c gt).
    assert (Hap := ap_step_det sim argsort (by_category c sub) (by_category c gt) t false Ha Kd' Kg').
    destruct (det_vectors _ _) as [ms ss].
    destruct (Nat.ltb_spec 0 (n_evaluated (elements (by_category c gt)))) as [Hp|Hp].
    - destruct (Hap Hp) as (ap & B & S & Eq). rewrite Eq. cbn [bind].
      destruct (mapM (cat_ap argsort ev) (combine cats _)) as [l|e]; [|discriminate]. cbn [bind] in *.
      exists (ap :: row). split; [simpl in Er; injection Er as Er; simpl; rewrite Er; reflexivity|].
      constructor; [|exact Fr]. rewrite <- !of_category_by_category. auto.
    - cbn [bind]. destruct (mapM (cat_ap argsort ev) (combine cats _)) as [l|e]; [|discriminate].
      cbn [bind] in *. exists row. split; [|exact Fr]. simpl. exact Er. }
  assert (Hall : exists rows, mapM (semantics_step argsort ev) (sort_thresholds ts) = Ok (map (map Some) rows) /\
    Forall2 (fun t row => Forall2 (fun c ap =>
        scene_ap sim (of_category c (elements sub)) (of_category c (elements gt)) t ap /\ 0 <= ap <= 1)
        (scored_categories cats (elements gt)) row) (sort_thresholds ts) rows).
  { assert (Hi : forall t, In t (sort_thresholds ts) -> In t ts) by (intros; apply sort_thresholds_In; assumption).
    clear F1. induction (sort_thresholds ts) as [|t l IH]; [exists []; split; [reflexivity|constructor]|].
    destruct IH as (rows & E & F); [intros; apply Hi; right; assumption|].
    destruct (Hstep t (Hi t (or_introl eq_refl))) as (row & E1 & F5).
    exists (row :: rows). split; [|constructor; assumption].
    cbn [mapM]. rewrite E1. cbn [bind]. rewrite E. reflexivity. }
  destruct Hall as (rows & E & F). rewrite E. cbn [bind].
  rewrite <- concat_map, mean_opt_some.
  eexists; exists (sort_thresholds ts), rows. split; [reflexivity|].
  split; [unfold sort_thresholds; apply Permutation_sym, isort_perm|].
  split; [|split; [|apply np_mean_mean_or_nan]].
  - clear - F. induction F as [|t row l rows Hf F IH]; constructor; [|exact IH].
    clear - Hf. induction Hf; constructor; tauto.
  - clear - F. intros row a Hr Ha. induction F as [|t row' l rows Hf F IH]; [destruct Hr|]. destruct Hr as [->|Hr]; [|tauto].
    clear - Hf Ha. induction Hf; [destruct Ha|]. destruct Ha as [<-|Ha]; tauto.
Qed.

Theorem C13_semantics_score_bounds :
  forall A (sim : elem A -> elem A -> Q) argsort (sub gt : scene) ts cats ev,
  argsort_ok argsort -> keyed_by_id sub -> keyed_by_id gt ->
  evaluator_init sim sub gt ts cats = Ok ev ->
  (ts <> [] -> (exists g, In g (elements gt) /\ e_evaluated g = true /\ In (e_category g) cats) ->
    exists s, semantics_score argsort ev = Ok (Some s) /\ 0 <= s <= 1) /\
  (ts = [] \/ (forall g, In g (elements gt) -> In (e_category g) cats -> e_evaluated g = false) ->
    semantics_score argsort ev = Ok None).
Proof.
  intros A sim argsort sub gt ts cats ev Ha Kd Kg H.
  destruct (C13_semantics_score_is_mean_ap A sim argsort sub gt ts cats ev Ha Kd Kg H)
    as (r & order & rows & E & P & F & B & M).
  split.
  - intros Hts (g & Hg & He & Hc).
    assert (Hsc : scored_categories cats (elements gt) <> []).
    { intro En. assert (Hi : In (e_category g) (scored_categories cats (elements gt))).
      { apply filter_In. split; [exact Hc|]. apply Nat.ltb_lt. unfold n_evaluated.
        assert (Hi : In g (filter e_evaluated (of_category (e_category g) (elements gt)))).
        { apply filter_In; split; [|exact He]. apply filter_In; split; [exact Hg|].
          destruct (string_dec (e_category g) (e_category g)); [reflexivity|contradiction]. }
        destruct (filter e_evaluated _); [destruct Hi|simpl; lia]. }
      rewrite En in Hi. destruct Hi. }
    assert (Hne : List.concat rows <> []).
    { destruct order as [|t order]; [apply Permutation_nil in P; contradiction|].
      inversion F as [|? row ? rows' Hf _]; subst. inversion Hf; subst; [congruence|discriminate]. }
    destruct (List.concat rows) as [|a l] eqn:Ec; [contradiction|].
    destruct r as [s|]; [|destruct M]. exists s. split; [exact E|].
    apply (is_mean_bounds _ _ M). intros x Hx. rewrite <- Ec in Hx. apply in_concat in Hx as (row & Hr & Hx).
    exact (B row x Hr Hx).
  - intro Hn. rewrite E. f_equal.
    assert (Hc : List.concat rows = []).
    { destruct Hn as [->|Hx].
      - apply Permutation_sym, Permutation_nil in P. subst order. inversion F. reflexivity.
      - assert (Hs : scored_categories cats (elements gt) = []).
        { destruct (scored_categories cats (elements gt)) as [|c l] eqn:Es; [reflexivity|].
          assert (Hi : In c (scored_categories cats (elements gt))) by (rewrite Es; left; reflexivity).
          apply filter_In in Hi as [Hi1 Hi2]. apply Nat.ltb_lt in Hi2. unfold n_evaluated in Hi2.
          destruct (filter e_evaluated (of_category c (elements gt))) as [|g l'] eqn:Eg; [simpl in Hi2; lia|].
          assert (Hg : In g (filter e_evaluated (of_category c (elements gt)))) by (rewrite Eg; left; reflexivity).
          apply filter_In in Hg as [Hg1 Hg2]. apply filter_In in Hg1 as [Hg1 Hg3].
          destruct (string_dec (e_category g) c) as [<-|]; [|discriminate].
          rewrite (Hx g Hg1 Hi1) in Hg2. discriminate. }
        rewrite Hs in F. clear - F. induction F as [|t row l rows Hf F IH]; [reflexivity|].
        inversion Hf; subst. simpl. exact IH. }
    rewrite Hc in M. destruct r; [destruct M|reflexivity].
Qed.

(** Example: the scenes of the association examples at thresholds 1/2 and 3/4. *)
Example C13_example :
  exists ev s s', evaluator_init ex_sim ex_sub ex_gt [3#4; 1#2] ["chair"; "wall"] = Ok ev /\
    shape_score stable_argsort ev = Ok (Some s) /\ semantics_score stable_argsort ev = Ok (Some s') /\
    277#1000 < s < 278#1000 /\ 62#100 < s' < 63#100.
Proof.
  do 3 eexists. split; [vm_compute; reflexivity|]. split; [vm_compute; reflexivity|].
  split; [vm_compute; reflexivity|]. repeat split; reflexivity.
Qed.

(** A detection matched to a non-evaluated element is left out: with "x" not
    evaluated, "b" (which takes "x" at 1/2) disappears and only "a" and "c" count. *)
Example C13_example_ignored :
  judged (fun d g => d = ex_b /\ g = mkElem "x" "chair" 1 false tt) [ex_b; ex_a] [false] [1#2].
Proof.
  eapply judged_ignored with (g := mkElem "x" "chair" 1 false tt); [auto|reflexivity|].
  apply judged_false; [intros g [E _]; discriminate|constructor].
Qed.

Print Assumptions C13_shape_score_is_mean_ap.
Print Assumptions C13_shape_score_bounds.
Print Assumptions C13_semantics_score_is_mean_ap.
Print Assumptions C13_semantics_score_bounds.
