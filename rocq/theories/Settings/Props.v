(** Property C56: evaluators and the caller's settings. *)
From Coq Require Import List Bool String QArith Sorted Permutation Arith Lia.
From Verif.Base Require Import Py PyFacts Sort.
From Verif.Assoc Require Import Model Spec Proofs.
From Verif.AP Require Import Model.
From Verif.Scores Require Import Model Proofs.
From Verif.Settings Require Import Model Spec Proofs.
Import ListNotations.
Local Open Scope string_scope.
Local Open Scope list_scope.

(** Constructing any evaluator with the caller's dictionary [a] either leaves all
    dictionaries alone and raises, or sorts the thresholds of [a] in place and changes
    nothing else - even if it then raises.  A constructed evaluator keeps [a] itself. *)
Theorem C56_caller : forall A B run, @construction A B run -> forall a d st st' out,
  dget Nat.eqb a st = Some d -> run (Some a) st = (st', out) ->
  ((st' = st /\ exists e, out = Err e) \/
   (exists d', dget Nat.eqb a st' = Some d' /\ thresholds_sorted d d' /\ others_unchanged a st st')) /\
  forall o, out = Ok o -> i_settings o = a /\
    exists d', dget Nat.eqb a st' = Some d' /\ thresholds_sorted d d' /\ others_unchanged a st st'.
Proof.
  intros A B run C a d st st' out D E. destruct (run_store A B run C a st st' out E) as [(-> & e & ->)|(d0 & ts & D0 & T & -> & O)].
  - split; [left; eauto|]. intros o [=].
  - rewrite D in D0. injection D0 as <-.
    assert (R : exists d', dget Nat.eqb a (dset Nat.eqb a (sset "thresholds" (Array (isort Qle_bool ts)) d) st) = Some d' /\ thresholds_sorted d d' /\
                others_unchanged a st (dset Nat.eqb a (sset "thresholds" (Array (isort Qle_bool ts)) d) st)).
    { eexists. split; [apply (dget_dset_same _ nat_eqb_spec)|]. split; [apply sorted_entry; exact T|]. split.
      - exact (dset_keys _ _ _ nat_eqb_spec _ _ _ _ D).
      - intros b N. apply (dget_dset_other _ nat_eqb_spec). congruence. }
    split; [right; exact R|]. intros o X. split; [exact (O o X)|exact R].
Qed.

(** The constructed evaluator is the one of the association properties, for the
    thresholds, the categories and the tolerance in the dictionary. *)
Theorem C56_evaluator : forall B (sim : Q -> elem B -> elem B -> Q) key sub gt a st d ts cats tol,
  dget Nat.eqb a st = Some d -> holds_thresholds d ts -> sget "categories" d = Some (Names cats) ->
  match key with
  | Some k => sget k d = Some (Number tol)
  | None => tol = 0%Q
  end ->
  sub <> [] -> gt <> [] ->
  let '(st', out) := base_init sim key sub gt (Some a) st in
  (let* o := out in current o st') = evaluator_init (sim tol) sub gt ts cats.
Proof.
  intros B sim key sub gt a st d ts cats tol D T C K NS NG.
  pose proof (base_object sim key sub gt a st d ts cats tol D T C) as H. cbv zeta in H.
  destruct (base_init sim key sub gt (Some a) st) as [st' out]. apply H. unfold tolerance. destruct key as [k|]; [|subst; reflexivity].
  destruct sub; [congruence|]. destruct gt; [congruence|]. unfold dgetE. rewrite K. reflexivity.
Qed.

(** Without settings no dictionary of the caller changes, and the evaluator gets a new
    one of its own with the default values. *)
Theorem C56_defaults : forall A B run, @construction A B run -> forall st st' out,
  run None st = (st', out) ->
  (forall b d, dget Nat.eqb b st = Some d -> dget Nat.eqb b st' = Some d) /\
  forall o, out = Ok o -> dget Nat.eqb (i_settings o) st = None /\
    exists d', dget Nat.eqb (i_settings o) st' = Some d' /\ thresholds_sorted default_settings d'.
Proof.
  intros A B run C st st' out E. destruct (construction_base A B run C None st) as [(e & X)|(sim & key & sub & gt & X)]; rewrite X in E.
  - injection E as <- <-. split; [auto|]. intros o [=].
  - rewrite base_none in E. set (a := fresh st) in *. set (st0 := st ++ [(a, default_settings)]) in *.
    pose proof (fresh_new st : dget Nat.eqb a st = None) as FN.
    assert (D : dget Nat.eqb a st0 = Some default_settings).
    { unfold st0. rewrite dget_app, FN. cbn [dget]. rewrite Nat.eqb_refl. reflexivity. }
    assert (K : forall b d, dget Nat.eqb b st = Some d -> dget Nat.eqb b st0 = Some d) by (intros b d G; unfold st0; rewrite dget_app, G; reflexivity).
    pose proof (base_store sim key sub gt a st0) as H. cbv zeta in H. rewrite E in H. cbn [fst snd] in H.
    destruct H as [(-> & e & ->)|(d & ts & D0 & T & -> & O)].
    + split; [exact K|]. intros o [=].
    + rewrite D in D0. injection D0 as <-. split.
      * intros b d G. rewrite (dget_dset_other _ nat_eqb_spec); [apply K; exact G|]. intros <-. rewrite FN in G. discriminate.
      * intros o X'. rewrite (O o X'). split; [exact FN|]. eexists. split; [apply (dget_dset_same _ nat_eqb_spec)|]. apply sorted_entry. exact T.
Qed.

(** A mesh evaluator constructed without settings raises TypeError, and nothing is
    changed, as soon as one of the two scenes has an element. *)
Theorem C56_mesh_needs_settings : forall A B (sample : Q -> elem A -> res B) sim sub gt st,
  sub <> [] \/ gt <> [] -> mesh_init sample sim sub gt None st = (st, Err TypeError).
Proof.
  intros A B sample sim sub gt st H. unfold mesh_init. rewrite !prepare_none.
  destruct sub; [destruct gt; [destruct H; congruence|]|]; reflexivity.
Qed.

(** The same two scenes are accepted with the default settings given explicitly,
    provided they can be sampled. *)
Theorem C56_mesh_with_defaults : forall A B (sample : Q -> elem A -> res B) sim (sub gt : @scene A) a st,
  dget Nat.eqb a st = Some default_settings -> keyed_by_id sub -> keyed_by_id gt ->
  (forall e, In e (elements sub) \/ In e (elements gt) -> exists b, sample 150 e = Ok b) ->
  exists o, snd (mesh_init sample sim sub gt (Some a) st) = Ok o.
Proof.
  intros A B sample sim sub gt a st D KS KG SA.
  destruct (prepared A B (sample 150) sub (fun e I => SA e (or_introl I)) KS) as (s & ES & KS').
  destruct (prepared A B (sample 150) gt (fun e I => SA e (or_intror I)) KG) as (g & EG & KG').
  unfold mesh_init. rewrite !(prepare_some A B sample a st default_settings 150 _ D eq_refl), ES, EG. cbn [bind].
  assert (TO : exists tol, tolerance (Some "mesh_overlap_thresh") s g default_settings = Ok tol).
  { unfold tolerance. destruct s, g; eexists; reflexivity. }
  destruct TO as (tol & TO).
  pose proof (base_object sim (Some "mesh_overlap_thresh") s g a st default_settings _ default_categories tol D (or_intror eq_refl) eq_refl TO) as H.
  cbv zeta in H. destruct (keyed_init_ok (sim tol) s g (linspace (1#4) (3#4) 10) default_categories KS' KG') as (ev & EV & _).
  rewrite EV in H. destruct (snd (base_init sim (Some "mesh_overlap_thresh") s g (Some a) st)) as [o|e]; [eauto|discriminate H].
Qed.

(** The claim for all scenes: without settings the mesh evaluator raises.  False for
    two scenes without elements, where the defaults are used. *)
Theorem C56_mesh_always_raises_refuted : exists A B (sample : Q -> elem A -> res B) sim sub gt st o,
  snd (mesh_init sample sim sub gt None st) = Ok o.
Proof. exists unit, unit, (fun _ _ => Ok tt), (fun _ _ _ => 0%Q), [], [], []. eexists. reflexivity. Qed.

(** Constructing any number of further evaluators with the same dictionary does not
    change what an earlier one sees. *)
Theorem C56_shared : forall A B run, @construction A B run -> forall a st st1 o,
  run (Some a) st = (st1, Ok o) ->
  forall A' B' run' arg' st2 out', @construction A' B' run' -> run' arg' st1 = (st2, out') ->
  current o st2 = current o st1.
Proof.
  intros A B run C a st st1 o E A' B' run' arg' st2 out' C' E'.
  destruct (run_store A B run C a st st1 (Ok o) E) as [(_ & e & [=])|(d & ts & D & T & -> & O)]. specialize (O o eq_refl).
  set (d1 := sset "thresholds" (Array (isort Qle_bool ts)) d) in *. set (st1 := dset Nat.eqb a d1 st) in *.
  assert (D1 : dget Nat.eqb a st1 = Some d1) by apply (dget_dset_same _ nat_eqb_spec).
  assert (D2 : dget Nat.eqb a st2 = Some d1).
  { destruct arg' as [b|].
    - destruct (Nat.eq_dec b a) as [->|N].
      + rewrite (run_again A' B' run' C' a st1 st2 out' E' d1 _ D1 (dget_dset_same _ str_eqb_spec _ _ _) (sorted_le ts)). exact D1.
      + destruct (run_store A' B' run' C' b st1 st2 out' E') as [(-> & _)|(d0 & ts0 & D0 & _ & -> & _)]; [exact D1|].
        rewrite (dget_dset_other _ nat_eqb_spec) by congruence. exact D1.
    - exact (proj1 (C56_defaults A' B' run' C' st1 st2 out' E') a d1 D1). }
  unfold current, look. rewrite O, D1, D2. reflexivity.
Qed.

(** The evaluator follows later assignments to the caller's dictionary: with thresholds
    that are all among the original ones, its shape score is the one of an evaluator
    constructed with the new thresholds. *)
Theorem C56_follows : forall B argsort (sim : Q -> elem B -> elem B -> Q) key sub gt a st d ts cats tol ts2,
  dget Nat.eqb a st = Some d -> holds_thresholds d ts -> sget "categories" d = Some (Names cats) ->
  tolerance key sub gt d = Ok tol -> keyed_by_id sub -> keyed_by_id gt ->
  StronglySorted Qle ts2 -> incl ts2 ts ->
  exists st' o ev2, base_init sim key sub gt (Some a) st = (st', Ok o) /\
    evaluator_init (sim tol) sub gt ts2 cats = Ok ev2 /\
    (let* ev := current o (assign a "thresholds" (Numbers ts2) st') in shape_score argsort ev) = shape_score argsort ev2.
Proof.
  intros B argsort sim key sub gt a st d ts cats tol ts2 D T C TO KS KG SO IN.
  pose proof (base_object sim key sub gt a st d ts cats tol D T C TO) as H. cbv zeta in H.
  destruct (base_init sim key sub gt (Some a) st) as [st' out] eqn:E. cbn [fst snd] in H.
  destruct (keyed_init_ok (sim tol) sub gt ts cats KS KG) as (ev & EV & _).
  destruct (keyed_init_ok (sim tol) sub gt ts2 cats KS KG) as (ev2 & EV2 & _).
  rewrite EV in H. destruct out as [o|e]; [|discriminate H]. cbn [bind] in H. exists st', o, ev2. split; [reflexivity|]. split; [exact EV2|].
  destruct (run_store B B _ (base_class sim key sub gt) a st st' (Ok o) E) as [(_ & e & [=])|(d0 & ts0 & D0 & T0 & S1 & O)].
  specialize (O o eq_refl). rewrite D in D0. injection D0 as <-.
  set (d1 := sset "thresholds" (Array (isort Qle_bool ts0)) d) in *.
  assert (D1 : dget Nat.eqb a st' = Some d1) by (rewrite S1; apply (dget_dset_same _ nat_eqb_spec)).
  assert (C1 : sget "categories" d1 = Some (Names cats)) by (unfold d1; rewrite (dget_dset_other _ str_eqb_spec) by discriminate; exact C).
  assert (CU : current o (assign a "thresholds" (Numbers ts2) st') =
    Ok (mkEvaluator ts2 cats (i_submission o) (i_ground_truth o) (i_cache o) (i_agnostic o) (i_category o))).
  { unfold current, assign, look. rewrite O, D1. rewrite (dget_dset_same _ nat_eqb_spec). cbn [bind]. unfold dgetE.
    rewrite (dget_dset_same _ str_eqb_spec). cbn [bind as_numbers].
    rewrite (dget_dset_other _ str_eqb_spec) by discriminate. rewrite C1. reflexivity. }
  rewrite CU. cbn [bind]. clear CU.
  unfold current, look in H. rewrite O, D1 in H. cbn [bind] in H. unfold dgetE in H.
  replace (sget "thresholds" d1) with (Some (Array (isort Qle_bool ts0))) in H by (symmetry; apply (dget_dset_same _ str_eqb_spec)).
  rewrite C1 in H. cbn [bind as_numbers as_names] in H.
  assert (F : i_submission o = sub /\ i_ground_truth o = gt /\ i_agnostic o = ev_agnostic ev).
  { destruct (init_fields _ _ _ _ _ _ EV) as (_ & _ & F3 & F4). injection H as H. rewrite <- F3, <- F4, <- H. repeat split. }
  destruct F as (F1 & F2 & F3). rewrite F1, F2, F3.
  destruct (init_fields _ _ _ _ _ _ EV2) as (G1 & G2 & G3 & G4).
  unfold shape_score. cbn [ev_thresholds]. rewrite G1. unfold sort_thresholds. rewrite (sort_sorted ts2 SO).
  rewrite (mapM_ext' _ _ _ (shape_step argsort ev2) ts2); [reflexivity|].
  intros t I. unfold shape_step. cbn [ev_agnostic ev_ground_truth ev_submission]. rewrite G3, G4. unfold dgetE.
  rewrite (keyed_agnostic (sim tol) sub gt ts cats ev t KS KG EV (IN t I)).
  rewrite (keyed_agnostic (sim tol) sub gt ts2 cats ev2 t KS KG EV2 I). reflexivity.
Qed.

(** With a threshold that was not there at construction the shape score cannot be
    computed any more; KeyError when it comes first. *)
Theorem C56_stale : forall A B run, @construction A B run -> forall argsort a d ts st st' o,
  dget Nat.eqb a st = Some d -> holds_thresholds d ts -> run (Some a) st = (st', Ok o) ->
  forall t ts1 ts2, (forall t', In t' ts -> ~ t' == t) ->
  (exists e, (let* ev := current o (assign a "thresholds" (Numbers (ts1 ++ t :: ts2)) st') in shape_score argsort ev) = Err e) /\
  (let* ev := current o (assign a "thresholds" (Numbers (t :: ts2)) st') in shape_score argsort ev) = Err KeyError.
Proof.
  intros A B run C argsort a d ts st st' o D T E t ts1 ts2 NT.
  destruct (construction_base A B run C (Some a) st) as [(e & X)|(sim & key & sub & gt & X)]; rewrite X in E; [discriminate|].
  clear X C run.
  assert (AG : exists tol cats d1, i_settings o = a /\ dget Nat.eqb a st' = Some d1 /\ sget "categories" d1 = Some (Names cats) /\
    compute_agnostic sub (sort_thresholds ts) (make_similarity_cache (sim tol) sub gt) = Ok (i_agnostic o)).
  { unfold base_init, look in E. rewrite D in E. cbn [bind] in E.
    assert (G : exists v, sgetE "thresholds" d = Ok v /\ np_sort v = Ok (Array (isort Qle_bool ts))).
    { unfold dgetE. destruct T as [-> | ->]; eauto. }
    destruct G as (v & G1 & G2). rewrite G1 in E. cbn [bind] in E. rewrite G2 in E. cbn [bind] in E.
    set (d1 := sset "thresholds" (Array (isort Qle_bool ts)) d) in *. apply (f_equal snd) in E as E2. apply (f_equal fst) in E. cbn [fst snd] in E, E2.
    destruct (tolerance key sub gt d1) as [tol|e]; [|discriminate E2]. cbn [bind] in E2. unfold dgetE at 1 in E2.
    replace (sget "thresholds" d1) with (Some (Array (isort Qle_bool ts))) in E2 by (symmetry; apply (dget_dset_same _ str_eqb_spec)).
    cbn [bind as_numbers] in E2. destruct (compute_agnostic sub (isort Qle_bool ts) (make_similarity_cache (sim tol) sub gt)) as [agn|e] eqn:AG; [|discriminate E2].
    cbn [bind] in E2. unfold dgetE in E2. destruct (sget "categories" d1) as [v'|] eqn:CT; [|discriminate E2]. cbn [bind] in E2.
    destruct v'; try discriminate E2. cbn [bind as_names] in E2.
    destruct (compute_category sub gt (isort Qle_bool ts) l (make_similarity_cache (sim tol) sub gt)) as [cat|e]; [|discriminate E2]. cbn [bind] in E2.
    injection E2 as <-. exists tol, l, d1. split; [reflexivity|]. split; [rewrite <- E; apply (dget_dset_same _ nat_eqb_spec)|]. split; [exact CT|exact AG]. }
  destruct AG as (tol & cats & d1 & O & D1 & C1 & AG).
  assert (ST : forall ev t0, ev_agnostic ev = i_agnostic o -> t0 = t -> @shape_step B argsort ev t0 = Err KeyError).
  { intros ev t0 F ->. unfold shape_step. rewrite F. unfold dgetE. rewrite (proj2 (compute_agnostic_lookup sub ts _ _ AG t) NT). reflexivity. }
  assert (CU : forall l, current o (assign a "thresholds" (Numbers l) st') =
    Ok (mkEvaluator l cats (i_submission o) (i_ground_truth o) (i_cache o) (i_agnostic o) (i_category o))).
  { intros l. unfold current, assign, look. rewrite O, D1. rewrite (dget_dset_same _ nat_eqb_spec). cbn [bind]. unfold dgetE.
    rewrite (dget_dset_same _ str_eqb_spec). cbn [bind as_numbers].
    rewrite (dget_dset_other _ str_eqb_spec) by discriminate. rewrite C1. reflexivity. }
  rewrite !CU. cbn [bind]. unfold shape_score. cbn [ev_thresholds]. split.
  - match goal with |- context [mapM ?f ?l] => destruct (mapM_err _ _ f l t KeyError) as (e & ->) end.
    + apply in_or_app. right. left. reflexivity.
    + apply ST; reflexivity.
    + cbn [bind]. eauto.
  - cbn [mapM]. rewrite ST by reflexivity. reflexivity.
Qed.

(** The default thresholds are ascending and the default categories are distinct. *)
Theorem C56_default_values :
  holds_thresholds default_settings [1#4; 3#10; 7#20; 2#5; 9#20; 1#2; 11#20; 3#5; 13#20; 7#10; 3#4] /\
  StronglySorted Qle [1#4; 3#10; 7#20; 2#5; 9#20; 1#2; 11#20; 3#5; 13#20; 7#10; 3#4] /\
  sget "categories" default_settings = Some (Names default_categories) /\
  NoDup default_categories /\ List.length default_categories = 132%nat /\ NoDup (dkeys default_settings).
Proof.
  assert (ND : forall l, (fix nd l := match l with [] => true | x :: r => negb (str_in x r) && nd r end) l = true -> NoDup l).
  { induction l as [|x l IH]; intros H; constructor; apply andb_true_iff in H as (H1 & H2); [|apply IH; exact H2].
    intros I. apply str_in_In in I. rewrite I in H1. discriminate. }
  split; [right; vm_compute; reflexivity|]. split.
  { repeat (constructor; [|repeat (constructor; [vm_compute; discriminate|]); constructor]). constructor. }
  split; [reflexivity|]. split; [apply ND; vm_compute; reflexivity|]. split; [reflexivity|]. apply ND. vm_compute. reflexivity.
Qed.

(** Unsorted thresholds in the caller's dictionary 7, and a scene of one element matched
    with itself: the caller finds the thresholds sorted, in an array; dictionary 8 is
    untouched; the score is 1 up to the
    small number in compute_ap, and KeyError after the caller puts in a new threshold. *)
Example C56_example :
  let e := mkElem "x" "chair" 1 true tt in
  let st := [(7, [("categories", Names ["chair"]); ("thresholds", Numbers [1#2; 1#4]); ("extra", Number 3)]); (8, default_settings)]%nat in
  let '(st', out) := bb_init (fun _ => Ok tt) (fun _ _ => 3#4) [("x", e)] [("x", e)] (Some 7%nat) st in
  st' = [(7, [("categories", Names ["chair"]); ("thresholds", Array [1#4; 1#2]); ("extra", Number 3)]); (8, default_settings)]%nat /\
  exists o ev, out = Ok o /\ i_settings o = 7%nat /\ current o st' = Ok ev /\ ev_thresholds ev = [1#4; 1#2] /\
  (exists q, shape_score (fun l => seq 0 (List.length l)) ev = Ok (Some q) /\ 99#100 <= q <= 1) /\
  (let* ev := current o (assign 7 "thresholds" (Numbers [1#8]) st') in shape_score (fun l => seq 0 (List.length l)) ev) = Err KeyError.
Proof.
  split; [reflexivity|]. eexists. eexists. split; [reflexivity|]. split; [reflexivity|]. split; [reflexivity|]. split; [reflexivity|].
  split; [eexists; split; [vm_compute; reflexivity|split; discriminate]|reflexivity].
Qed.

Print Assumptions C56_caller.
Print Assumptions C56_evaluator.
Print Assumptions C56_defaults.
Print Assumptions C56_mesh_needs_settings.
Print Assumptions C56_mesh_with_defaults.
Print Assumptions C56_mesh_always_raises_refuted.
Print Assumptions C56_shared.
Print Assumptions C56_follows.
Print Assumptions C56_stale.
Print Assumptions C56_default_values.
