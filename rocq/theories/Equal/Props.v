(** C85: comparing rotations, poses and boxes.  C86: comparing objects and scenes. *)
From Coq Require Import Reals List Bool String Lra Lia.
From Verif.Base Require Import Py PyFacts Vec.
From Verif.Geom Require Import Model.
From Verif.Box Require Import Model.
From Verif.Symm Require Import Model.
From Verif.Scene Require Import Model.
From Verif.Equal Require Import Model Spec Proofs.
Import ListNotations.
Local Open Scope R_scope.

(** almost_equal compares where the axes and the origin (the two corners) go. *)
Theorem C85_almost_equal : forall r t,
  (forall a b, rot_almost_equal r t a b = true <-> rnear r t a b) /\
  (forall a b, pose_almost_equal r t a b = true <-> pnear r t a b) /\
  (forall a b, box_almost_equal r t a b = true <-> vnear r t (min_corner a) (min_corner b) /\ vnear r t (max_corner a) (max_corner b)).
Proof.
  intros r t. split; [intros; apply rot_near|]. split; [intros; apply pose_near|].
  intros a b. unfold box_almost_equal. rewrite andb_true_iff, !allclose_vec. tauto.
Qed.

(** Almost equal poses move every point almost to the same place. *)
Theorem C85_points : forall r t a b p i, 0 <= r -> 0 <= t -> rotation (pR b) -> (i < 3)%nat ->
  pose_almost_equal r t a b = true ->
  Rabs (coord i (transform_from a p) - coord i (transform_from b p)) <= (t + r) * extent p + t + r * Rabs (coord i (pt b)).
Proof.
  intros r t a b p i Hr Ht Rb Hi H. apply pose_near in H. destruct H as [HR HT].
  assert (K : forall j, (j < 3)%nat -> Rabs (coord i (mvec (pR a) (axis j)) - coord i (mvec (pR b) (axis j))) <= t + r).
  { intros j Hj. eapply Rle_trans; [apply HR; assumption|]. assert (X := rotation_entry (pR b) j i Rb Hj). assert (r * Rabs (coord i (mvec (pR b) (axis j))) <= r * 1) by (apply Rmult_le_compat_l; assumption). lra. }
  assert (T := HT i Hi). unfold near in T.
  assert (E : coord i (transform_from a p) - coord i (transform_from b p) =
    (coord i (mvec (pR a) (axis 0)) - coord i (mvec (pR b) (axis 0))) * vx p + (coord i (mvec (pR a) (axis 1)) - coord i (mvec (pR b) (axis 1))) * vy p +
    (coord i (mvec (pR a) (axis 2)) - coord i (mvec (pR b) (axis 2))) * vz p + (coord i (pt a) - coord i (pt b))).
  { unfold transform_from. destruct i as [|[|[|i]]]; [| | |lia]; cbn; ring. }
  rewrite E. unfold extent.
  assert (P : forall x y, Rabs x <= t + r -> Rabs (x * y) <= (t + r) * Rabs y) by (intros x y Hx; rewrite Rabs_mult; apply Rmult_le_compat_r; [apply Rabs_pos|exact Hx]).
  assert (P0 := P _ (vx p) (K 0%nat ltac:(lia))). assert (P1 := P _ (vy p) (K 1%nat ltac:(lia))). assert (P2 := P _ (vz p) (K 2%nat ltac:(lia))).
  eapply Rle_trans; [apply Rabs_triang|]. eapply Rle_trans; [apply Rplus_le_compat_r, Rabs_triang|]. eapply Rle_trans; [apply Rplus_le_compat_r, Rplus_le_compat_r, Rabs_triang|].
  lra.
Qed.

(** assert_equal and == hold exactly for equal values; equal poses are those that move
    every point to the same place.  Tolerances 0 mean the same. *)
Theorem C85_equal :
  (forall a b, rot_assert_equal a b = Ok tt <-> a = b) /\
  (forall a b, pose_assert_equal a b = Ok tt <-> a = b) /\
  (forall a b, pose_assert_equal a b = Ok tt <-> forall p, transform_from a p = transform_from b p) /\
  (forall a b, pose_almost_equal 0 0 a b = true <-> a = b) /\
  (forall a b, box_eq a b = true <-> a = b) /\
  (forall a b, box_almost_equal 0 0 a b = true <-> box_eq a b = true).
Proof.
  assert (RE : forall a b, rot_entries a = rot_entries b <-> a = b).
  { intros [] []. unfold rot_entries; cbn. split; intro H; injection H; intros; subst; reflexivity. }
  assert (PE : forall a b, pose_entries a = pose_entries b <-> a = b).
  { intros [[] []] [[] []]. unfold pose_entries, matrix34, rot_column, vec_entries; cbn. split; intro H; injection H; intros; subst; reflexivity. }
  assert (A : forall x y, assert_array_equal x y = Ok tt <-> x = y).
  { intros x y. unfold assert_array_equal. destruct (array_equal x y) eqn:E.
    - apply equal_eq in E. tauto.
    - split; [discriminate|]. intro H. apply equal_eq in H. congruence. }
  assert (VE : forall u v, vec_entries u = vec_entries v <-> u = v).
  { intros [] []. unfold vec_entries; cbn. split; intro H; injection H; intros; subst; reflexivity. }
  assert (BE : forall a b, box_eq a b = true <-> a = b).
  { intros [a1 a2] [b1 b2]. unfold box_eq; cbn [min_corner max_corner]. rewrite andb_true_iff, !equal_eq, !VE. split; [intros [-> ->]; reflexivity|intro H; injection H as -> ->; tauto]. }
  assert (Z : forall u v, vnear 0 0 u v <-> u = v).
  { intros u v. split.
    - intro H. assert (K : forall i, (i < 3)%nat -> coord i u = coord i v).
      { intros i Hi. specialize (H i Hi). unfold near in H. assert (X := Rabs_pos (coord i u - coord i v)). assert (Y : Rabs (coord i u - coord i v) = 0) by lra.
        destruct (Req_dec (coord i u - coord i v) 0) as [E|E]; [lra|]. apply Rabs_no_R0 in E. contradiction. }
      apply vec_eq; [apply (K 0%nat)|apply (K 1%nat)|apply (K 2%nat)]; lia.
    - intros -> i Hi. unfold near. rewrite Rminus_eq_0, Rabs_R0. lra. }
  split; [intros a b; unfold rot_assert_equal; rewrite A; apply RE|].
  split; [intros a b; unfold pose_assert_equal; rewrite A; apply PE|].
  split.
  { intros a b. unfold pose_assert_equal. rewrite A, PE. split; [intros ->; reflexivity|]. intro H.
    assert (H0 := H vzero). assert (HX := H (V 1 0 0)). assert (HY := H (V 0 1 0)). assert (HZ := H (V 0 0 1)).
    destruct a as [[] []], b as [[] []]. unfold transform_from, mvec, vadd, vzero in *; cbn in *. injection H0; injection HX; injection HY; injection HZ; intros.
    f_equal; f_equal; lra. }
  split.
  { intros a b. rewrite pose_near. unfold pnear, rnear. rewrite Z. split; [|intros ->; split; [intros; apply Z; reflexivity|reflexivity]].
    intros [H T]. destruct a as [a s], b as [b u]; cbn [pR pt] in *. subst u. f_equal.
    assert (K : forall j, (j < 3)%nat -> rot_column a j = rot_column b j) by (intros j Hj; rewrite <- !column by exact Hj; apply Z, H, Hj).
    assert (K0 := K 0%nat ltac:(lia)). assert (K1 := K 1%nat ltac:(lia)). assert (K2 := K 2%nat ltac:(lia)).
    destruct a, b. unfold rot_column in *; cbn in *. injection K0; injection K1; injection K2; intros; subst; reflexivity. }
  split; [exact BE|].
  intros a b. rewrite BE. unfold box_almost_equal. rewrite andb_true_iff, !allclose_vec, !Z. destruct a, b; cbn. split; [intros [-> ->]; reflexivity|intro H; injection H as -> ->; tauto].
Qed.

(** Reflexive; symmetric and transitive with larger tolerances. *)
Theorem C85_tolerances : forall r t, 0 <= r -> 0 <= t ->
  (forall a, pose_almost_equal r t a a = true) /\ (forall a, box_almost_equal r t a a = true) /\
  (r < 1 -> forall a b, pose_almost_equal r t a b = true -> pose_almost_equal (r / (1 - r)) (t / (1 - r)) b a = true) /\
  (forall r' t' a b c, pose_almost_equal r t a b = true -> pose_almost_equal r' t' b c = true ->
     pose_almost_equal (r + r' + r * r') (t + t' + r * t') a c = true).
Proof.
  intros r t Hr Ht. assert (V : forall u, vnear r t u u) by (intros u i _; apply near_refl; assumption).
  split; [intro a; apply pose_near; split; [intros j _; apply V|apply V]|].
  split; [intro a; apply C85_almost_equal; split; apply V|]. split.
  - intros Hr1 a b H. apply pose_near in H. apply pose_near. destruct H as [A B].
    split; [intros j Hj i Hi; apply near_swap; [lra|apply A; assumption]|intros i Hi; apply near_swap; [lra|apply B; assumption]].
  - intros r' t' a b c H K. apply pose_near in H. apply pose_near in K. apply pose_near. destruct H as [A B], K as [C D].
    split; [intros j Hj i Hi; eapply near_chain; [exact Hr|apply A; assumption|apply C; assumption]|intros i Hi; eapply near_chain; [exact Hr|apply B; assumption|apply D; assumption]].
Qed.

Definition at_x (x : R) : pose := Pose mid (V x 0 0).
Lemma at_x_near : forall r t x y, 0 <= r -> 0 <= t -> (pose_almost_equal r t (at_x x) (at_x y) = true <-> near r t x y).
Proof.
  intros r t x y Hr Ht. rewrite pose_near. unfold pnear, at_x; cbn [pR pt]. split.
  - intros [_ H]. apply (H 0%nat). lia.
  - intro H. split; [intros j _ i _; apply near_refl; assumption|]. intros i Hi. destruct i as [|[|i]]; cbn; [exact H| |]; apply near_refl; assumption.
Qed.
Ltac rabs := repeat match goal with |- context [Rabs ?x] => unfold Rabs at 1; destruct (Rcase_abs _) end; try lra.

(** With the default tolerances it is neither symmetric nor transitive. *)
Theorem C85_symmetric_refuted : exists a b,
  pose_almost_equal default_rtol default_atol a b = true /\ pose_almost_equal default_rtol default_atol b a = false.
Proof.
  exists (at_x (1000 - 1 / 100 - 1 / 100000000)), (at_x 1000). unfold default_rtol, default_atol. split.
  - apply at_x_near; try lra. unfold near. rabs.
  - destruct (pose_almost_equal _ _ _ _) eqn:E; [|reflexivity]. apply at_x_near in E; try lra. exfalso. revert E. unfold near. rabs.
Qed.

Theorem C85_transitive_refuted : exists a b c,
  pose_almost_equal default_rtol default_atol a b = true /\ pose_almost_equal default_rtol default_atol b c = true /\
  pose_almost_equal default_rtol default_atol a c = false.
Proof.
  exists (at_x 0), (at_x (1 / 100000000)), (at_x (2 / 100000000)). unfold default_rtol, default_atol. split; [|split].
  - apply at_x_near; try lra. unfold near. rabs.
  - apply at_x_near; try lra. unfold near. rabs.
  - destruct (pose_almost_equal _ _ _ _) eqn:E; [|reflexivity]. apply at_x_near in E; try lra. exfalso. revert E. unfold near. rabs.
Qed.

(** assert_almost_equal: no exception exactly if every entry differs by less than 1.5
    units of the decimal place; this is symmetric. *)
Theorem C85_assertion : forall d,
  (forall a b, pose_assert_almost_equal d a b = Ok tt <-> pbelow (3 / 2 / 10 ^ d) a b) /\
  (forall a b, rot_assert_almost_equal d a b = Ok tt <-> rbelow (3 / 2 / 10 ^ d) a b) /\
  (forall a b e, pose_assert_almost_equal d a b = Err e -> e = AssertionError) /\
  (forall a b, pose_assert_almost_equal d a b = pose_assert_almost_equal d b a) /\
  (forall a, pose_assert_almost_equal d a a = Ok tt).
Proof.
  intro d. assert (P : 0 < 3 / 2 / 10 ^ d). { assert (0 < 10 ^ d) by (apply pow_lt; lra). unfold Rdiv. apply Rmult_lt_0_compat; [lra|]. apply Rinv_0_lt_compat; assumption. }
  assert (A : forall a b, pose_assert_almost_equal d a b = Ok tt <-> pbelow (3 / 2 / 10 ^ d) a b).
  { intros a b. rewrite <- pose_below. unfold pose_assert_almost_equal, assert_array_almost_equal. destruct (all_below _ _ _); split; try discriminate; reflexivity. }
  split; [exact A|]. split.
  { intros a b. rewrite <- rot_below. unfold rot_assert_almost_equal, assert_array_almost_equal. destruct (all_below _ _ _); split; try discriminate; reflexivity. }
  split.
  { intros a b e. unfold pose_assert_almost_equal, assert_array_almost_equal. destruct (all_below _ _ _); [discriminate|]. intro H; injection H as <-; reflexivity. }
  assert (S : forall a b, pbelow (3 / 2 / 10 ^ d) a b -> pbelow (3 / 2 / 10 ^ d) b a).
  { intros a b [H K]. split; [intros j Hj i Hi; rewrite Rabs_minus_sym; apply H; assumption|intros i Hi; rewrite Rabs_minus_sym; apply K; assumption]. }
  split.
  - intros a b. destruct (pose_assert_almost_equal d a b) as [[]|e] eqn:E1, (pose_assert_almost_equal d b a) as [[]|e'] eqn:E2; try reflexivity.
    + apply A, S, A in E1. congruence.
    + apply A, S, A in E2. congruence.
    + unfold pose_assert_almost_equal, assert_array_almost_equal in *. destruct (all_below _ _ _) in E1; [discriminate|]. destruct (all_below _ _ _) in E2; [discriminate|]. congruence.
  - intro a. apply A. split; [intros j _ i _|intros i _]; rewrite Rminus_eq_0, Rabs_R0; exact P.
Qed.

(** The two comparisons do not imply each other with their default tolerances: poses far
    from the origin are almost equal and fail the assertion, poses near it the other way. *)
Theorem C85_comparisons_refuted :
  (exists a b, pose_almost_equal default_rtol default_atol a b = true /\ pose_assert_almost_equal 6 a b = Err AssertionError) /\
  (exists a b, pose_almost_equal default_rtol default_atol a b = false /\ pose_assert_almost_equal 6 a b = Ok tt).
Proof.
  assert (P : 3 / 2 / 10 ^ 6 = 3 / 2000000) by (cbn; field).
  split.
  - exists (at_x 1000), (at_x (1000 + 1 / 1000)). split.
    + unfold default_rtol, default_atol. apply at_x_near; try lra. unfold near. rabs.
    + destruct (C85_assertion 6) as (A & _ & B & _). destruct (pose_assert_almost_equal _ _ _) as [[]|e] eqn:E; [|f_equal; eapply B; exact E].
      apply A in E. destruct E as [_ E]. specialize (E 0%nat ltac:(lia)). rewrite P in E. cbn in E. exfalso. revert E. rabs.
  - exists (at_x 0), (at_x (1 / 1000000)). split.
    + unfold default_rtol, default_atol. destruct (pose_almost_equal _ _ _ _) eqn:E; [|reflexivity]. apply at_x_near in E; try lra. exfalso. revert E. unfold near. rabs.
    + apply C85_assertion. rewrite P. split; [intros j _ i _; rewrite Rminus_eq_0, Rabs_R0; lra|]. intros i Hi. destruct i as [|[|i]]; cbn; rabs.
Qed.

Example C85_example :
  rotation (pR (at_x 2)) /\ pose_almost_equal (1 / 100) 0 (at_x 100) (at_x 101) = true /\ pose_almost_equal (1 / 100) 0 (at_x 100) (at_x 102) = false /\
  box_almost_equal 0 (1 / 10) (mk_box (V 0 0 0) (V 1 1 1)) (mk_box (V 1 1 1) (V (1 / 20) 0 0)) = true.
Proof.
  split; [apply rotation_id|]. split; [apply at_x_near; try lra; unfold near; rabs|]. split.
  - destruct (pose_almost_equal _ _ _ _) eqn:E; [|reflexivity]. apply at_x_near in E; try lra. exfalso. revert E. unfold near. rabs.
  - apply C85_almost_equal. unfold mk_box, amin, amax, vmin2, vmax2, Rmin, Rmax; cbn.
    repeat match goal with |- context [Rle_dec ?x ?y] => destruct (Rle_dec x y); try (exfalso; lra) end.
    split; intros i Hi; destruct i as [|[|i]]; cbn; unfold near; cbn; rabs.
Qed.

(** * Objects *)
Section Objects.
  Context {M : Type}.
  Variable count : M -> nat.
  Variable sizes : M -> res (list (nat * nat)).
  Notation object_almost_equal := (object_almost_equal count sizes).
  Notation dict_almost_equal := (dict_almost_equal count sizes).

  (** Models have the same size if they have the same list of mesh sizes: an equivalence
      on the models that can be read. *)
  Theorem C86_same_size : counted count sizes -> forall a b la lb, sizes a = Ok la -> sizes b = Ok lb ->
    exists r, same_size count sizes a b = Ok r /\ (r = true <-> la = lb).
  Proof. intros C a b la lb. apply same_size_ok, C. Qed.

  (** The answer for two objects without meshes, and for two with readable ones. *)
  Theorem C86_objects : counted count sizes -> forall a b : pobject M,
    (o_meshes a = None -> exists r, object_almost_equal a b = Ok r /\
       (r = true <-> same_labels a b /\ pnear default_rtol default_atol (o_pose a) (o_pose b) /\ near default_rtol default_atol (o_score a) (o_score b))) /\
    (forall m m' l l', o_meshes a = Some m -> o_meshes b = Some m' -> sizes m = Ok l -> sizes m' = Ok l' -> exists r, object_almost_equal a b = Ok r /\
       (r = true <-> l = l' /\ same_labels a b /\ pnear default_rtol default_atol (o_pose a) (o_pose b) /\ near default_rtol default_atol (o_score a) (o_score b))) /\
    (forall m, o_meshes a = Some m -> o_meshes b = None -> object_almost_equal a b = Err AttributeError).
  Proof.
    intros C a b. assert (O := object_ok count sizes a b). assert (P := object_outcome count sizes a b). split; [|split].
    - intro H. rewrite H in O, P. cbn [meshes_agree] in O, P. destruct (proj2 P) as (r & R); [eexists; reflexivity|]. exists r. split; [exact R|].
      rewrite R in O. split; [intros ->; tauto|]. intro K. assert (Ok r = Ok true) by tauto. congruence.
    - intros m m' l l' H H' L L'. rewrite H, H' in O, P. cbn [meshes_agree] in O, P. destruct (same_size_ok count sizes m m' l l' C L L') as (s & S & E). rewrite S in O, P.
      destruct (proj2 P) as (r & R); [eexists; reflexivity|]. exists r. split; [exact R|]. rewrite R in O. split.
      + intros ->. destruct (proj1 O eq_refl) as (X & Y). injection X as ->. tauto.
      + intros (X & Y). apply E in X. subst s. assert (Ok r = Ok true) by tauto. congruence.
    - intros m H H'. unfold Model.object_almost_equal. rewrite H, H'. reflexivity.
  Qed.

  (** Type, bounding box and voxels are not looked at. *)
  Theorem C86_ignored : forall (a b : pobject M) ty bd vx ty' bd' vx',
    object_almost_equal (PObject (o_id a) ty bd vx (o_meshes a) (o_pose a) (o_category a) (o_symmetry a) (o_score a) (o_evaluated a))
      (PObject (o_id b) ty' bd' vx' (o_meshes b) (o_pose b) (o_category b) (o_symmetry b) (o_score b) (o_evaluated b)) = object_almost_equal a b.
  Proof. intros [] []. reflexivity. Qed.

  (** Two dictionaries are almost equal if they have the same keys and almost equal
      objects under each, in any order. *)
  Theorem C86_dicts : forall self other, NoDup (map fst self) -> NoDup (map fst other) ->
    dict_almost_equal self other = Ok true <->
    (forall k, In k (map fst self) <-> In k (map fst other)) /\
    forall k a b, sget k self = Some a -> sget k other = Some b -> object_almost_equal a b = Ok true.
  Proof. intros. apply dict_ok; assumption. Qed.

  (** It raises only what the comparison of two objects under the same key raises; a key
      missing in the other dictionary is no exception. *)
  Theorem C86_dicts_raise : forall self other e, dict_almost_equal self other = Err e ->
    exists k a b, sget k self = Some a /\ sget k other = Some b /\ object_almost_equal a b = Err e.
  Proof.
    intros self other e H. unfold dict_almost_equal in H. destruct (negb _); [discriminate|].
    eapply dict_loop_raises; [|exact H]. intros k Hk. destruct (sget k self) eqn:E; [eexists; reflexivity|].
    exfalso. rewrite (dget_None _ str_eqb_spec) in E. contradiction.
  Qed.

  (** A dictionary of objects with readable models is almost equal to itself. *)
  Theorem C86_reflexive : counted count sizes -> forall d, NoDup (map fst d) ->
    (forall k o m, In (k, o) d -> o_meshes o = Some m -> exists l, sizes m = Ok l) -> dict_almost_equal d d = Ok true.
  Proof.
    intros C d N H. apply C86_dicts; [exact N|exact N|]. split; [tauto|]. intros k a b A B. assert (b = a) by congruence. subst b.
    apply (dget_In _ str_eqb_spec) in A.
    assert (L : same_labels a a) by (unfold same_labels; tauto).
    assert (P : pnear default_rtol default_atol (o_pose a) (o_pose a)) by (apply pose_near, C85_tolerances; unfold default_rtol, default_atol; lra).
    assert (S : near default_rtol default_atol (o_score a) (o_score a)) by (apply near_refl; unfold default_rtol, default_atol; lra).
    destruct (C86_objects C a a) as (O1 & O2 & _). destruct (o_meshes a) as [m|] eqn:E.
    - destruct (H k a m A E) as (l & Hl). destruct (O2 m m l l eq_refl eq_refl Hl Hl) as (r & R & T). rewrite R. f_equal. apply T. tauto.
    - destruct (O1 eq_refl) as (r & R & T). rewrite R. f_equal. apply T. tauto.
  Qed.
End Objects.

(** An object of the bounding box track with another box, even a disjoint one, is almost
    equal; and the comparison of an object with meshes and one without depends on the side. *)
Definition an_object (ty : string) (b : box) (m : option unit) : pobject unit :=
  PObject "1" ty (Some b) None m pose_id (Some "chair"%string) (Symmetry none none none) 1 true.
Lemma an_object_ok : forall ty ty' b b' m, object_almost_equal (fun _ => 0%nat) (fun _ : unit => Ok []) (an_object ty b None) (an_object ty' b' m) = Ok true.
Proof.
  intros. destruct (C86_objects (fun _ : unit => 0%nat) (fun _ : unit => Ok []) ltac:(intros x l H; injection H as <-; reflexivity) (an_object ty b None) (an_object ty' b' m)) as (H & _).
  destruct (H eq_refl) as (r & -> & R). f_equal. apply R. cbn. split; [unfold same_labels; cbn; tauto|].
  assert (default_rtol = 1 / 100000) by reflexivity. assert (default_atol = 1 / 100000000) by reflexivity.
  split; [apply pose_near, C85_tolerances; lra|apply near_refl; lra].
Qed.
Theorem C86_box_refuted : exists (a b : pobject unit) ba bb, o_type a = "bounding_box"%string /\ o_type b = "bounding_box"%string /\
  o_bounds a = Some ba /\ o_bounds b = Some bb /\ quick_reject ba bb = true /\
  object_almost_equal (fun _ => 0%nat) (fun _ => Ok []) a b = Ok true.
Proof.
  exists (an_object "bounding_box" (mk_box (V 0 0 0) (V 1 1 1)) None), (an_object "bounding_box" (mk_box (V 5 5 5) (V 6 6 6)) None). eexists. eexists.
  do 4 (split; [reflexivity|]). split; [|apply an_object_ok].
  unfold quick_reject, mk_box, amin, amax, vmin2, vmax2, Rltb, Rmin, Rmax; cbn.
  repeat match goal with |- context [Rle_dec ?x ?y] => destruct (Rle_dec x y); try (exfalso; lra) | |- context [Rlt_dec ?x ?y] => destruct (Rlt_dec x y); try (exfalso; lra) end; reflexivity.
Qed.
Theorem C86_symmetric_refuted : exists a b : pobject unit,
  object_almost_equal (fun _ => 0%nat) (fun _ => Ok []) a b = Ok true /\
  object_almost_equal (fun _ => 0%nat) (fun _ => Ok []) b a = Err AttributeError.
Proof.
  exists (an_object "bounding_box" (mk_box vzero vzero) None), (an_object "meshes" (mk_box vzero vzero) (Some tt)). split; [apply an_object_ok|reflexivity].
Qed.

(** * The guard *)

(** A dictionary changed only by d[k] = v and del holds objects only, whatever a program
    tries; other ways to store are not checked. *)
Theorem C86_guard : forall (M : Type) (ops : list (dict_op M)),
  Forall (fun op => match op with SetItem _ _ | DelItem _ => True | _ => False end) ops ->
  Forall (fun kv => is_object (snd kv) = true) (dict_run ops []).
Proof.
  intros M ops F. unfold dict_run.
  assert (K : forall d, Forall (fun kv : string * stored M => is_object (snd kv) = true) d ->
    Forall (fun kv => is_object (snd kv) = true) (fold_left (fun d op => match dict_step d op with Ok d' => d' | Err _ => d end) ops d)).
  { induction F as [|op ops Hop F IH]; intros d D; cbn [fold_left]; [exact D|]. apply IH. destruct op as [k v|kvs|k v|k]; cbn [dict_step]; try contradiction.
    - destruct (is_object v) eqn:E; [|exact D]. clear - D E. induction D as [|[k' v'] d D1 D IH]; cbn; [constructor; [exact E|constructor]|].
      destruct (String.eqb k k'); constructor; try assumption.
    - destruct (smem k d); [|exact D]. unfold del_key. apply Forall_forall. intros kv Hkv. apply filter_In in Hkv. rewrite Forall_forall in D. apply D, Hkv. }
  apply K. constructor.
Qed.
Theorem C86_guard_refuted : exists op : dict_op unit, In ("1"%string, SomethingElse) (dict_run [op] []) /\
  In ("1"%string, SomethingElse) (dict_init (M := unit) [("1"%string, SomethingElse)]).
Proof. exists (Update [("1"%string, SomethingElse)]). split; left; reflexivity. Qed.

Example C86_example :
  dict_almost_equal (fun _ => 0%nat) (fun _ : unit => Ok [])
    [("a"%string, an_object "voxels" (mk_box vzero vzero) None); ("b"%string, an_object "meshes" (mk_box vzero vzero) None)]
    [("b"%string, an_object "voxels" (mk_box vzero vzero) None); ("a"%string, an_object "voxels" (mk_box vzero vzero) (Some tt))] = Ok true /\
  dict_almost_equal (fun _ => 0%nat) (fun _ : unit => Ok [])
    [("a"%string, an_object "voxels" (mk_box vzero vzero) None)] [("b"%string, an_object "voxels" (mk_box vzero vzero) None)] = Ok false.
Proof.
  split; [|reflexivity]. apply C86_dicts.
  - repeat constructor; cbn; intuition discriminate.
  - repeat constructor; cbn; intuition discriminate.
  - split; [intro k; cbn; tauto|]. intros k a b A B. cbn in A, B.
    destruct (String.eqb k "a") eqn:Ea; [apply String.eqb_eq in Ea; subst k; cbn in *; injection A as <-; injection B as <-; apply an_object_ok|].
    destruct (String.eqb k "b") eqn:Eb; [injection A as <-; injection B as <-; apply an_object_ok|discriminate].
Qed.

Print Assumptions C85_almost_equal.
Print Assumptions C85_points.
Print Assumptions C85_equal.
Print Assumptions C85_tolerances.
Print Assumptions C85_symmetric_refuted.
Print Assumptions C85_transitive_refuted.
Print Assumptions C85_assertion.
Print Assumptions C85_comparisons_refuted.
Print Assumptions C86_same_size.
Print Assumptions C86_objects.
Print Assumptions C86_ignored.
Print Assumptions C86_dicts.
Print Assumptions C86_dicts_raise.
Print Assumptions C86_reflexive.
Print Assumptions C86_box_refuted.
Print Assumptions C86_symmetric_refuted.
Print Assumptions C86_guard.
Print Assumptions C86_guard_refuted.
