From Coq Require Import Reals List Bool String Lra Lia.
From Verif.Base Require Import Py PyFacts Vec.
From Verif.Geom Require Import Model.
From Verif.Box Require Import Model.
From Verif.Symm Require Import Model.
From Verif.Scene Require Import Model.
From Verif.Equal Require Import Model Spec.
Import ListNotations.
Local Open Scope R_scope.

Lemma isclose_near : forall r t x y, isclose r t x y = true <-> near r t x y.
Proof. intros. unfold isclose, near, Rleb. destruct (Rle_dec _ _); split; intros; try assumption; try reflexivity; try discriminate; contradiction. Qed.

Lemma allclose_vec : forall r t u v, allclose r t (vec_entries u) (vec_entries v) = true <-> vnear r t u v.
Proof.
  intros r t u v. unfold vec_entries. cbn [allclose]. rewrite !andb_true_iff, !isclose_near. split.
  - intros (A & B & C & _) i Hi. destruct i as [|[|i]]; assumption.
  - intro H. split; [apply (H 0%nat); lia|]. split; [apply (H 1%nat); lia|]. split; [apply (H 2%nat); lia|reflexivity].
Qed.

Lemma allclose_app : forall r t a b c d, List.length a = List.length b -> allclose r t (a ++ c) (b ++ d) = allclose r t a b && allclose r t c d.
Proof.
  intros r t a. induction a as [|x a IH]; intros [|y b] c d H; try discriminate; [reflexivity|]. cbn [app allclose]. rewrite IH by (injection H; auto). apply andb_assoc.
Qed.

Lemma below_vec : forall e u v, all_below e (vec_entries u) (vec_entries v) = true <-> vbelow e u v.
Proof.
  intros e u v. unfold vec_entries. cbn [all_below]. rewrite !andb_true_iff.
  assert (K : forall x y, (if Rlt_dec (Rabs (x - y)) e then true else false) = true <-> Rabs (x - y) < e) by (intros; destruct (Rlt_dec _ _); split; intros; try assumption; try reflexivity; try discriminate; contradiction).
  rewrite !K. split.
  - intros (A & B & C & _) i Hi. destruct i as [|[|i]]; assumption.
  - intro H. split; [apply (H 0%nat); lia|]. split; [apply (H 1%nat); lia|]. split; [apply (H 2%nat); lia|reflexivity].
Qed.
Lemma below_app : forall e a b c d, List.length a = List.length b -> all_below e (a ++ c) (b ++ d) = all_below e a b && all_below e c d.
Proof.
  intros e a. induction a as [|x a IH]; intros [|y b] c d H; try discriminate; [reflexivity|]. cbn [app all_below]. rewrite IH by (injection H; auto). apply andb_assoc.
Qed.
Lemma equal_eq : forall a b, array_equal a b = true <-> a = b.
Proof.
  induction a as [|x a IH]; intros [|y b]; cbn [array_equal]; split; intro H; try reflexivity; try discriminate.
  - apply andb_true_iff in H. destruct H as [H1 H2]. unfold Req_b in H1. destruct (Req_EM_T x y); [subst|discriminate]. f_equal. apply IH, H2.
  - injection H as <- <-. unfold Req_b. destruct (Req_EM_T x x); [|contradiction]. apply IH. reflexivity.
Qed.

Lemma column : forall m j, (j < 3)%nat -> mvec m (axis j) = rot_column m j.
Proof. intros [] j Hj. destruct j as [|[|[|j]]]; [| | |lia]; unfold mvec, rot_column; cbn; apply vec_eq; cbn; ring. Qed.

Lemma rot_near : forall r t a b, rot_almost_equal r t a b = true <-> rnear r t a b.
Proof.
  intros r t a b. unfold rot_almost_equal, rot_entries. cbn [allclose]. rewrite !andb_true_iff, !isclose_near. unfold rnear. split.
  - intros H j Hj. rewrite !column by exact Hj. intros i Hi. decompose [and] H. destruct a, b. destruct j as [|[|[|j]]]; [| | |lia]; destruct i as [|[|[|i]]]; try lia; cbn in *; assumption.
  - intro H. assert (K : forall i j, (i < 3)%nat -> (j < 3)%nat -> near r t (coord i (rot_column a j)) (coord i (rot_column b j))) by (intros i j Hi Hj; rewrite <- !column by exact Hj; apply H; assumption).
    destruct a, b. repeat split; [apply (K 0%nat 0%nat)|apply (K 0%nat 1%nat)|apply (K 0%nat 2%nat)|apply (K 1%nat 0%nat)|apply (K 1%nat 1%nat)|apply (K 1%nat 2%nat)|apply (K 2%nat 0%nat)|apply (K 2%nat 1%nat)|apply (K 2%nat 2%nat)]; lia.
Qed.
Lemma rot_below : forall e a b, all_below e (rot_entries a) (rot_entries b) = true <-> rbelow e a b.
Proof.
  intros e a b. unfold rot_entries. cbn [all_below]. rewrite !andb_true_iff.
  assert (K : forall x y, (if Rlt_dec (Rabs (x - y)) e then true else false) = true <-> Rabs (x - y) < e) by (intros; destruct (Rlt_dec _ _); split; intros; try assumption; try reflexivity; try discriminate; contradiction).
  rewrite !K. unfold rbelow. split.
  - intros H j Hj. rewrite !column by exact Hj. intros i Hi. decompose [and] H. destruct a, b. destruct j as [|[|[|j]]]; [| | |lia]; destruct i as [|[|[|i]]]; try lia; cbn in *; assumption.
  - intro H. assert (K' : forall i j, (i < 3)%nat -> (j < 3)%nat -> Rabs (coord i (rot_column a j) - coord i (rot_column b j)) < e) by (intros i j Hi Hj; rewrite <- !column by exact Hj; apply H; assumption).
    destruct a, b. repeat split; [apply (K' 0%nat 0%nat)|apply (K' 0%nat 1%nat)|apply (K' 0%nat 2%nat)|apply (K' 1%nat 0%nat)|apply (K' 1%nat 1%nat)|apply (K' 1%nat 2%nat)|apply (K' 2%nat 0%nat)|apply (K' 2%nat 1%nat)|apply (K' 2%nat 2%nat)]; lia.
Qed.

Lemma pose_near : forall r t a b, pose_almost_equal r t a b = true <-> pnear r t a b.
Proof.
  intros r t a b. unfold pose_almost_equal, pose_entries, matrix34.
  rewrite !allclose_app by reflexivity. rewrite !andb_true_iff, !allclose_vec. unfold pnear, rnear. split.
  - intros (A & B & C & D). split; [|exact D]. intros j Hj. rewrite !column by exact Hj. destruct j as [|[|[|j]]]; [assumption..|lia].
  - intros (A & D). repeat split; try exact D; [specialize (A 0%nat ltac:(lia))|specialize (A 1%nat ltac:(lia))|specialize (A 2%nat ltac:(lia))]; rewrite !column in A by lia; exact A.
Qed.
Lemma pose_below : forall e a b, all_below e (pose_entries a) (pose_entries b) = true <-> pbelow e a b.
Proof.
  intros e a b. unfold pose_entries, matrix34.
  rewrite !below_app by reflexivity. rewrite !andb_true_iff, !below_vec. unfold pbelow, rbelow. split.
  - intros (A & B & C & D). split; [|exact D]. intros j Hj. rewrite !column by exact Hj. destruct j as [|[|[|j]]]; [assumption..|lia].
  - intros (A & D). repeat split; try exact D; [specialize (A 0%nat ltac:(lia))|specialize (A 1%nat ltac:(lia))|specialize (A 2%nat ltac:(lia))]; rewrite !column in A by lia; exact A.
Qed.

(** Tolerances of three comparisons. *)
Lemma near_refl : forall r t x, 0 <= r -> 0 <= t -> near r t x x.
Proof. intros. unfold near. rewrite Rminus_eq_0, Rabs_R0. assert (0 <= r * Rabs x) by (apply Rmult_le_pos; [assumption|apply Rabs_pos]). lra. Qed.
Lemma near_swap : forall r t x y, 0 <= r < 1 -> near r t x y -> near (r / (1 - r)) (t / (1 - r)) y x.
Proof.
  unfold near. intros r t x y Hr H. rewrite Rabs_minus_sym in H.
  assert (Rabs y <= Rabs x + Rabs (y - x)) by (replace y with (x + (y - x)) at 1 by ring; apply Rabs_triang).
  apply Rmult_le_reg_l with (1 - r); [lra|]. replace ((1 - r) * (t / (1 - r) + r / (1 - r) * Rabs x)) with (t + r * Rabs x) by (field; lra).
  assert (r * Rabs y <= r * (Rabs x + Rabs (y - x))) by (apply Rmult_le_compat_l; lra). lra.
Qed.
Lemma near_chain : forall r1 t1 r2 t2 x y z, 0 <= r1 -> near r1 t1 x y -> near r2 t2 y z ->
  near (r1 + r2 + r1 * r2) (t1 + t2 + r1 * t2) x z.
Proof.
  unfold near. intros r1 t1 r2 t2 x y z H A B.
  assert (C : Rabs (x - z) <= Rabs (x - y) + Rabs (y - z)) by (replace (x - z) with ((x - y) + (y - z)) by ring; apply Rabs_triang).
  assert (D : Rabs y <= Rabs z + Rabs (y - z)) by (replace y with (z + (y - z)) at 1 by ring; apply Rabs_triang).
  assert (r1 * Rabs y <= r1 * (Rabs z + (t2 + r2 * Rabs z))) by (apply Rmult_le_compat_l; lra). lra.
Qed.

(** Entries of a rotation are at most 1. *)
Lemma rotation_entry : forall m j i, rotation m -> (j < 3)%nat -> Rabs (coord i (mvec m (axis j))) <= 1.
Proof.
  intros m j i [H _] Hj. rewrite column by exact Hj. destruct m as [a b c d e f g h k]. unfold mmul, mtr, mid in H. cbn in H. injection H; intros H22 H21 H20 H12 H11 H10 H02 H01 H00.
  assert (K : forall x y z, x * x + y * y + z * z = 1 -> Rabs x <= 1).
  { intros x y z E. assert (X2 := Rle_0_sqr y). assert (X3 := Rle_0_sqr z). unfold Rsqr in *. apply Rsqr_le_abs_0_alt with (y := 1) || idtac.
    apply Rabs_le. split; nra. }
  destruct j as [|[|[|j]]]; [| | |lia]; destruct i as [|[|i]]; cbn.
  - eapply K. exact H00.
  - apply (K d a g). lra.
  - apply (K g a d). lra.
  - apply (K b e h). lra.
  - apply (K e b h). lra.
  - apply (K h b e). lra.
  - apply (K c f k). lra.
  - apply (K f c k). lra.
  - apply (K k c f). lra.
Qed.

(** * Objects *)

Section Objects.
  Context {M : Type}.
  Variable count : M -> nat.
  Variable sizes : M -> res (list (nat * nat)).

  Lemma mesh_same_size_eq : forall a b, mesh_same_size a b = true <-> a = b.
  Proof.
    intros [a1 a2] [b1 b2]. unfold mesh_same_size; cbn. rewrite andb_true_iff, !Nat.eqb_eq. split; [intros [-> ->]; reflexivity|intro H; injection H as -> ->; tauto].
  Qed.

  Lemma loop_ok : forall a b la lb is_, sizes a = Ok la -> sizes b = Ok lb ->
    Forall (fun i => (i < List.length la)%nat /\ (i < List.length lb)%nat) is_ ->
    exists r, same_size_loop sizes a b is_ = Ok r /\ (r = true <-> Forall (fun i => nth_error la i = nth_error lb i) is_).
  Proof.
    intros a b la lb is_ Ha Hb. induction is_ as [|i is_ IH]; intro F; cbn [same_size_loop].
    - exists true. split; [reflexivity|]. split; [constructor|reflexivity].
    - inversion F as [|? ? [L1 L2] F']; subst. unfold extract. rewrite Ha, Hb. cbn [bind].
      destruct (nth_error la i) as [x|] eqn:Ex; [|apply nth_error_None in Ex; lia]. destruct (nth_error lb i) as [y|] eqn:Ey; [|apply nth_error_None in Ey; lia].
      cbn [bind]. destruct (mesh_same_size x y) eqn:Em; cbn [negb].
      + apply mesh_same_size_eq in Em. subst y. destruct (IH F') as (r & -> & R). exists r. split; [reflexivity|]. rewrite R. split; intro H; [constructor; [congruence|exact H]|inversion H; assumption].
      + exists false. split; [reflexivity|]. split; [discriminate|]. intro H. inversion H as [|? ? E _]; subst. exfalso. assert (x = y) by congruence. apply mesh_same_size_eq in H0. congruence.
  Qed.

  Lemma same_nth : forall A (l l' : list A), (forall i, nth_error l i = nth_error l' i) -> l = l'.
  Proof.
    induction l as [|x l IH]; intros [|y l'] H; [reflexivity|discriminate (H 0%nat)|discriminate (H 0%nat)|].
    assert (E := H 0%nat). injection E as ->. f_equal. apply IH. intro i. apply (H (S i)).
  Qed.

  Lemma same_size_ok : forall a b la lb, counted count sizes -> sizes a = Ok la -> sizes b = Ok lb ->
    exists r, same_size count sizes a b = Ok r /\ (r = true <-> la = lb).
  Proof.
    intros a b la lb C Ha Hb. unfold same_size. rewrite <- (C a la Ha), <- (C b lb Hb).
    destruct (Nat.eqb_spec (List.length lb) (List.length la)) as [E|E]; cbn [negb].
    - destruct (loop_ok a b la lb (seq 0 (List.length la)) Ha Hb) as (r & -> & R).
      { apply Forall_forall. intros i Hi. apply in_seq in Hi. lia. }
      exists r. split; [reflexivity|]. rewrite R. split; [|intros ->; apply Forall_forall; reflexivity].
      intro H. apply same_nth. intro i. destruct (Nat.lt_ge_cases i (List.length la)) as [L|L].
      + rewrite Forall_forall in H. apply H, in_seq. lia.
      + transitivity (@None (nat * nat)); [apply nth_error_None; exact L|symmetry; apply nth_error_None; lia].
    - exists false. split; [reflexivity|]. split; [discriminate|intros ->; contradiction].
  Qed.

  Lemma sym_eqb_eq : forall a b, sym_eqb a b = true <-> a = b.
  Proof.
    assert (K : forall x y, st_eqb x y = true <-> x = y) by (intros [] []; cbn; split; intro; try reflexivity; discriminate).
    intros [a1 a2 a3] [b1 b2 b3]. unfold sym_eqb; cbn [x_symmetry y_symmetry z_symmetry]. rewrite !andb_true_iff, !K. split; [intros [[-> ->] ->]; reflexivity|intro H; injection H as -> -> ->; tauto].
  Qed.
  Lemma opt_str_eqb_eq : forall a b, opt_str_eqb a b = true <-> a = b.
  Proof.
    intros [a|] [b|]; cbn; [rewrite String.eqb_eq; split; congruence|split; discriminate|split; discriminate|tauto].
  Qed.

  Definition meshes_agree (a b : option M) : res bool :=
    match a with None => Ok true | Some m => match b with None => Err AttributeError | Some m' => same_size count sizes m m' end end.

  Lemma object_ok : forall a b, object_almost_equal count sizes a b = Ok true <->
    meshes_agree (o_meshes a) (o_meshes b) = Ok true /\ same_labels a b /\
    pnear default_rtol default_atol (o_pose a) (o_pose b) /\ near default_rtol default_atol (o_score a) (o_score b).
  Proof.
    intros a b. unfold object_almost_equal. change (match o_meshes a with | Some m => match o_meshes b with | Some m' => same_size count sizes m m' | None => Err AttributeError end | None => Ok true end) with (meshes_agree (o_meshes a) (o_meshes b)).
    destruct (meshes_agree (o_meshes a) (o_meshes b)) as [[|]|e] eqn:E; cbn [bind negb].
    - unfold same_labels. split.
      + intro H. injection H as H. rewrite !andb_true_iff, pose_near, isclose_near, String.eqb_eq, opt_str_eqb_eq, sym_eqb_eq, Bool.eqb_true_iff in H. tauto.
      + intros (_ & (H1 & H2 & H3 & H4) & H5 & H6). f_equal. rewrite !andb_true_iff, pose_near, isclose_near, String.eqb_eq, opt_str_eqb_eq, sym_eqb_eq, Bool.eqb_true_iff. tauto.
    - split; [discriminate|intros (H & _); discriminate].
    - split; [discriminate|intros (H & _); discriminate].
  Qed.

  Lemma object_outcome : forall a b, (exists r, object_almost_equal count sizes a b = Ok r) <-> (exists r, meshes_agree (o_meshes a) (o_meshes b) = Ok r).
  Proof.
    intros a b. unfold object_almost_equal. change (match o_meshes a with | Some m => match o_meshes b with | Some m' => same_size count sizes m m' | None => Err AttributeError end | None => Ok true end) with (meshes_agree (o_meshes a) (o_meshes b)).
    destruct (meshes_agree (o_meshes a) (o_meshes b)) as [[|]|e]; cbn [bind negb]; split; intros (r & H); try discriminate; eexists; reflexivity.
  Qed.

  Notation sget := (dget String.eqb).
  Lemma dict_loop_ok : forall self other keys, (forall k, In k keys -> In k (map fst self)) -> NoDup (map fst self) ->
    dict_loop count sizes self keys other = Ok true <->
    forall k, In k keys -> exists a b, sget k self = Some a /\ sget k other = Some b /\ object_almost_equal count sizes a b = Ok true.
  Proof.
    intros self other keys. induction keys as [|k keys IH]; intros K N; cbn [dict_loop].
    - split; [intros _ k []|reflexivity].
    - assert (Hk : exists a, sget k self = Some a).
      { destruct (sget k self) eqn:E; [eexists; reflexivity|]. exfalso. rewrite (dget_None _ str_eqb_spec) in E. apply E, K. left; reflexivity. }
      destruct Hk as (a & Ha). unfold dmem, dgetE. rewrite Ha. destruct (sget k other) as [b|] eqn:Hb; cbn [negb bind].
      + destruct (object_almost_equal count sizes a b) as [[|]|e] eqn:E; cbn [bind negb].
        * rewrite IH by (try exact N; intros; apply K; right; assumption). split.
          -- intros H x [<-|Hx]; [exists a, b; tauto|apply H, Hx].
          -- intros H x Hx. apply H. right; exact Hx.
        * split; [discriminate|]. intro H. destruct (H k) as (a' & b' & A & B & C); [left; reflexivity|]. congruence.
        * split; [discriminate|]. intro H. destruct (H k) as (a' & b' & A & B & C); [left; reflexivity|]. congruence.
      + split; [discriminate|]. intro H. destruct (H k) as (a' & b' & A & B & C); [left; reflexivity|]. congruence.
  Qed.

  Lemma dict_loop_raises : forall self other keys e, (forall k, In k keys -> exists a, sget k self = Some a) ->
    dict_loop count sizes self keys other = Err e ->
    exists k a b, sget k self = Some a /\ sget k other = Some b /\ object_almost_equal count sizes a b = Err e.
  Proof.
    intros self other keys e. induction keys as [|k keys IH]; intros K H; cbn [dict_loop] in H; [discriminate|].
    destruct (K k (or_introl eq_refl)) as (a & Ha). unfold dmem, dgetE in H. rewrite Ha in H.
    destruct (sget k other) as [b|] eqn:Hb; cbn [negb bind] in H; [|discriminate].
    destruct (object_almost_equal count sizes a b) as [[|]|x] eqn:E; cbn [bind negb] in H.
    - apply IH; [|exact H]. intros y Hy. apply K. right; exact Hy.
    - discriminate.
    - injection H as <-. exists k, a, b. tauto.
  Qed.
  Lemma dict_ok : forall self other, NoDup (map fst self) -> NoDup (map fst other) ->
    dict_almost_equal count sizes self other = Ok true <->
    (forall k, In k (map fst self) <-> In k (map fst other)) /\
    forall k a b, sget k self = Some a -> sget k other = Some b -> object_almost_equal count sizes a b = Ok true.
  Proof.
    intros self other N1 N2. unfold dict_almost_equal.
    assert (G : forall (d : list (string * pobject M)) k, In k (map fst d) <-> exists v, sget k d = Some v).
    { intros d k. destruct (sget k d) eqn:E.
      - split; [intros _; eexists; reflexivity|intros _]. apply (dget_In _ str_eqb_spec) in E. apply (in_map fst) in E. exact E.
      - split; [|intros (v & H); discriminate]. intro H. rewrite (dget_None _ str_eqb_spec) in E. contradiction. }
    destruct (Nat.eqb_spec (List.length self) (List.length other)) as [E|E]; cbn [negb].
    - rewrite dict_loop_ok by (try exact N1; tauto). split.
      + intro H. assert (I : incl (map fst self) (map fst other)).
        { intros k Hk. destruct (H k Hk) as (a & b & _ & B & _). apply G. eexists; exact B. }
        split.
        * intro k. split; [apply I|]. apply (NoDup_length_incl N1); [rewrite !map_length; lia|exact I].
        * intros k a b A B. destruct (H k) as (a' & b' & A' & B' & C); [apply G; eexists; exact A|]. congruence.
      + intros (K & H) k Hk. destruct (proj1 (G self k) Hk) as (a & A). destruct (proj1 (G other k) (proj1 (K k) Hk)) as (b & B). exists a, b. split; [exact A|]. split; [exact B|]. apply (H k); assumption.
    - split; [discriminate|]. intros (K & _). exfalso. apply E.
      rewrite <- (map_length fst self), <- (map_length fst other). apply Nat.le_antisymm; apply NoDup_incl_length; try assumption; intros k Hk; apply K; exact Hk.
  Qed.
End Objects.
