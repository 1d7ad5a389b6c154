(** Proofs about quaternions, surreal poses and the vector functions. *)
From Coq Require Import Reals ZArith List Bool String Lra Lia.
From Verif.Base Require Import Py Vec.
From Verif.Geom Require Import Model Spec Proofs.
From Verif.Quat Require Import Model Spec.
Import ListNotations.
Open Scope R_scope.

(** * Rotations of quaternions *)
Lemma qsq_nonneg : forall q, 0 <= qsq q.
Proof. intros [w x y z]. unfold qsq; simpl. nra. Qed.

Lemma qsq_zero : forall q, qsq q = 0 <-> q = qzero.
Proof.
  intros [w x y z]. unfold qsq, qzero; simpl. split.
  - intro H. assert (w = 0) by nra. assert (x = 0) by nra. assert (y = 0) by nra. assert (z = 0) by nra. congruence.
  - intro H. injection H as -> -> -> ->. ring.
Qed.

Lemma unit_nonzero : forall q, unit_quat q -> q <> qzero.
Proof. intros q H E. subst. unfold unit_quat, qzero in H; simpl in H. lra. Qed.

Lemma qpure_inj : forall a b, qpure a = qpure b -> a = b.
Proof. intros [] [] H. unfold qpure in H; simpl in H. injection H as -> -> ->. reflexivity. Qed.

Lemma mat_of_action : forall a b, (forall v, mvec a v = mvec b v) -> a = b.
Proof.
  intros a b H. assert (H1 := H (V 1 0 0)). assert (H2 := H (V 0 1 0)). assert (H3 := H (V 0 0 1)).
  unfold mvec in *; simpl in *. injection H1 as A1 A2 A3. injection H2 as B1 B2 B3. injection H3 as D1 D2 D3.
  apply mat_eq; lra.
Qed.

Lemma smul_cancel : forall k a b, k <> 0 -> smul k a = smul k b -> a = b.
Proof.
  intros k [] [] K H. unfold smul in H; simpl in H. injection H as A B D.
  apply vec_eq; simpl; apply (Rmult_eq_reg_l k); assumption.
Qed.

Lemma turns_unique : forall q a b, turns q a -> turns q b -> a = b.
Proof.
  intros q a b [N A] [_ B]. apply mat_of_action. intro v. apply (smul_cancel (qsq q)).
  - rewrite qsq_zero. exact N.
  - apply qpure_inj. rewrite A, B. reflexivity.
Qed.

(** For unit quaternions the rotation is the matrix of the metrics' quat_to_matrix. *)
Lemma turns_unit : forall q, unit_quat q -> turns q (quat_to_matrix q).
Proof.
  intros q U. split; [apply unit_nonzero, U|]. intro v.
  rewrite <- quat_to_matrix_conj by exact U. unfold unit_quat in U. unfold qsq. rewrite U.
  f_equal. unfold smul. apply vec_eq; simpl; ring.
Qed.

Lemma turns_scale : forall k q m, k <> 0 -> turns (qscale k q) m <-> turns q m.
Proof.
  intros k q m K. unfold turns. split; intros [N H].
  - split.
    + intro E. apply N. subst. unfold qscale, qzero; simpl. f_equal; ring.
    + intro v. specialize (H v). unfold qpure, qmul, qconj, qscale, qsq in *; simpl in *.
      injection H as H0 H1 H2 H3. f_equal; apply (Rmult_eq_reg_l (k * k)); try nra;
        first [etransitivity; [|etransitivity; [exact H1|]]; ring
              |etransitivity; [|etransitivity; [exact H2|]]; ring
              |etransitivity; [|etransitivity; [exact H3|]]; ring].
  - split.
    + intro E. apply N. unfold qscale, qzero in E; simpl in E. injection E as A B D F.
      apply Rmult_integral in A, B, D, F. destruct q as [w x y z]; simpl in *. unfold qzero. f_equal; tauto.
    + intro v. specialize (H v). unfold qpure, qmul, qconj, qscale, qsq in *; simpl in *.
      injection H as H0 H1 H2 H3. f_equal; [ring|..];
        apply (f_equal (Rmult (k * k))) in H1; apply (f_equal (Rmult (k * k))) in H2; apply (f_equal (Rmult (k * k))) in H3;
        first [etransitivity; [|etransitivity; [exact H1|]]; ring
              |etransitivity; [|etransitivity; [exact H2|]]; ring
              |etransitivity; [|etransitivity; [exact H3|]]; ring].
Qed.

Lemma turns_rotation : forall q m, turns q m -> rotation m.
Proof.
  intros q m T. assert (N := proj1 T).
  assert (P : 0 < qsq q). { assert (Z := qsq_nonneg q). assert (D := proj1 (qsq_zero q)). destruct Z as [Z|Z]; [exact Z|]. elim N. apply D. symmetry. exact Z. }
  set (k := / sqrt (qsq q)).
  assert (S : 0 < sqrt (qsq q)) by (apply sqrt_lt_R0, P).
  assert (K : k <> 0) by (unfold k; apply Rinv_neq_0_compat; lra).
  assert (U : unit_quat (qscale k q)).
  { unfold unit_quat, qscale; simpl.
    replace (k * qw q * (k * qw q) + k * qx q * (k * qx q) + k * qy q * (k * qy q) + k * qz q * (k * qz q)) with (k * k * qsq q) by (unfold qsq; ring).
    rewrite <- (sqrt_sqrt (qsq q)) by lra. unfold k. field. lra. }
  assert (Q := turns_unit _ U). apply turns_scale in Q; [|exact K].
  rewrite (turns_unique _ _ _ T Q). apply quat_to_matrix_rotation, U.
Qed.

Lemma normalize_exists : forall q, q <> qzero -> exists k, 0 < k /\ unit_quat (qscale k q).
Proof.
  intros q N. assert (P : 0 < qsq q). { assert (Z := qsq_nonneg q). destruct Z as [Z|Z]; [exact Z|]. elim N. apply qsq_zero. symmetry. exact Z. }
  assert (S : 0 < sqrt (qsq q)) by (apply sqrt_lt_R0, P).
  exists (/ sqrt (qsq q)). split; [apply Rinv_0_lt_compat, S|].
  unfold unit_quat, qscale; simpl. set (k := / sqrt (qsq q)).
  replace (k * qw q * (k * qw q) + k * qx q * (k * qx q) + k * qy q * (k * qy q) + k * qz q * (k * qz q)) with (k * k * qsq q) by (unfold qsq; ring).
  rewrite <- (sqrt_sqrt (qsq q)) by lra. unfold k. field. lra.
Qed.

Lemma qscale_qscale : forall a b q, qscale a (qscale b q) = qscale (a * b) q.
Proof. intros a b [w x y z]. unfold qscale; simpl. f_equal; ring. Qed.
Lemma qscale_1 : forall q, qscale 1 q = q.
Proof. intros [w x y z]. unfold qscale; simpl. f_equal; ring. Qed.

(** Two quaternions turn alike exactly when they are multiples of each other. *)
Lemma turns_same : forall p q a b, turns p a -> turns q b -> (a = b <-> exists c, c <> 0 /\ p = qscale c q).
Proof.
  intros p q a b A B. split.
  - intros <-.
    destruct (normalize_exists p (proj1 A)) as (i & I & Up). destruct (normalize_exists q (proj1 B)) as (j & J & Uq).
    assert (A' := A). assert (B' := B).
    apply (turns_scale i) in A'; [|lra]. apply (turns_scale j) in B'; [|lra].
    assert (Ep := turns_unique _ _ _ A' (turns_unit _ Up)). assert (Eq := turns_unique _ _ _ B' (turns_unit _ Uq)).
    destruct (quat_to_matrix_inj (qscale i p) (qscale j q) Up Uq) as [H|H]; [congruence| |].
    + exists (/ i * j). split; [apply Rmult_integral_contrapositive_currified; [apply Rinv_neq_0_compat|]; lra|].
      apply (f_equal (qscale (/ i))) in H. rewrite !qscale_qscale in H. rewrite Rinv_l, qscale_1 in H by lra. exact H.
    + exists (/ i * - j). split; [apply Rmult_integral_contrapositive_currified; [apply Rinv_neq_0_compat|]; lra|].
      apply (f_equal (qscale (/ i))) in H. rewrite qscale_qscale, Rinv_l, qscale_1 in H by lra. rewrite H.
      unfold qscale, qneg; simpl. f_equal; ring.
  - intros (c & C & ->). apply turns_scale in A; [|exact C]. apply (turns_unique q); assumption.
Qed.

(** * Arrays *)
Lemma array1_shows : forall l, shows_list (array1 l) l.
Proof.
  intro l. unfold shows_list, array1, item; simpl. split; [reflexivity|]. split; [discriminate|].
  intros i Hi. f_equal. lia.
Qed.

Lemma from_matrix3_shows : forall m, shows_matrix (array_from_matrix3 (cells_of m)) m.
Proof.
  intro m. split; [reflexivity|]. split; [reflexivity|].
  intros [|[|[|i]]] [|[|[|j]]] Hi Hj; try lia; reflexivity.
Qed.

Lemma matrix3_of_shown : forall a m, shows_matrix a m -> exists c, matrix3_of_array a = Ok c /\ matrix_of c = m.
Proof.
  intros a m (S & T & I). unfold matrix3_of_array. rewrite S, T. simpl Nat.ltb. cbv iota.
  eexists. split; [reflexivity|]. unfold matrix_of, fortran.
  apply mat_eq; simpl; rewrite I by lia; reflexivity.
Qed.

Lemma shows_matrix_unique : forall a m n, shows_matrix a m -> shows_matrix a n -> m = n.
Proof.
  intros a m n (_ & _ & A) (_ & _ & B).
  assert (H : forall i j, (i < 3)%nat -> (j < 3)%nat -> entry_of m i j = entry_of n i j) by (intros; rewrite <- A, <- B by assumption; reflexivity).
  apply mat_eq; [apply (H 0 0)%nat|apply (H 0 1)%nat|apply (H 0 2)%nat|apply (H 1 0)%nat|apply (H 1 1)%nat|apply (H 1 2)%nat|apply (H 2 0)%nat|apply (H 2 1)%nat|apply (H 2 2)%nat]; lia.
Qed.

Section WithEigen.
  Variable E : eigen.
  Hypothesis OK : eigen_ok E.

  Lemma of_vector : forall a q, shows_list a (wxyz q) -> quaternion E (Some (Some a)) = Ok q.
  Proof.
    intros a q (S & T & I). unfold quaternion. rewrite S. simpl List.length. cbv iota beta. simpl Nat.eqb. cbv iota. simpl negb. cbv iota.
    assert (H : forall i, (i < 4)%nat -> entry a [] i = Ok (nth i (wxyz q) 0)).
    { intros i Hi. rewrite <- I by exact Hi. unfold entry. change (size []) with 1%nat. cbn [Nat.eqb negb map]. destruct (nd_type a); [reflexivity|reflexivity|congruence]. }
    rewrite !H by lia. destruct q; reflexivity.
  Qed.

  Lemma of_rotation : forall a m, shows_matrix a m -> rotation m ->
    quaternion E (Some (Some a)) = Ok (of_matrix E m) /\ unit_quat (of_matrix E m) /\ turns (of_matrix E m) m.
  Proof.
    intros a m S R. split; [|apply OK, R]. unfold quaternion. rewrite (proj1 S). simpl. destruct (matrix3_of_shown a m S) as (c & -> & Hc). cbn [bind]. rewrite Hc. reflexivity.
  Qed.

  Lemma to_matrix_shows : forall q, q <> qzero -> exists m, shows_matrix (to_rotation_matrix E q) m /\ turns q m.
  Proof.
    intros q N. destruct OK as (_ & Nz & M). destruct (Nz q N) as (U & k & K & Hk).
    exists (to_matrix E (normalized E q)). split; [apply from_matrix3_shows|].
    assert (T := M _ U). rewrite Hk in T at 1. apply turns_scale in T; [exact T|lra].
  Qed.

  Lemma to_matrix_shows_it : forall q m, turns q m -> shows_matrix (to_rotation_matrix E q) m.
  Proof.
    intros q m T. destruct (to_matrix_shows q (proj1 T)) as (n & S & Tn). rewrite (turns_unique _ _ _ T Tn). exact S.
  Qed.
End WithEigen.

Lemma roll_right : forall a q, shows_list a (xyzw q) -> shows_list (roll 1 a) (wxyz q).
Proof.
  intros a q (S & T & I). simpl List.length in *. unfold shows_list, roll. simpl nd_shape. rewrite S. simpl nd_type.
  split; [reflexivity|]. split; [exact T|].
  intros [|[|[|[|i]]]] Hi; simpl in Hi; try lia; unfold item at 1; simpl;
    first [rewrite (I 3%nat) by lia|rewrite (I 0%nat) by lia|rewrite (I 1%nat) by lia|rewrite (I 2%nat) by lia]; reflexivity.
Qed.

Lemma roll_left : forall a q, shows_list a (wxyz q) -> shows_list (roll (-1) a) (xyzw q).
Proof.
  intros a q (S & T & I). simpl List.length in *. unfold shows_list, roll. simpl nd_shape. rewrite S. simpl nd_type.
  split; [reflexivity|]. split; [exact T|].
  intros [|[|[|[|i]]]] Hi; simpl in Hi; try lia; unfold item at 1; simpl;
    first [rewrite (I 1%nat) by lia|rewrite (I 2%nat) by lia|rewrite (I 3%nat) by lia|rewrite (I 0%nat) by lia]; reflexivity.
Qed.

(** * Vectors *)
Lemma ssq_nonneg : forall v, 0 <= ssq v.
Proof. induction v as [|x v IH]; unfold ssq in *; simpl; [lra|nra]. Qed.

Lemma ssq_zero : forall v, ssq v = 0 <-> forall x, In x v -> x = 0.
Proof.
  induction v as [|x v IH]; unfold ssq in *; simpl; [tauto|].
  assert (N := ssq_nonneg v). unfold ssq in N. split.
  - intros H y [<-|Hy]; [nra|]. apply IH; [nra|exact Hy].
  - intro H. rewrite (H x) by tauto. rewrite (proj2 IH); [ring|]. intros; apply H; tauto.
Qed.

Lemma ssq_scaled : forall k v, ssq (scaled k v) = k * k * ssq v.
Proof. induction v as [|x v IH]; unfold ssq, scaled in *; simpl; [ring|]. rewrite IH. ring. Qed.

Lemma lnorm_zero : forall v, lnorm v = 0 <-> ssq v = 0.
Proof.
  intro v. unfold lnorm. fold (ssq v). split; intro H.
  - apply sqrt_eq_0 in H; [exact H|apply ssq_nonneg].
  - rewrite H. apply sqrt_0.
Qed.

Lemma unitize_zero : forall v, ssq v = 0 -> unitize v = Same.
Proof. intros v H. apply lnorm_zero in H. unfold unitize. destruct (Req_EM_T (lnorm v) 0); [reflexivity|contradiction]. Qed.

Lemma unitize_new : forall v, ssq v <> 0 -> unitize v = New (scaled (/ sqrt (ssq v)) v).
Proof.
  intros v H. unfold unitize. destruct (Req_EM_T (lnorm v) 0) as [Z|Z]; [apply lnorm_zero in Z; contradiction|].
  f_equal. unfold scaled. apply map_ext. intro x. unfold lnorm. fold (ssq v). unfold Rdiv. ring.
Qed.

Lemma sqrt_ssq : forall v, ssq v <> 0 -> 0 < sqrt (ssq v) /\ sqrt (ssq v) * sqrt (ssq v) = ssq v.
Proof.
  intros v H. assert (N := ssq_nonneg v). split; [apply sqrt_lt_R0; lra|apply sqrt_sqrt; exact N].
Qed.

Lemma scaled_scaled : forall a b v, scaled a (scaled b v) = scaled (a * b) v.
Proof. intros. unfold scaled. rewrite map_map. apply map_ext. intro. ring. Qed.
Lemma scaled_1 : forall v, scaled 1 v = v.
Proof. intro v. unfold scaled. rewrite <- (map_id v) at 2. apply map_ext. intro. ring. Qed.
Lemma scaled_zeros : forall k v, ssq v = 0 -> scaled k v = v.
Proof.
  intros k v H. rewrite ssq_zero in H. unfold scaled. rewrite <- (map_id v) at 2. apply map_ext_in. intros x Hx. rewrite (H x Hx). ring.
Qed.
