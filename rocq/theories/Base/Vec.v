(** 3-vectors and 3x3 matrices over the reals: the mathematical vocabulary the
    geometry areas are stated in. *)
From Coq Require Import Reals Lra List.
Import ListNotations.
Open Scope R_scope.

Record vec := V { vx : R; vy : R; vz : R }.

Definition vadd (a b : vec) : vec := V (vx a + vx b) (vy a + vy b) (vz a + vz b).
Definition vsub (a b : vec) : vec := V (vx a - vx b) (vy a - vy b) (vz a - vz b).
Definition vopp (a : vec) : vec := V (- vx a) (- vy a) (- vz a).
Definition smul (k : R) (a : vec) : vec := V (k * vx a) (k * vy a) (k * vz a).
Definition dot (a b : vec) : R := vx a * vx b + vy a * vy b + vz a * vz b.
Definition cross (a b : vec) : vec :=
  V (vy a * vz b - vz a * vy b) (vz a * vx b - vx a * vz b) (vx a * vy b - vy a * vx b).
Definition vzero : vec := V 0 0 0.
Definition norm (a : vec) : R := sqrt (dot a a).
Definition dist (a b : vec) : R := norm (vsub a b).

(** Coordinate [i] (0, 1, 2). *)
Definition coord (i : nat) (a : vec) : R :=
  match i with O => vx a | S O => vy a | _ => vz a end.

Record mat := M33 {
  m00 : R; m01 : R; m02 : R;
  m10 : R; m11 : R; m12 : R;
  m20 : R; m21 : R; m22 : R }.

Definition mid : mat := M33 1 0 0 0 1 0 0 0 1.
Definition mtr (a : mat) : mat :=
  M33 (m00 a) (m10 a) (m20 a) (m01 a) (m11 a) (m21 a) (m02 a) (m12 a) (m22 a).
Definition mvec (a : mat) (v : vec) : vec :=
  V (m00 a * vx v + m01 a * vy v + m02 a * vz v)
    (m10 a * vx v + m11 a * vy v + m12 a * vz v)
    (m20 a * vx v + m21 a * vy v + m22 a * vz v).
Definition mmul (a b : mat) : mat :=
  M33 (m00 a * m00 b + m01 a * m10 b + m02 a * m20 b)
      (m00 a * m01 b + m01 a * m11 b + m02 a * m21 b)
      (m00 a * m02 b + m01 a * m12 b + m02 a * m22 b)
      (m10 a * m00 b + m11 a * m10 b + m12 a * m20 b)
      (m10 a * m01 b + m11 a * m11 b + m12 a * m21 b)
      (m10 a * m02 b + m11 a * m12 b + m12 a * m22 b)
      (m20 a * m00 b + m21 a * m10 b + m22 a * m20 b)
      (m20 a * m01 b + m21 a * m11 b + m22 a * m21 b)
      (m20 a * m02 b + m21 a * m12 b + m22 a * m22 b).
Definition det (a : mat) : R :=
  m00 a * (m11 a * m22 a - m12 a * m21 a)
  - m01 a * (m10 a * m22 a - m12 a * m20 a)
  + m02 a * (m10 a * m21 a - m11 a * m20 a).
Definition trace (a : mat) : R := m00 a + m11 a + m22 a.

(** Rotation matrix: orthogonal with determinant 1. *)
Definition rotation (a : mat) : Prop := mmul (mtr a) a = mid /\ det a = 1.

Lemma vec_eq : forall a b, vx a = vx b -> vy a = vy b -> vz a = vz b -> a = b.
Proof. intros [] []; simpl; intros; subst; reflexivity. Qed.

Lemma mat_eq : forall a b,
  m00 a = m00 b -> m01 a = m01 b -> m02 a = m02 b ->
  m10 a = m10 b -> m11 a = m11 b -> m12 a = m12 b ->
  m20 a = m20 b -> m21 a = m21 b -> m22 a = m22 b -> a = b.
Proof. intros [] []; simpl; intros; subst; reflexivity. Qed.

Ltac vring := apply vec_eq; simpl; ring.
Ltac mring := apply mat_eq; simpl; ring.

(** * Vectors *)
Lemma dot_comm : forall a b, dot a b = dot b a.
Proof. intros; unfold dot; ring. Qed.

Lemma dot_self_nonneg : forall a, 0 <= dot a a.
Proof. intros; unfold dot. nra. Qed.

Lemma dot_self_zero : forall a, dot a a = 0 -> a = vzero.
Proof.
  intros a H. unfold dot in H.
  assert (vx a = 0) by nra. assert (vy a = 0) by nra. assert (vz a = 0) by nra.
  apply vec_eq; simpl; assumption.
Qed.

Lemma norm_nonneg : forall a, 0 <= norm a.
Proof. intros; apply sqrt_pos. Qed.

Lemma norm_sqr : forall a, norm a * norm a = dot a a.
Proof. intros; apply sqrt_sqrt, dot_self_nonneg. Qed.

Lemma norm_zero : forall a, norm a = 0 <-> a = vzero.
Proof.
  intro a. split; intro H.
  - apply dot_self_zero. rewrite <- norm_sqr, H. ring.
  - subst. unfold norm, dot; simpl. replace (0 * 0 + 0 * 0 + 0 * 0) with 0 by ring. apply sqrt_0.
Qed.

Lemma dist_sym : forall a b, dist a b = dist b a.
Proof. intros. unfold dist, norm. f_equal. unfold dot, vsub; simpl. ring. Qed.

Lemma dist_nonneg : forall a b, 0 <= dist a b.
Proof. intros; apply norm_nonneg. Qed.

Lemma dist_zero : forall a b, dist a b = 0 <-> a = b.
Proof.
  intros a b. unfold dist. rewrite norm_zero. split; intro H.
  - injection H as H1 H2 H3. apply vec_eq; lra.
  - subst. apply vec_eq; simpl; ring.
Qed.

Lemma coord_le_norm : forall i a, Rabs (coord i a) <= norm a.
Proof.
  intros i a. unfold norm. rewrite <- sqrt_Rsqr_abs. apply sqrt_le_1_alt.
  unfold Rsqr, dot, coord. destruct i as [|[|i]]; nra.
Qed.

(** Distance is at least the gap along any axis. *)
Lemma coord_gap : forall i a b, coord i a - coord i b <= dist a b.
Proof.
  intros i a b. apply Rle_trans with (Rabs (coord i (vsub a b))).
  - replace (coord i (vsub a b)) with (coord i a - coord i b).
    + apply Rle_abs.
    + destruct i as [|[|i]]; reflexivity.
  - apply coord_le_norm.
Qed.

Lemma dot_cross_l : forall a b, dot a (cross a b) = 0.
Proof. intros; unfold dot, cross; simpl; ring. Qed.
Lemma dot_cross_r : forall a b, dot b (cross a b) = 0.
Proof. intros; unfold dot, cross; simpl; ring. Qed.

(** * Matrices *)
Lemma mmul_assoc : forall a b c, mmul (mmul a b) c = mmul a (mmul b c).
Proof. intros; mring. Qed.
Lemma mmul_1_l : forall a, mmul mid a = a.
Proof. intros; mring. Qed.
Lemma mmul_1_r : forall a, mmul a mid = a.
Proof. intros; mring. Qed.
Lemma mtr_mmul : forall a b, mtr (mmul a b) = mmul (mtr b) (mtr a).
Proof. intros; mring. Qed.
Lemma mtr_mtr : forall a, mtr (mtr a) = a.
Proof. intros; mring. Qed.
Lemma mvec_mmul : forall a b v, mvec (mmul a b) v = mvec a (mvec b v).
Proof. intros; vring. Qed.
Lemma mvec_1 : forall v, mvec mid v = v.
Proof. intros; vring. Qed.
Lemma mvec_add : forall a u v, mvec a (vadd u v) = vadd (mvec a u) (mvec a v).
Proof. intros; vring. Qed.
Lemma mvec_sub : forall a u v, mvec a (vsub u v) = vsub (mvec a u) (mvec a v).
Proof. intros; vring. Qed.
Lemma mvec_opp : forall a u, mvec a (vopp u) = vopp (mvec a u).
Proof. intros; vring. Qed.
Lemma det_mmul : forall a b, det (mmul a b) = det a * det b.
Proof. intros; unfold det; simpl; ring. Qed.
Lemma det_mtr : forall a, det (mtr a) = det a.
Proof. intros; unfold det; simpl; ring. Qed.

(** Adjugate. *)
Definition adj (a : mat) : mat :=
  M33 (m11 a * m22 a - m12 a * m21 a) (m02 a * m21 a - m01 a * m22 a) (m01 a * m12 a - m02 a * m11 a)
      (m12 a * m20 a - m10 a * m22 a) (m00 a * m22 a - m02 a * m20 a) (m02 a * m10 a - m00 a * m12 a)
      (m10 a * m21 a - m11 a * m20 a) (m01 a * m20 a - m00 a * m21 a) (m00 a * m11 a - m01 a * m10 a).

Lemma mmul_adj : forall a, det a = 1 -> mmul a (adj a) = mid.
Proof. intros a H. unfold det in H. apply mat_eq; simpl; lra. Qed.

Lemma rotation_adj : forall a, rotation a -> mtr a = adj a.
Proof.
  intros a [H1 H2]. rewrite <- (mmul_1_r (mtr a)), <- (mmul_adj a H2), <- mmul_assoc, H1.
  apply mmul_1_l.
Qed.

Lemma rotation_right : forall a, rotation a -> mmul a (mtr a) = mid.
Proof. intros a H. rewrite (rotation_adj a H). apply mmul_adj. apply H. Qed.

Lemma rotation_id : rotation mid.
Proof. split; [mring|unfold det; simpl; ring]. Qed.

Lemma rotation_mtr : forall a, rotation a -> rotation (mtr a).
Proof.
  intros a H. split.
  - rewrite mtr_mtr. apply rotation_right; exact H.
  - rewrite det_mtr. apply H.
Qed.

Lemma rotation_mmul : forall a b, rotation a -> rotation b -> rotation (mmul a b).
Proof.
  intros a b [A1 A2] [B1 B2]. split.
  - rewrite mtr_mmul, mmul_assoc, <- (mmul_assoc (mtr a)), A1, mmul_1_l. exact B1.
  - rewrite det_mmul, A2, B2. ring.
Qed.

Lemma dot_mvec : forall a u v, dot (mvec a u) v = dot u (mvec (mtr a) v).
Proof. intros; unfold dot; simpl; ring. Qed.

Lemma rotation_dot : forall a u v, rotation a -> dot (mvec a u) (mvec a v) = dot u v.
Proof. intros a u v [H _]. rewrite dot_mvec, <- mvec_mmul, H, mvec_1. reflexivity. Qed.

Lemma rotation_norm : forall a u, rotation a -> norm (mvec a u) = norm u.
Proof. intros. unfold norm. rewrite rotation_dot by assumption. reflexivity. Qed.

Lemma rotation_cross : forall a u v, rotation a -> mvec a (cross u v) = cross (mvec a u) (mvec a v).
Proof.
  intros a u v H. apply rotation_adj in H. destruct a as [a b c d e f g h i]. unfold mtr, adj in H; simpl in H.
  injection H as H1 H2 H3 H4 H5 H6 H7 H8 H9.
  apply vec_eq; simpl.
  - rewrite H1 at 1. rewrite H4 at 1. rewrite H7 at 1. ring.
  - rewrite H2 at 1. rewrite H5 at 1. rewrite H8 at 1. ring.
  - rewrite H3 at 1. rewrite H6 at 1. rewrite H9 at 1. ring.
Qed.

(** Triple product scales with the determinant. *)
Lemma det_triple : forall a u v w,
  dot (mvec a u) (cross (mvec a v) (mvec a w)) = det a * dot u (cross v w).
Proof. intros; unfold dot, det, cross; simpl; ring. Qed.
