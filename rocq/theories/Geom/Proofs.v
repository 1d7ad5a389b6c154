From Coq Require Import Reals Lra List Psatz Nsatz.
From Verif.Base Require Import Py Vec.
From Verif.Geom Require Import Model Spec.
Import ListNotations.
Open Scope R_scope.

(** * Trigonometry *)
Lemma sc1 : forall t, sin t * sin t + cos t * cos t = 1.
Proof. intro t. assert (H := sin2_cos2 t). unfold Rsqr in H. exact H. Qed.

Lemma Rx_rotation : forall t, rotation (Rx t).
Proof.
  intro t. assert (H := sc1 t). split.
  - apply mat_eq; simpl; lra.
  - unfold det, Rx, FromScalars; simpl. lra.
Qed.
Lemma Ry_rotation : forall t, rotation (Ry t).
Proof.
  intro t. assert (H := sc1 t). split.
  - apply mat_eq; simpl; lra.
  - unfold det, Ry, FromScalars; simpl. lra.
Qed.
Lemma Rz_rotation : forall t, rotation (Rz t).
Proof.
  intro t. assert (H := sc1 t). split.
  - apply mat_eq; simpl; lra.
  - unfold det, Rz, FromScalars; simpl. lra.
Qed.

Lemma Rx_add : forall s t, rot_mul (Rx s) (Rx t) = Rx (s + t).
Proof. intros. unfold Rx, FromScalars. rewrite sin_plus, cos_plus. apply mat_eq; simpl; ring. Qed.
Lemma Ry_add : forall s t, rot_mul (Ry s) (Ry t) = Ry (s + t).
Proof. intros. unfold Ry, FromScalars. rewrite sin_plus, cos_plus. apply mat_eq; simpl; ring. Qed.
Lemma Rz_add : forall s t, rot_mul (Rz s) (Rz t) = Rz (s + t).
Proof. intros. unfold Rz, FromScalars. rewrite sin_plus, cos_plus. apply mat_eq; simpl; ring. Qed.

Lemma Rx_0 : Rx 0 = mid.
Proof. unfold Rx, FromScalars. rewrite sin_0, cos_0. apply mat_eq; simpl; ring. Qed.
Lemma Ry_0 : Ry 0 = mid.
Proof. unfold Ry, FromScalars. rewrite sin_0, cos_0. apply mat_eq; simpl; ring. Qed.
Lemma Rz_0 : Rz 0 = mid.
Proof. unfold Rz, FromScalars. rewrite sin_0, cos_0. apply mat_eq; simpl; ring. Qed.

Lemma Rx_inv : forall t, rot_inverse (Rx t) = Rx (- t).
Proof. intro. unfold Rx, FromScalars. rewrite sin_neg, cos_neg. apply mat_eq; simpl; ring. Qed.
Lemma Ry_inv : forall t, rot_inverse (Ry t) = Ry (- t).
Proof. intro. unfold Ry, FromScalars. rewrite sin_neg, cos_neg. apply mat_eq; simpl; ring. Qed.
Lemma Rz_inv : forall t, rot_inverse (Rz t) = Rz (- t).
Proof. intro. unfold Rz, FromScalars. rewrite sin_neg, cos_neg. apply mat_eq; simpl; ring. Qed.

(** * Axis-angle *)
Lemma axis_angle_rotation : forall d a, dot d d = 1 -> rotation (AxisAngle d a).
Proof.
  intros [x y z] a H. unfold dot in H; simpl in H. assert (E := sc1 a).
  assert (Hz : z * z = 1 - x * x - y * y) by lra.
  set (c := cos a) in *. set (s := sin a) in *.
  assert (Hs : s * s = 1 - c * c) by lra.
  split.
  - apply mat_eq; simpl; fold c; fold s; nsatz.
  - unfold det, AxisAngle; simpl; fold c; fold s. nsatz.
Qed.

Lemma axis_angle_fixes : forall d a, dot d d = 1 -> rotate (AxisAngle d a) d = d.
Proof.
  intros [x y z] a H. unfold dot in H; simpl in H. apply vec_eq; simpl; nsatz.
Qed.

Lemma axis_angle_x : forall a, AxisAngle (V 1 0 0) a = Rx a.
Proof. intro. apply mat_eq; simpl; ring. Qed.
Lemma axis_angle_y : forall a, AxisAngle (V 0 1 0) a = Ry a.
Proof. intro. apply mat_eq; simpl; ring. Qed.
Lemma axis_angle_z : forall a, AxisAngle (V 0 0 1) a = Rz a.
Proof. intro. apply mat_eq; simpl; ring. Qed.

(** Angles add for rotations about one axis. *)
Lemma axis_angle_add : forall d a b, dot d d = 1 ->
  rot_mul (AxisAngle d a) (AxisAngle d b) = AxisAngle d (a + b).
Proof.
  intros [x y z] a b H. unfold dot in H; simpl in H.
  unfold AxisAngle. rewrite sin_plus, cos_plus.
  set (c := cos a). set (s := sin a). set (c' := cos b). set (s' := sin b).
  apply mat_eq; simpl; nsatz.
Qed.

(** * Equations of a rotation matrix *)
Lemma rotation_eqs : forall m, rotation m ->
  let '(M33 a b c d e f g h i) := m in
  (a*a+b*b+c*c = 1 /\ d*d+e*e+f*f = 1 /\ g*g+h*h+i*i = 1) /\
  (a*a+d*d+g*g = 1 /\ b*b+e*e+h*h = 1 /\ c*c+f*f+i*i = 1) /\
  (a*b+d*e+g*h = 0 /\ a*c+d*f+g*i = 0 /\ b*c+e*f+h*i = 0) /\
  (a*d+b*e+c*f = 0 /\ a*g+b*h+c*i = 0 /\ d*g+e*h+f*i = 0) /\
  (a = e*i-f*h /\ b = f*g-d*i /\ c = d*h-e*g) /\
  (d = c*h-b*i /\ e = a*i-c*g /\ f = b*g-a*h) /\
  (g = b*f-c*e /\ h = c*d-a*f /\ i = a*e-b*d).
Proof.
  intros m H. assert (H1 := proj1 H). assert (H2 := rotation_right m H). assert (H3 := rotation_adj m H).
  destruct m as [a b c d e f g h i]. unfold mmul, mtr, adj, mid in *; simpl in *.
  injection H1; clear H1; intros. injection H2; clear H2; intros. injection H3; clear H3; intros.
  repeat split; lra.
Qed.

(** * Quaternions *)
Lemma sqrt2_sq : sqrt 2 * sqrt 2 = 2.
Proof. apply sqrt_sqrt. lra. Qed.

Lemma quat_to_matrix_poly : forall q, quat_to_matrix q =
  M33 (1 - 2*(qy q*qy q) - 2*(qz q*qz q)) (2*(qx q*qy q) - 2*(qz q*qw q)) (2*(qx q*qz q) + 2*(qy q*qw q))
      (2*(qx q*qy q) + 2*(qz q*qw q)) (1 - 2*(qx q*qx q) - 2*(qz q*qz q)) (2*(qy q*qz q) - 2*(qx q*qw q))
      (2*(qx q*qz q) - 2*(qy q*qw q)) (2*(qy q*qz q) + 2*(qx q*qw q)) (1 - 2*(qx q*qx q) - 2*(qy q*qy q)).
Proof.
  intro q. assert (E := sqrt2_sq). unfold quat_to_matrix.
  set (k := sqrt 2) in *. clearbody k.
  apply mat_eq; simpl; nsatz.
Qed.

Lemma quat_to_matrix_rotation : forall q, unit_quat q -> rotation (quat_to_matrix q).
Proof.
  intros [w x y z] H. unfold unit_quat in H; simpl in H. rewrite quat_to_matrix_poly; simpl.
  split.
  - apply mat_eq; simpl; nsatz.
  - unfold det; simpl; nsatz.
Qed.

(** The matrix does what conjugation by the quaternion does. *)
Lemma quat_to_matrix_conj : forall q v, unit_quat q ->
  qpure (mvec (quat_to_matrix q) v) = qmul (qmul q (qpure v)) (qconj q).
Proof.
  intros [w x y z] [a b c] H. unfold unit_quat in H; simpl in H. rewrite quat_to_matrix_poly.
  unfold qpure, qmul, qconj, mvec; simpl. f_equal; nsatz.
Qed.

Lemma quat_to_matrix_neg : forall q, quat_to_matrix (qneg q) = quat_to_matrix q.
Proof. intros [w x y z]. rewrite !quat_to_matrix_poly. apply mat_eq; simpl; ring. Qed.

Lemma qnormalize_unit : forall q, unit_quat q -> qnormalize q = q.
Proof.
  intros [w x y z] H. unfold unit_quat in H; simpl in H. unfold qnormalize; simpl.
  rewrite H, sqrt_1. f_equal; field.
Qed.

(** A quaternion with these products of components is unit and stands for [m]. *)
Lemma quat_of_products : forall m q,
  4 * (qw q * qw q) = 1 + m00 m + m11 m + m22 m ->
  4 * (qx q * qx q) = 1 + m00 m - m11 m - m22 m ->
  4 * (qy q * qy q) = 1 - m00 m + m11 m - m22 m ->
  4 * (qz q * qz q) = 1 - m00 m - m11 m + m22 m ->
  4 * (qw q * qx q) = m21 m - m12 m ->
  4 * (qw q * qy q) = m02 m - m20 m ->
  4 * (qw q * qz q) = m10 m - m01 m ->
  4 * (qx q * qy q) = m01 m + m10 m ->
  4 * (qx q * qz q) = m02 m + m20 m ->
  4 * (qy q * qz q) = m12 m + m21 m ->
  unit_quat q /\ quat_to_matrix q = m.
Proof.
  intros m [w x y z] ww xx yy zz wx wy wz xy xz yz; simpl in *. split.
  - unfold unit_quat; simpl. lra.
  - rewrite quat_to_matrix_poly. destruct m; apply mat_eq; simpl in *; lra.
Qed.

Lemma scaled_product : forall S T P Q' R', S * S = 4 * T -> S <> 0 -> P * Q' = T * R' ->
  4 * (P / S * (Q' / S)) = R'.
Proof.
  intros S T P Q' R' HS HS0 H.
  replace (4 * (P / S * (Q' / S))) with (4 * (P * Q') / (S * S)) by (field; exact HS0).
  rewrite H. replace (4 * (T * R')) with ((S * S) * R') by (rewrite HS; ring).
  field. exact HS0.
Qed.
Lemma scaled_left : forall S P, S <> 0 -> 4 * (1 / 4 * S * (P / S)) = P.
Proof. intros; field; assumption. Qed.
Lemma scaled_right : forall S P, S <> 0 -> 4 * (P / S * (1 / 4 * S)) = P.
Proof. intros; field; assumption. Qed.
Lemma scaled_square : forall S T, S * S = 4 * T -> 4 * (1 / 4 * S * (1 / 4 * S)) = T.
Proof. intros S T H. replace (4 * (1 / 4 * S * (1 / 4 * S))) with (S * S / 4) by field. rewrite H. field. Qed.

Lemma scale_sq : forall T, 0 < T -> sqrt T * 2 * (sqrt T * 2) = 4 * T /\ sqrt T * 2 <> 0.
Proof.
  intros T HT. split.
  - replace (sqrt T * 2 * (sqrt T * 2)) with (4 * (sqrt T * sqrt T)) by ring. rewrite sqrt_sqrt by lra. reflexivity.
  - assert (P := sqrt_lt_R0 T HT). lra.
Qed.

Ltac branch m Hm T HT :=
  let HS := fresh in let HS0 := fresh in
  destruct (scale_sq T HT) as [HS HS0];
  apply rotation_eqs in Hm; destruct m as [a b c d e f g h i]; simpl in *;
  destruct Hm as ((r1 & r2 & r3) & (c1 & c2 & c3) & (o1 & o2 & o3) & (p1 & p2 & p3) & (k1 & k2 & k3) & (k4 & k5 & k6) & (k7 & k8 & k9));
  apply quat_of_products; simpl;
  first [ rewrite (scaled_square _ _ HS); lra | rewrite scaled_left by exact HS0; lra | rewrite scaled_right by exact HS0; lra
        | apply (scaled_product _ _ _ _ _ HS HS0); lra ].

Lemma branch_w : forall m, rotation m -> 0 < m00 m + m11 m + m22 m + 1 ->
  let S := sqrt (m00 m + m11 m + m22 m + 1) * 2 in
  let q := Q4 (1 / 4 * S) ((m21 m - m12 m) / S) ((m02 m - m20 m) / S) ((m10 m - m01 m) / S) in
  unit_quat q /\ quat_to_matrix q = m.
Proof. intros m Hm HT; cbv zeta. branch m Hm (m00 m + m11 m + m22 m + 1) HT. Qed.

Lemma branch_x : forall m, rotation m -> 0 < 1 + m00 m - m11 m - m22 m ->
  let S := sqrt (1 + m00 m - m11 m - m22 m) * 2 in
  let q := Q4 ((m21 m - m12 m) / S) (1 / 4 * S) ((m01 m + m10 m) / S) ((m02 m + m20 m) / S) in
  unit_quat q /\ quat_to_matrix q = m.
Proof. intros m Hm HT; cbv zeta. branch m Hm (1 + m00 m - m11 m - m22 m) HT. Qed.

Lemma branch_y : forall m, rotation m -> 0 < 1 + m11 m - m00 m - m22 m ->
  let S := sqrt (1 + m11 m - m00 m - m22 m) * 2 in
  let q := Q4 ((m02 m - m20 m) / S) ((m01 m + m10 m) / S) (1 / 4 * S) ((m12 m + m21 m) / S) in
  unit_quat q /\ quat_to_matrix q = m.
Proof. intros m Hm HT; cbv zeta. branch m Hm (1 + m11 m - m00 m - m22 m) HT. Qed.

Lemma branch_z : forall m, rotation m -> 0 < 1 + m22 m - m00 m - m11 m ->
  let S := sqrt (1 + m22 m - m00 m - m11 m) * 2 in
  let q := Q4 ((m10 m - m01 m) / S) ((m02 m + m20 m) / S) ((m12 m + m21 m) / S) (1 / 4 * S) in
  unit_quat q /\ quat_to_matrix q = m.
Proof. intros m Hm HT; cbv zeta. branch m Hm (1 + m22 m - m00 m - m11 m) HT. Qed.

Lemma with_norm : forall m q, unit_quat q /\ quat_to_matrix q = m ->
  unit_quat (qnormalize q) /\ quat_to_matrix (qnormalize q) = m.
Proof. intros m q [U E]. rewrite qnormalize_unit by exact U. split; assumption. Qed.

(** Every branch of matrix_to_quat recovers a unit quaternion of the rotation. *)
Lemma matrix_to_quat_sound : forall m, rotation m ->
  unit_quat (matrix_to_quat m) /\ quat_to_matrix (matrix_to_quat m) = m.
Proof.
  intros m Hm. unfold matrix_to_quat.
  destruct (Rlt_dec 0 (m00 m + m11 m + m22 m)); [apply with_norm, branch_w; [exact Hm|lra]|].
  destruct (Rlt_dec (m11 m) (m00 m)); [destruct (Rlt_dec (m22 m) (m00 m))|];
    [apply with_norm, branch_x; [exact Hm|lra]| |];
    (destruct (Rlt_dec (m22 m) (m11 m)); [apply with_norm, branch_y; [exact Hm|lra]|apply with_norm, branch_z; [exact Hm|lra]]).
Qed.

(** Unit quaternions with one matrix differ at most by sign. *)
Lemma products_sign : forall p q,
  (forall f g, In f [qw; qx; qy; qz] -> In g [qw; qx; qy; qz] -> f p * g p = f q * g q) ->
  p = q \/ p = qneg q.
Proof.
  intros p q H.
  assert (K : forall f, In f [qw; qx; qy; qz] -> f q <> 0 -> p = q \/ p = qneg q).
  { intros f Hf Hn.
    assert (E := H f f Hf Hf).
    assert (D : f p = f q \/ f p = - f q).
    { assert (Z : (f p - f q) * (f p + f q) = 0) by lra. apply Rmult_integral in Z. lra. }
    assert (L : forall g, In g [qw; qx; qy; qz] -> f p * g p = f q * g q) by (intros; apply H; assumption).
    assert (Lw := L qw ltac:(simpl; tauto)). assert (Lx := L qx ltac:(simpl; tauto)).
    assert (Ly := L qy ltac:(simpl; tauto)). assert (Lz := L qz ltac:(simpl; tauto)).
    destruct D as [D|D]; rewrite D in *; [left|right]; destruct p as [w x y z], q as [w' x' y' z']; unfold qneg; simpl in *;
      f_equal; apply (Rmult_eq_reg_l (f (Q4 w' x' y' z'))); try exact Hn; lra. }
  destruct (Req_dec (qw q) 0) as [Ew|Ew]; [|apply (K qw); [simpl; tauto|exact Ew]].
  destruct (Req_dec (qx q) 0) as [Ex|Ex]; [|apply (K qx); [simpl; tauto|exact Ex]].
  destruct (Req_dec (qy q) 0) as [Ey|Ey]; [|apply (K qy); [simpl; tauto|exact Ey]].
  destruct (Req_dec (qz q) 0) as [Ez|Ez]; [|apply (K qz); [simpl; tauto|exact Ez]].
  left.
  assert (Z : forall f, In f [qw; qx; qy; qz] -> f q = 0 -> f p = 0).
  { intros f Hf E. assert (E2 := H f f Hf Hf). rewrite E in E2. rewrite Rmult_0_r in E2.
    apply Rmult_integral in E2. lra. }
  assert (Zw := Z qw ltac:(simpl; tauto) Ew). assert (Zx := Z qx ltac:(simpl; tauto) Ex).
  assert (Zy := Z qy ltac:(simpl; tauto) Ey). assert (Zz := Z qz ltac:(simpl; tauto) Ez).
  destruct p, q; simpl in *; subst; reflexivity.
Qed.

Lemma unit_products : forall q, unit_quat q ->
  let m := quat_to_matrix q in
  4 * (qw q * qw q) = 1 + m00 m + m11 m + m22 m /\
  4 * (qx q * qx q) = 1 + m00 m - m11 m - m22 m /\
  4 * (qy q * qy q) = 1 - m00 m + m11 m - m22 m /\
  4 * (qz q * qz q) = 1 - m00 m - m11 m + m22 m /\
  4 * (qw q * qx q) = m21 m - m12 m /\
  4 * (qw q * qy q) = m02 m - m20 m /\
  4 * (qw q * qz q) = m10 m - m01 m /\
  4 * (qx q * qy q) = m01 m + m10 m /\
  4 * (qx q * qz q) = m02 m + m20 m /\
  4 * (qy q * qz q) = m12 m + m21 m.
Proof.
  intros q H m. unfold m. rewrite quat_to_matrix_poly. unfold unit_quat in H. simpl.
  repeat split; lra.
Qed.

Lemma quat_to_matrix_inj : forall p q, unit_quat p -> unit_quat q ->
  quat_to_matrix p = quat_to_matrix q -> p = q \/ p = qneg q.
Proof.
  intros p q Hp Hq E. assert (A := unit_products p Hp). assert (B := unit_products q Hq).
  rewrite <- E in B. simpl in A, B. set (m := quat_to_matrix p) in *. clearbody m. clear E.
  destruct A as (A1&A2&A3&A4&A5&A6&A7&A8&A9&A10). destruct B as (B1&B2&B3&B4&B5&B6&B7&B8&B9&B10).
  apply products_sign. intros f g Hf Hg. simpl in Hf, Hg.
  destruct Hf as [<-|[<-|[<-|[<-|[]]]]]; destruct Hg as [<-|[<-|[<-|[<-|[]]]]]; lra.
Qed.

Lemma matrix_to_quat_inverse : forall q, unit_quat q ->
  matrix_to_quat (quat_to_matrix q) = q \/ matrix_to_quat (quat_to_matrix q) = qneg q.
Proof.
  intros q Hq. destruct (matrix_to_quat_sound _ (quat_to_matrix_rotation q Hq)) as [U E].
  apply quat_to_matrix_inj; assumption.
Qed.

Lemma quat_to_matrix_mul : forall p q, unit_quat p -> unit_quat q ->
  quat_to_matrix (qmul p q) = mmul (quat_to_matrix p) (quat_to_matrix q).
Proof.
  intros [a b c d] [w x y z] H1 H2. unfold unit_quat in *; simpl in *.
  rewrite !quat_to_matrix_poly. unfold qmul; simpl. apply mat_eq; simpl; nsatz.
Qed.

(** * Euler angles *)
Ltac nz := repeat split; let H := fresh in intro H; lra.

Lemma atan2_polar : forall y x, 0 < x * x + y * y ->
  sqrt (x * x + y * y) * cos (atan2 y x) = x /\ sqrt (x * x + y * y) * sin (atan2 y x) = y.
Proof.
  intros y x H.
  assert (K : forall t, 0 < x -> sqrt (x * x + y * y) * t = t * (x * sqrt (1 + (y / x)²))).
  { intros t Hx. rewrite Rmult_comm. f_equal. rewrite <- (sqrt_square x) at 3 by lra.
    rewrite <- sqrt_mult; [|nra|apply Rplus_le_le_0_compat; [lra|apply Rle_0_sqr]].
    f_equal. unfold Rsqr. field. lra. }
  assert (K' : forall t, x < 0 -> sqrt (x * x + y * y) * t = t * (- x * sqrt (1 + (y / x)²))).
  { intros t Hx. rewrite Rmult_comm. f_equal. rewrite <- (sqrt_square (- x)) by lra.
    rewrite <- sqrt_mult; [|nra|apply Rplus_le_le_0_compat; [lra|apply Rle_0_sqr]].
    f_equal. unfold Rsqr. field. lra. }
  assert (P : 0 < sqrt (1 + (y / x)²)).
  { apply sqrt_lt_R0. assert (N := Rle_0_sqr (y / x)). lra. }
  unfold atan2. destruct (Rlt_dec 0 x) as [Hx|Hx].
  - rewrite !K by exact Hx. rewrite cos_atan, sin_atan. split; field; nz.
  - destruct (Rlt_dec x 0) as [Hx'|Hx'].
    + destruct (Rle_dec 0 y).
      * rewrite neg_cos, neg_sin, !K' by exact Hx'. rewrite cos_atan, sin_atan. split; field; nz.
      * replace (atan (y / x) - PI) with (atan (y / x) + PI - 2 * PI) by ring.
        rewrite cos_minus, sin_minus, cos_2PI, sin_2PI, neg_cos, neg_sin, !K' by exact Hx'.
        rewrite cos_atan, sin_atan. split; field; nz.
    + assert (x = 0) by lra. subst x. rewrite Rmult_0_l, Rplus_0_l in *.
      destruct (Rlt_dec 0 y).
      * rewrite cos_PI2, sin_PI2, sqrt_square by lra. lra.
      * destruct (Rlt_dec y 0).
        -- rewrite cos_neg, sin_neg, cos_PI2, sin_PI2. replace (y * y) with (- y * - y) by ring.
           rewrite sqrt_square by lra. lra.
        -- assert (y = 0) by lra. subst. lra.
Qed.

Lemma atan2_range : forall y x, - PI < atan2 y x <= PI.
Proof.
  intros y x. assert (P := PI_RGT_0). assert (B := atan_bound (y / x)).
  unfold atan2. destruct (Rlt_dec 0 x); [lra|].
  destruct (Rlt_dec x 0) as [Hx|Hx].
  - destruct (Rle_dec 0 y) as [Hy|Hy].
    + split; [lra|]. assert (A : atan (y / x) <= atan 0).
      { assert (y / x <= 0). { unfold Rdiv. assert (/ x < 0) by (apply Rinv_lt_0_compat; lra). nra. }
        destruct (Req_dec (y / x) 0) as [->|Hn]; [lra|]. left. apply atan_increasing. lra. }
      rewrite atan_0 in A. lra.
    + split; [|lra]. assert (A : atan 0 < atan (y / x)).
      { apply atan_increasing. unfold Rdiv. assert (/ x < 0) by (apply Rinv_lt_0_compat; lra). nra. }
      rewrite atan_0 in A. lra.
  - destruct (Rlt_dec 0 y); [lra|]. destruct (Rlt_dec y 0); lra.
Qed.

Lemma cos_one : forall t, - (2 * PI) < t < 2 * PI -> cos t = 1 -> t = 0.
Proof.
  intros t B E. assert (P := PI_RGT_0).
  replace t with (2 * (t / 2)) in E by field. rewrite cos_2a_sin in E.
  assert (S : sin (t / 2) = 0) by nra.
  destruct (Rtotal_order (t / 2) 0) as [L|[L|L]]; [| lra |].
  - assert (sin (t / 2) < 0) by (apply sin_lt_0_var; lra). lra.
  - assert (0 < sin (t / 2)) by (apply sin_gt_0; lra). lra.
Qed.

Lemma angle_unique : forall a b, - PI < a <= PI -> - PI < b <= PI -> cos a = cos b -> sin a = sin b -> a = b.
Proof.
  intros a b Ha Hb C S. assert (a - b = 0); [|lra].
  apply cos_one; [lra|]. rewrite cos_minus, C, S. assert (X := sc1 b). lra.
Qed.

Lemma atan2_of_polar : forall r a, 0 < r -> - PI < a <= PI -> atan2 (r * sin a) (r * cos a) = a.
Proof.
  intros r a Hr Ha. assert (X := sc1 a).
  assert (N : r * cos a * (r * cos a) + r * sin a * (r * sin a) = r * r) by nra.
  destruct (atan2_polar (r * sin a) (r * cos a)) as [C S]; [rewrite N; nra|].
  rewrite N, sqrt_square in C, S by lra.
  apply angle_unique; [apply atan2_range|exact Ha| |].
  - apply Rmult_eq_reg_l in C; lra.
  - apply Rmult_eq_reg_l in S; lra.
Qed.

Lemma euler_to_matrix_rotation : forall e, rotation (euler_to_matrix e).
Proof.
  intros [[z y] x]. unfold euler_to_matrix, rot_mul.
  apply rotation_mmul; [apply rotation_mmul|]; auto using Rx_rotation, Ry_rotation, Rz_rotation.
Qed.

Lemma half_angles : forall a, sin a = 2 * sin (1/2*a) * cos (1/2*a) /\ cos a = cos (1/2*a) * cos (1/2*a) - sin (1/2*a) * sin (1/2*a).
Proof.
  intro a. assert (E : a = 2 * (1/2*a)) by field. split.
  - rewrite E at 1. apply sin_2a.
  - rewrite E at 1. apply cos_2a.
Qed.

Lemma euler_to_quat_spec : forall e,
  unit_quat (euler_to_quat e) /\ quat_to_matrix (euler_to_quat e) = euler_to_matrix e.
Proof.
  intros [[z y] x].
  assert (Xz := sc1 (1/2*z)). assert (Xy := sc1 (1/2*y)). assert (Xx := sc1 (1/2*x)).
  destruct (half_angles z) as [Sz Cz]. destruct (half_angles y) as [Sy Cy]. destruct (half_angles x) as [Sx Cx].
  assert (U : unit_quat (euler_to_quat (z, y, x))).
  { unfold unit_quat, euler_to_quat; simpl. nsatz. }
  split; [exact U|].
  rewrite quat_to_matrix_poly. unfold unit_quat in U.
  unfold euler_to_matrix, euler_to_quat, rot_mul, mmul, Rx, Ry, Rz in *; simpl in *.
  rewrite Sz, Cz, Sy, Cy, Sx, Cx. clear Sz Cz Sy Cy Sx Cx.
  set (cz := cos (1/2*z)) in *. set (sz := sin (1/2*z)) in *.
  set (cy := cos (1/2*y)) in *. set (sy := sin (1/2*y)) in *.
  set (cx := cos (1/2*x)) in *. set (sx := sin (1/2*x)) in *.
  clearbody cz sz cy sy cx sx.
  apply mat_eq; simpl; nsatz.
Qed.

Lemma sq_lt1 : forall g, g < 1 /\ - (1) < g -> g * g < 1.
Proof. intros. nra. Qed.
Lemma sq_le1 : forall g, g * g <= 1 -> -1 <= - g <= 1.
Proof. intros. nra. Qed.
Lemma sq_ge0 : forall g, 0 <= g * g.
Proof. intros. nra. Qed.

Lemma rotation_determined : forall m n, rotation m -> rotation n -> gimbal_free m ->
  m00 m = m00 n -> m10 m = m10 n -> m20 m = m20 n -> m21 m = m21 n -> m22 m = m22 n -> m = n.
Proof.
  intros m n Hm Hn G E0 E1 E2 E3 E4. apply rotation_eqs in Hm. apply rotation_eqs in Hn.
  destruct m as [a b c d e f g h i], n as [a' b' c' d' e' f' g' h' i']. unfold gimbal_free in G. simpl in *. subst a' d' g' h' i'.
  destruct Hm as ((r1 & r2 & r3) & (c1 & c2 & c3) & (o1 & o2 & o3) & (p1 & p2 & p3) & (k1 & k2 & k3) & (k4 & k5 & k6) & (k7 & k8 & k9)).
  destruct Hn as ((r1' & r2' & r3') & (c1' & c2' & c3') & (o1' & o2' & o3') & (p1' & p2' & p3') & (k1' & k2' & k3') & (k4' & k5' & k6') & (k7' & k8' & k9')).
  assert (P : 0 < a * a + d * d).
  { apply Rabs_def2 in G. apply sq_lt1 in G. lra. }
  assert (Eb : b = b').
  { apply (Rmult_eq_reg_l (a * a + d * d)); [|lra].
    assert (F1 : a * (a * b + d * e) = a * (a * b' + d * e')) by (f_equal; lra).
    assert (F2 : d * (a * e - b * d) = d * (a * e' - b' * d)) by (f_equal; lra). lra. }
  assert (Ee : e = e').
  { apply (Rmult_eq_reg_l (a * a + d * d)); [|lra].
    assert (F1 : d * (a * b + d * e) = d * (a * b' + d * e')) by (f_equal; lra).
    assert (F2 : a * (a * e - b * d) = a * (a * e' - b' * d)) by (f_equal; lra). lra. }
  apply mat_eq; simpl; try reflexivity; try assumption;
    [rewrite k3, k3', Ee|rewrite k6, k6', Eb]; reflexivity.
Qed.

(** What quat_to_euler computes, in terms of the matrix. *)
Lemma quat_to_euler_matrix : forall q, unit_quat q ->
  let m := quat_to_matrix q in
  -1 <= - m20 m <= 1 /\
  quat_to_euler q = Ok (atan2 (m10 m) (m00 m), asin (- m20 m), atan2 (m21 m) (m22 m)).
Proof.
  intros q U m.
  assert (Rm := rotation_eqs _ (quat_to_matrix_rotation q U)). fold m in Rm.
  assert (B : -1 <= - m20 m <= 1).
  { destruct m as [a b c d e f g h i]; simpl. destruct Rm as (_ & (c1 & _) & _). apply sq_le1.
    assert (A := sq_ge0 a). assert (D := sq_ge0 d). lra. }
  split; [exact B|]. unfold m in *. clear m Rm. unfold quat_to_euler.
  assert (P : quat_to_matrix q = quat_to_matrix q) by reflexivity. rewrite quat_to_matrix_poly in P at 2.
  assert (E20 : -2 * (qx q * qz q - qw q * qy q) = - m20 (quat_to_matrix q)) by (rewrite P; simpl; ring).
  rewrite E20. destruct (Rle_dec (-1) (- m20 (quat_to_matrix q))) as [H1|H1]; [|lra].
  destruct (Rle_dec (- m20 (quat_to_matrix q)) 1) as [H2|H2]; [|lra].
  unfold unit_quat in U.
  assert (E10 : 2 * (qx q * qy q + qw q * qz q) = m10 (quat_to_matrix q)) by (rewrite P; simpl; ring).
  assert (E00 : qw q * qw q + qx q * qx q - qy q * qy q - qz q * qz q = m00 (quat_to_matrix q)) by (rewrite P; simpl; lra).
  assert (E21 : 2 * (qy q * qz q + qw q * qx q) = m21 (quat_to_matrix q)) by (rewrite P; simpl; ring).
  assert (E22 : qw q * qw q - qx q * qx q - qy q * qy q + qz q * qz q = m22 (quat_to_matrix q)) by (rewrite P; simpl; lra).
  rewrite E10, E00, E21, E22. reflexivity.
Qed.

Lemma matrix_to_euler_eq : forall m, rotation m ->
  -1 <= - m20 m <= 1 /\
  matrix_to_euler m = Ok (atan2 (m10 m) (m00 m), asin (- m20 m), atan2 (m21 m) (m22 m)).
Proof.
  intros m Hm. destruct (matrix_to_quat_sound m Hm) as [U E].
  unfold matrix_to_euler. assert (X := quat_to_euler_matrix _ U). cbv zeta in X. rewrite E in X. exact X.
Qed.

Lemma euler_entries : forall z y x, let m := euler_to_matrix (z, y, x) in
  m00 m = cos z * cos y /\ m10 m = sin z * cos y /\ m20 m = - sin y /\ m21 m = cos y * sin x /\ m22 m = cos y * cos x.
Proof. intros. unfold m, euler_to_matrix, rot_mul, mmul, Rx, Ry, Rz; simpl. repeat split; ring. Qed.

Lemma asin_open : forall s, -1 < s < 1 -> - (PI / 2) < asin s < PI / 2.
Proof.
  intros s H. destruct (asin_bound s) as [L U]. assert (P := PI_RGT_0).
  assert (S := sin_asin s). split.
  - destruct L as [L|L]; [lra|]. exfalso. rewrite <- L in S. replace (- PI / 2) with (- (PI / 2)) in S by field.
    rewrite sin_neg, sin_PI2 in S. lra.
  - destruct U as [U|U]; [lra|]. exfalso. rewrite U in S. rewrite sin_PI2 in S. lra.
Qed.

Lemma matrix_to_euler_sound : forall m, rotation m -> gimbal_free m ->
  exists z y x, matrix_to_euler m = Ok (z, y, x) /\ euler_to_matrix (z, y, x) = m /\
    - PI < z <= PI /\ - (PI / 2) < y < PI / 2 /\ - PI < x <= PI.
Proof.
  intros m Hm G. destruct (matrix_to_euler_eq m Hm) as [B E]. do 3 eexists. split; [exact E|].
  split; [|split; [apply atan2_range|split; [|apply atan2_range]]].
  - symmetry. destruct (euler_entries (atan2 (m10 m) (m00 m)) (asin (- m20 m)) (atan2 (m21 m) (m22 m))) as (F0 & F1 & F2 & F3 & F4).
    apply rotation_determined; [exact Hm|apply euler_to_matrix_rotation|exact G|..]; symmetry;
      [rewrite F0|rewrite F1|rewrite F2|rewrite F3|rewrite F4]; rewrite ?sin_asin, ?cos_asin by exact B; try lra.
    all: assert (Re := rotation_eqs m Hm); destruct m as [a b c d e f g h i]; unfold gimbal_free in G; simpl in *;
      destruct Re as ((r1 & r2 & r3) & (c1 & c2 & c3) & _); apply Rabs_def2, sq_lt1 in G;
      unfold Rsqr in *.
    + destruct (atan2_polar d a) as [C S]; [lra|]. replace (1 - - g * - g) with (a * a + d * d) by lra. lra.
    + destruct (atan2_polar d a) as [C S]; [lra|]. replace (1 - - g * - g) with (a * a + d * d) by lra. lra.
    + destruct (atan2_polar h i) as [C S]; [lra|]. replace (1 - - g * - g) with (i * i + h * h) by lra. lra.
    + destruct (atan2_polar h i) as [C S]; [lra|]. replace (1 - - g * - g) with (i * i + h * h) by lra. lra.
  - apply asin_open. unfold gimbal_free in G. apply Rabs_def2 in G. lra.
Qed.

Lemma matrix_to_euler_inverse : forall z y x, - PI < z <= PI -> - (PI / 2) < y < PI / 2 -> - PI < x <= PI ->
  matrix_to_euler (euler_to_matrix (z, y, x)) = Ok (z, y, x).
Proof.
  intros z y x Hz Hy Hx. destruct (matrix_to_euler_eq _ (euler_to_matrix_rotation (z, y, x))) as [B E]. rewrite E.
  destruct (euler_entries z y x) as (F0 & F1 & F2 & F3 & F4). rewrite F0, F1, F2, F3, F4.
  assert (C : 0 < cos y) by (apply cos_gt_0; lra).
  rewrite (Rmult_comm (sin z)), (Rmult_comm (cos z)).
  rewrite !atan2_of_polar by assumption. rewrite Ropp_involutive, asin_sin by lra. reflexivity.
Qed.

Lemma euler_gimbal_free : forall z y x, - (PI / 2) < y < PI / 2 -> gimbal_free (euler_to_matrix (z, y, x)).
Proof.
  intros z y x Hy. unfold gimbal_free. destruct (euler_entries z y x) as (_ & _ & F2 & _). rewrite F2.
  assert (C : 0 < cos y) by (apply cos_gt_0; lra). assert (X := sc1 y). rewrite Rabs_Ropp. apply Rabs_def1; nra.
Qed.

(** quat_to_euler on quaternions. *)
Lemma quat_to_euler_sound : forall q, unit_quat q -> gimbal_free (quat_to_matrix q) ->
  exists e, quat_to_euler q = Ok e /\ (euler_to_quat e = q \/ euler_to_quat e = qneg q).
Proof.
  intros q U G. destruct (quat_to_euler_matrix q U) as [B E].
  destruct (matrix_to_euler_sound _ (quat_to_matrix_rotation q U) G) as (z & y & x & E1 & E2 & _).
  destruct (matrix_to_euler_eq _ (quat_to_matrix_rotation q U)) as [_ E3]. rewrite E1 in E3.
  exists (z, y, x). split; [rewrite E, E3; reflexivity|].
  destruct (euler_to_quat_spec (z, y, x)) as [U' E']. apply quat_to_matrix_inj; [exact U'|exact U|].
  rewrite E', E2. reflexivity.
Qed.

(** Gimbal lock. *)
Definition gimbal_witness : mat := M33 0 (-1) 0 0 0 1 (-1) 0 0.
Lemma gimbal_witness_rotation : rotation gimbal_witness.
Proof. split; [apply mat_eq; simpl; ring|unfold det; simpl; ring]. Qed.
Lemma gimbal_witness_euler : matrix_to_euler gimbal_witness = Ok (0, PI / 2, 0).
Proof.
  destruct (matrix_to_euler_eq _ gimbal_witness_rotation) as [_ E]. rewrite E. simpl.
  unfold atan2. destruct (Rlt_dec 0 0); [lra|]. replace (- -1) with 1 by lra. rewrite asin_1. reflexivity.
Qed.
Lemma gimbal_witness_lost : euler_to_matrix (0, PI / 2, 0) <> gimbal_witness.
Proof.
  intro H. apply (f_equal m11) in H. unfold euler_to_matrix, rot_mul, mmul, Rx, Ry, Rz in H. simpl in H.
  rewrite ?cos_0, ?sin_0, ?cos_PI2, ?sin_PI2 in H. lra.
Qed.

(** * Pose3 *)
Lemma pose_eq : forall a b, pR a = pR b -> pt a = pt b -> a = b.
Proof. intros [] []; simpl; intros; subst; reflexivity. Qed.

Lemma compose_assoc : forall a b c, compose (compose a b) c = compose a (compose b c).
Proof.
  intros [A s] [B t] [C u]. apply pose_eq; simpl.
  - apply mmul_assoc.
  - destruct A, B, C, s, t, u. apply vec_eq; simpl; ring.
Qed.
Lemma compose_id_l : forall a, compose pose_id a = a.
Proof. intros [A s]. destruct A, s. apply pose_eq; [apply mat_eq|apply vec_eq]; simpl; ring. Qed.
Lemma compose_id_r : forall a, compose a pose_id = a.
Proof. intros [A s]. destruct A, s. apply pose_eq; [apply mat_eq|apply vec_eq]; simpl; ring. Qed.

Lemma compose_inverse_l : forall a, rotation (pR a) -> compose (inverse a) a = pose_id.
Proof.
  intros [A s] H. simpl in H. apply pose_eq; simpl.
  - apply H.
  - destruct A, s. apply vec_eq; simpl; ring.
Qed.
Lemma compose_inverse_r : forall a, rotation (pR a) -> compose a (inverse a) = pose_id.
Proof.
  intros [A s] H. simpl in H. apply pose_eq; simpl.
  - apply rotation_right, H.
  - assert (E := rotation_right A H). destruct A as [a b c d e f g h i], s as [x y z].
    unfold mmul, mtr, mid in E; simpl in E. injection E; intros.
    apply vec_eq; simpl; nsatz.
Qed.
Lemma inverse_rotation : forall a, rotation (pR a) -> rotation (pR (inverse a)).
Proof. intros a H. apply rotation_mtr, H. Qed.
Lemma inverse_involutive : forall a, rotation (pR a) -> inverse (inverse a) = a.
Proof.
  intros [A s] H. simpl in H. assert (E := rotation_right A H). apply pose_eq; simpl.
  - destruct A; reflexivity.
  - destruct A as [a b c d e f g h i], s as [x y z].
    unfold mmul, mtr, mid in E; simpl in E. injection E; intros. apply vec_eq; simpl; nsatz.
Qed.

Lemma transform_from_compose : forall a b p, transform_from (compose a b) p = transform_from a (transform_from b p).
Proof. intros [A s] [B t] p. destruct A, B, s, t, p. apply vec_eq; simpl; ring. Qed.
Lemma transform_to_from : forall a p, rotation (pR a) -> transform_to a (transform_from a p) = p.
Proof.
  intros [A s] p H. simpl in H. destruct H as [E _]. destruct A as [a b c d e f g h i], s as [x y z], p as [u v w].
  unfold mmul, mtr, mid in E; simpl in E. injection E; intros. apply vec_eq; simpl; nsatz.
Qed.
Lemma transform_from_to : forall a p, rotation (pR a) -> transform_from a (transform_to a p) = p.
Proof.
  intros [A s] p H. simpl in H. assert (E := rotation_right A H). destruct A as [a b c d e f g h i], s as [x y z], p as [u v w].
  unfold mmul, mtr, mid in E; simpl in E. injection E; intros. apply vec_eq; simpl; nsatz.
Qed.
Lemma transform_to_inverse : forall a q, transform_to a q = transform_from (inverse a) q.
Proof. intros [A s] q. destruct A, s, q. apply vec_eq; simpl; ring. Qed.
Lemma transform_from_dist : forall a p q, rotation (pR a) -> dist (transform_from a p) (transform_from a q) = dist p q.
Proof.
  intros [A s] p q H. unfold dist. rewrite <- (rotation_norm A (vsub p q) H). f_equal.
  destruct A, s, p, q. apply vec_eq; simpl; ring.
Qed.
Lemma transform_all_from_map : forall a p, transform_all_from a p = map (transform_from a) p.
Proof. intros. unfold transform_all_from, add_to_rows, rot_mul_array. rewrite map_map. reflexivity. Qed.
Lemma transform_all_to_map : forall a q, transform_all_to a q = map (transform_to a) q.
Proof. intros. unfold transform_all_to, sub_from_rows. rewrite map_map. reflexivity. Qed.
Lemma matrix34_roundtrip : forall a, FromMatrix34 (matrix34 a) = a.
Proof. intros [A s]. destruct A. reflexivity. Qed.
Lemma pose_json_roundtrip : forall a, pose_from_json (pose_to_json a) = a.
Proof. intros [A s]. destruct A. reflexivity. Qed.

Lemma enu_rotation : rotation ENU_R_CAMERA.
Proof. split; [apply mat_eq; simpl; ring|unfold det; simpl; ring]. Qed.
Lemma maya_rotation : rotation MAYA_R_CAMERA.
Proof. split; [apply mat_eq; simpl; ring|unfold det; simpl; ring]. Qed.
Lemma enu_camera_rotation : forall r p y, rotation (ENU_camera r p y).
Proof.
  intros. unfold ENU_camera, rot_mul. repeat apply rotation_mmul; auto using Rx_rotation, Ry_rotation, Rz_rotation, enu_rotation.
Qed.
Lemma maya_camera_rotation : forall r p y, rotation (Maya_camera r p y).
Proof.
  intros. unfold Maya_camera, rot_mul. repeat apply rotation_mmul; auto using Rx_rotation, Ry_rotation, Rz_rotation, maya_rotation.
Qed.

Lemma unrotate_rotate : forall a u, rotation a -> unrotate a (rotate a u) = u.
Proof.
  intros A p [E _]. destruct A as [a b c d e f g h i], p as [u v w].
  unfold mmul, mtr, mid in E; simpl in E. injection E; intros. apply vec_eq; simpl; nsatz.
Qed.
Lemma rotate_unrotate : forall a u, rotation a -> rotate a (unrotate a u) = u.
Proof.
  intros A p H. assert (E := rotation_right A H). destruct A as [a b c d e f g h i], p as [u v w].
  unfold mmul, mtr, mid in E; simpl in E. injection E; intros. apply vec_eq; simpl; nsatz.
Qed.
Lemma axis_angle_trace : forall d a, dot d d = 1 -> trace (AxisAngle d a) = 1 + 2 * cos a.
Proof. intros [x y z] a H. unfold dot in H; unfold trace; simpl in *. nsatz. Qed.
Lemma axis_angle_perp : forall d a v, dot d v = 0 ->
  rotate (AxisAngle d a) v = vadd (smul (cos a) v) (smul (sin a) (cross d v)).
Proof. intros [x y z] a [u v w] H. unfold dot in H; simpl in H. apply vec_eq; simpl; nsatz. Qed.
