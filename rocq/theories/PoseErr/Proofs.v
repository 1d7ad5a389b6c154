From Coq Require Import Reals Lra Lia List Bool String QArith ZArith Nsatz.
From Verif.Base Require Import Py PyFacts Vec.
From Verif.Assoc Require Import Model Spec Proofs.
From Verif.Geom Require Import Model Spec Proofs.
From Verif.Symm Require Import Model Spec Proofs.
From Verif.Scores Require Import Proofs.
From Verif.PoseErr Require Import Model Spec.
Import ListNotations.
Open Scope list_scope.
Open Scope R_scope.

(** * Angles *)
Definition rot_angle (m : mat) : R := acos ((trace m - 1) / 2).

Lemma sqrt_half : sqrt (1 / 2) * sqrt 2 = 1.
Proof. rewrite <- sqrt_mult by lra. replace (1 / 2 * 2) with 1 by field. apply sqrt_1. Qed.

Lemma axis_angle_rot_angle : forall d a, dot d d = 1 -> 0 <= a <= PI -> rot_angle (AxisAngle d a) = a.
Proof.
  intros d a H A. unfold rot_angle. rewrite axis_angle_trace by exact H.
  replace ((1 + 2 * cos a - 1) / 2) with (cos a) by field. apply acos_cos. exact A.
Qed.

Lemma quat_axis_pos : forall w x y z, w * w + x * x + y * y + z * z = 1 -> 0 <= w ->
  exists d a, dot d d = 1 /\ 0 <= a <= PI /\ quat_to_matrix (Q4 w x y z) = AxisAngle d a.
Proof.
  intros w x y z U W.
  assert (W1 : w <= 1) by nra.
  destruct (Req_dec w 1) as [->|NW].
  - assert (x = 0) by nra. assert (y = 0) by nra. assert (z = 0) by nra. subst.
    exists (V 1 0 0), 0. split; [unfold dot; simpl; ring|]. split; [assert (P := PI_RGT_0); lra|].
    rewrite axis_angle_x, Rx_0, quat_to_matrix_poly. apply mat_eq; simpl; ring.
  - set (h := acos w). assert (HB := acos_bound w). fold h in HB.
    assert (CH : cos h = w) by (apply cos_acos; lra).
    assert (HP : h <= PI / 2).
    { destruct (Rle_dec h (PI / 2)) as [L|L]; [exact L|]. exfalso.
      assert (cos h < 0) by (apply cos_lt_0; lra). lra. }
    set (s := sin h). assert (SC := sc1 h). fold s in SC. rewrite CH in SC.
    assert (S0 : 0 <= s) by (apply sin_ge_0; lra).
    assert (SP : s <> 0) by nra.
    exists (V (x / s) (y / s) (z / s)), (2 * h).
    assert (QS : x * x + y * y + z * z = s * s) by lra.
    split.
    { unfold dot; simpl. replace (x / s * (x / s) + y / s * (y / s) + z / s * (z / s)) with ((x * x + y * y + z * z) / (s * s)) by (field; exact SP).
      rewrite QS. field. exact SP. }
    split; [lra|].
    assert (C2 : cos (2 * h) = 2 * (w * w) - 1) by (rewrite cos_2a_cos, CH; ring).
    assert (S2 : sin (2 * h) = 2 * s * w) by (rewrite sin_2a, CH; fold s; ring).
    rewrite quat_to_matrix_poly. unfold AxisAngle. rewrite C2, S2.
    assert (X : x = s * (x / s)) by (field; exact SP). assert (Y : y = s * (y / s)) by (field; exact SP).
    assert (Z : z = s * (z / s)) by (field; exact SP).
    set (a := x / s) in *. set (b := y / s) in *. set (c := z / s) in *. clearbody a b c. clearbody s. clear h HB CH HP C2 S2.
    subst x y z.
    assert (N : a * a + b * b + c * c = 1).
    { apply (Rmult_eq_reg_l (s * s)); [lra|nra]. }
    clear W W1 NW S0 SP U QS. apply mat_eq; simpl; nsatz.
Qed.

(** Euler's rotation theorem. *)
Lemma rotation_axis_angle : forall m, rotation m ->
  exists d, dot d d = 1 /\ 0 <= rot_angle m <= PI /\ m = AxisAngle d (rot_angle m).
Proof.
  intros m H. destruct (matrix_to_quat_sound m H) as [U E]. destruct (matrix_to_quat m) as [w x y z].
  unfold unit_quat in U; simpl in U.
  assert (K : exists d a, dot d d = 1 /\ 0 <= a <= PI /\ m = AxisAngle d a).
  { destruct (Rle_dec 0 w) as [W|W].
    - destruct (quat_axis_pos w x y z U W) as (d & a & D & A & F). exists d, a. rewrite E in F. auto.
    - destruct (quat_axis_pos (- w) (- x) (- y) (- z)) as (d & a & D & A & F); [lra|lra|].
      exists d, a. split; [exact D|]. split; [exact A|]. rewrite <- F, <- E.
      symmetry. apply (quat_to_matrix_neg (Q4 w x y z)). }
  destruct K as (d & a & D & A & ->). exists d. rewrite (axis_angle_rot_angle d a D A). auto.
Qed.

Lemma rot_angle_range : forall m, 0 <= rot_angle m <= PI.
Proof. intro. apply acos_bound. Qed.

Lemma rot_angle_zero : forall m, rotation m -> (rot_angle m = 0 <-> m = mid).
Proof.
  intros m H. split; intro E.
  - destruct (rotation_axis_angle m H) as (d & D & _ & F). rewrite F, E. unfold AxisAngle. rewrite cos_0, sin_0. apply mat_eq; simpl; ring.
  - subst. unfold rot_angle, trace; simpl. replace ((1 + 1 + 1 - 1) / 2) with 1 by field. apply acos_1.
Qed.

Lemma trace_mmul : forall a b, trace (mmul a b) = trace (mmul b a).
Proof. intros; unfold trace; simpl; ring. Qed.
Lemma trace_mtr : forall a, trace (mtr a) = trace a.
Proof. reflexivity. Qed.

Lemma mmul_cancel_l : forall r s, rotation r -> mmul r (mmul (mtr r) s) = s.
Proof. intros r s H. rewrite <- mmul_assoc, (rotation_right r H). apply mmul_1_l. Qed.
Lemma mmul_cancel_l' : forall r s, rotation r -> mmul (mtr r) (mmul r s) = s.
Proof. intros r s H. rewrite <- mmul_assoc, (proj1 H). apply mmul_1_l. Qed.

Lemma angle_between_iff : forall r s a, rotation r -> rotation s ->
  (angle_between r s a <-> a = rot_angle (mmul (mtr r) s)).
Proof.
  intros r s a Hr Hs. split.
  - intros (A & d & D & ->). rewrite mmul_cancel_l' by exact Hr. symmetry. apply axis_angle_rot_angle; assumption.
  - intros ->. split; [apply rot_angle_range|].
    destruct (rotation_axis_angle (mmul (mtr r) s)) as (d & D & _ & E); [apply rotation_mmul; [apply rotation_mtr, Hr|exact Hs]|].
    exists d. split; [exact D|]. rewrite <- E. symmetry. apply mmul_cancel_l, Hr.
Qed.

Lemma axis_rot_rotation : forall axis t, rotation (axis_rot axis t).
Proof. intros [|[|axis]] t; simpl; [apply Rx_rotation|apply Ry_rotation|apply Rz_rotation]. Qed.
Lemma axis_rot_add : forall axis s t, mmul (axis_rot axis s) (axis_rot axis t) = axis_rot axis (s + t).
Proof. intros [|[|axis]] s t; simpl; [apply Rx_add|apply Ry_add|apply Rz_add]. Qed.
Lemma axis_rot_0 : forall axis, axis_rot axis 0 = mid.
Proof. intros [|[|axis]]; simpl; [apply Rx_0|apply Ry_0|apply Rz_0]. Qed.

Lemma group_rotation : forall s h, symmetry_group s h -> rotation h.
Proof.
  intros s h H. induction H; [apply rotation_id| | |]; apply rotation_mmul; auto using axis_rot_rotation.
Qed.

Lemma min_list_spec : forall l x, In (min_list x l) (x :: l) /\ forall y, In y (x :: l) -> min_list x l <= y.
Proof.
  induction l as [|y l IH]; intro x; simpl.
  - split; [auto|]. intros z [<-|[]]. lra.
  - destruct (IH (if Rlt_dec y x then y else x)) as [A B]. split.
    + destruct A as [A|A]; [|auto]. rewrite <- A. destruct (Rlt_dec y x); auto.
    + intros z Hz. assert (C := B _ (or_introl eq_refl)). destruct (Rlt_dec y x);
        (destruct Hz as [<-|[<-|Hz]]; [lra|lra|apply B; right; exact Hz]).
Qed.

(** * The candidates of discrete symmetries *)
Definition dstep (rots : list mat) (axis : nat) (sym : symmetry_type) : list mat :=
  match sym with
  | twoFold => rots ++ map (fun rot => symmetric_rot rot axis PI) rots
  | fourFold =>
      rots ++ ((map (fun rot => symmetric_rot rot axis (1 / 2 * PI)) rots
              ++ map (fun rot => symmetric_rot rot axis PI) rots)
              ++ map (fun rot => symmetric_rot rot axis (3 / 2 * PI)) rots)
  | _ => rots
  end.

Lemma check_axis_discrete : forall d rots axis sym, sym = none \/ sym = twoFold \/ sym = fourFold ->
  check_axis d rots axis sym = Ok (Some (dstep rots axis sym)).
Proof. intros d rots axis sym [->|[->| ->]]; reflexivity. Qed.

Lemma check_axes_discrete : forall d gt s, discrete s ->
  check_axes d [gt] 0 [x_symmetry s; y_symmetry s; z_symmetry s] =
  Ok (Some (dstep (dstep (dstep [gt] 0 (x_symmetry s)) 1 (y_symmetry s)) 2 (z_symmetry s))).
Proof.
  intros d gt s D. cbn [check_axes].
  rewrite check_axis_discrete by (apply (D 0%nat); lia). cbn [bind].
  rewrite check_axis_discrete by (apply (D 1%nat); lia). cbn [bind].
  rewrite check_axis_discrete by (apply (D 2%nat); lia). reflexivity.
Qed.

Lemma dstep_left : forall gt rots axis sym, dstep (map (mmul gt) rots) axis sym = map (mmul gt) (dstep rots axis sym).
Proof.
  intros gt rots axis sym.
  assert (K : forall t, map (fun rot => symmetric_rot rot axis t) (map (mmul gt) rots) =
     map (mmul gt) (map (fun rot => symmetric_rot rot axis t) rots)).
  { intro t. rewrite !map_map. apply map_ext. intro h. apply mmul_assoc. }
  destruct sym; cbn [dstep]; rewrite ?map_app, ?K; reflexivity.
Qed.

Definition cands (s : symmetry) : list mat :=
  dstep (dstep (dstep [mid] 0 (x_symmetry s)) 1 (y_symmetry s)) 2 (z_symmetry s).

Lemma cands_left : forall gt s,
  dstep (dstep (dstep [gt] 0 (x_symmetry s)) 1 (y_symmetry s)) 2 (z_symmetry s) = map (mmul gt) (cands s).
Proof.
  intros gt s. unfold cands. rewrite <- !dstep_left. cbn [map]. rewrite mmul_1_r. reflexivity.
Qed.

Lemma dstep_group : forall s axis rots, (axis < 3)%nat -> Forall (symmetry_group s) rots ->
  Forall (symmetry_group s) (dstep rots axis (sym_of s axis)).
Proof.
  intros s axis rots Ha F. rewrite Forall_forall in F. unfold dstep. destruct (sym_of s axis) eqn:E; try (apply Forall_forall; exact F).
  - apply Forall_app. split; [apply Forall_forall; exact F|]. apply Forall_forall. intros m Hm. apply in_map_iff in Hm.
    destruct Hm as (h & <- & Hh). apply sg_two; auto.
  - assert (K1 : forall h, symmetry_group s h -> symmetry_group s (symmetric_rot h axis (1 / 2 * PI))).
    { intros h H. replace (1 / 2 * PI) with (PI / 2) by field. apply sg_four; auto. }
    assert (K2 : forall h, symmetry_group s h -> symmetry_group s (symmetric_rot h axis PI)).
    { intros h H. unfold symmetric_rot, rot_mul. replace PI with (1 / 2 * PI + 1 / 2 * PI) by field.
      rewrite <- axis_rot_add, <- mmul_assoc. apply K1, K1, H. }
    assert (K3 : forall h, symmetry_group s h -> symmetry_group s (symmetric_rot h axis (3 / 2 * PI))).
    { intros h H. unfold symmetric_rot, rot_mul. replace (3 / 2 * PI) with (PI + 1 / 2 * PI) by field.
      rewrite <- axis_rot_add, <- mmul_assoc. apply K1, K2, H. }
    rewrite !Forall_app. repeat split; apply Forall_forall; try exact F;
      intros m Hm; apply in_map_iff in Hm; destruct Hm as (h & <- & Hh); auto.
Qed.

Lemma cands_group : forall s, Forall (symmetry_group s) (cands s).
Proof.
  intro s. unfold cands. apply (dstep_group s 2); [lia|]. apply (dstep_group s 1); [lia|]. apply (dstep_group s 0); [lia|].
  repeat constructor.
Qed.

(** Integer matrices. *)
Record zmat := ZM { z00 : Z; z01 : Z; z02 : Z; z10 : Z; z11 : Z; z12 : Z; z20 : Z; z21 : Z; z22 : Z }.
Definition zmul (a b : zmat) : zmat :=
  ZM (z00 a * z00 b + z01 a * z10 b + z02 a * z20 b)%Z (z00 a * z01 b + z01 a * z11 b + z02 a * z21 b)%Z (z00 a * z02 b + z01 a * z12 b + z02 a * z22 b)%Z
     (z10 a * z00 b + z11 a * z10 b + z12 a * z20 b)%Z (z10 a * z01 b + z11 a * z11 b + z12 a * z21 b)%Z (z10 a * z02 b + z11 a * z12 b + z12 a * z22 b)%Z
     (z20 a * z00 b + z21 a * z10 b + z22 a * z20 b)%Z (z20 a * z01 b + z21 a * z11 b + z22 a * z21 b)%Z (z20 a * z02 b + z21 a * z12 b + z22 a * z22 b)%Z.
Definition ztr (a : zmat) : zmat := ZM (z00 a) (z10 a) (z20 a) (z01 a) (z11 a) (z21 a) (z02 a) (z12 a) (z22 a).
Definition inj (a : zmat) : mat :=
  M33 (IZR (z00 a)) (IZR (z01 a)) (IZR (z02 a)) (IZR (z10 a)) (IZR (z11 a)) (IZR (z12 a)) (IZR (z20 a)) (IZR (z21 a)) (IZR (z22 a)).
Lemma inj_mul : forall a b, inj (zmul a b) = mmul (inj a) (inj b).
Proof. intros. apply mat_eq; simpl; rewrite !plus_IZR, !mult_IZR; reflexivity. Qed.
Lemma inj_tr : forall a, inj (ztr a) = mtr (inj a).
Proof. reflexivity. Qed.
Definition zeqb (a b : zmat) : bool :=
  (Z.eqb (z00 a) (z00 b) && Z.eqb (z01 a) (z01 b) && Z.eqb (z02 a) (z02 b) &&
   Z.eqb (z10 a) (z10 b) && Z.eqb (z11 a) (z11 b) && Z.eqb (z12 a) (z12 b) &&
   Z.eqb (z20 a) (z20 b) && Z.eqb (z21 a) (z21 b) && Z.eqb (z22 a) (z22 b))%bool.
Lemma zeqb_eq : forall a b, zeqb a b = true -> a = b.
Proof.
  intros [] []. unfold zeqb; simpl. rewrite !andb_true_iff, !Z.eqb_eq. intros H. decompose [and] H. subst. reflexivity.
Qed.
Definition zmid : zmat := ZM 1 0 0 0 1 0 0 0 1.
(** Quarter turns: [k] of them about [axis]. *)
Definition zturn (axis : nat) : zmat :=
  match axis with
  | O => ZM 1 0 0 0 0 (-1) 0 1 0
  | S O => ZM 0 0 1 0 1 0 (-1) 0 0
  | _ => ZM 0 (-1) 0 1 0 0 0 0 1
  end.
Definition zturn2 axis := zmul (zturn axis) (zturn axis).
Definition zturn3 axis := zmul (zturn2 axis) (zturn axis).

Lemma turn1 : forall axis, axis_rot axis (PI / 2) = inj (zturn axis).
Proof.
  intros [|[|axis]]; unfold axis_rot, Rx, Ry, Rz, FromScalars; rewrite cos_PI2, sin_PI2; apply mat_eq; simpl; lra.
Qed.
Lemma turn1' : forall axis, axis_rot axis (1 / 2 * PI) = inj (zturn axis).
Proof. intro axis. rewrite <- turn1. f_equal. field. Qed.
Lemma turn2 : forall axis, axis_rot axis PI = inj (zturn2 axis).
Proof.
  intro axis. unfold zturn2. rewrite inj_mul, <- turn1, axis_rot_add. f_equal. field.
Qed.
Lemma turn3 : forall axis, axis_rot axis (3 / 2 * PI) = inj (zturn3 axis).
Proof.
  intro axis. unfold zturn3. rewrite inj_mul, <- turn2, <- turn1, axis_rot_add. f_equal. field.
Qed.

Definition zdstep (rots : list zmat) (axis : nat) (sym : symmetry_type) : list zmat :=
  match sym with
  | twoFold => rots ++ map (fun r => zmul r (zturn2 axis)) rots
  | fourFold => rots ++ ((map (fun r => zmul r (zturn axis)) rots ++ map (fun r => zmul r (zturn2 axis)) rots)
                ++ map (fun r => zmul r (zturn3 axis)) rots)
  | _ => rots
  end.
Lemma zdstep_inj : forall rots axis sym, map inj (zdstep rots axis sym) = dstep (map inj rots) axis sym.
Proof.
  intros rots axis sym.
  assert (K : forall t z, axis_rot axis t = inj z ->
     map inj (map (fun r => zmul r z) rots) = map (fun rot => symmetric_rot rot axis t) (map inj rots)).
  { intros t z E. rewrite !map_map. apply map_ext. intro a. unfold symmetric_rot, rot_mul. rewrite E. apply inj_mul. }
  destruct sym; cbn [zdstep dstep]; try reflexivity; rewrite !map_app.
  - rewrite (K PI _ (turn2 axis)). reflexivity.
  - rewrite (K _ _ (turn1' axis)), (K _ _ (turn2 axis)), (K _ _ (turn3 axis)). reflexivity.
Qed.
Definition zcands (s : symmetry) : list zmat :=
  zdstep (zdstep (zdstep [zmid] 0 (x_symmetry s)) 1 (y_symmetry s)) 2 (z_symmetry s).
Lemma zcands_inj : forall s, map inj (zcands s) = cands s.
Proof. intro s. unfold zcands, cands. rewrite !zdstep_inj. reflexivity. Qed.

Definition closedb (l gens : list zmat) : bool :=
  forallb (fun h => forallb (fun g => existsb (zeqb (zmul h g)) l) gens) l.
Definition gens (s : symmetry) : list zmat :=
  flat_map (fun axis => match sym_of s axis with twoFold => zturn2 axis :: nil | fourFold => zturn axis :: nil | _ => [] end) [0; 1; 2]%nat.
Definition invb (l : list zmat) : bool := forallb (fun h => existsb (zeqb (ztr h)) l) l.

Lemma zcands_closed : forall s, documented (x_symmetry s) (y_symmetry s) (z_symmetry s) -> discrete s ->
  closedb (zcands s) (gens s) = true /\ invb (zcands s) = true.
Proof.
  intros [x y z] D C. cbn [x_symmetry y_symmetry z_symmetry] in D. apply valid_documented in D.
  assert (C0 := C 0%nat ltac:(lia)). assert (C1 := C 1%nat ltac:(lia)). assert (C2 := C 2%nat ltac:(lia)). cbn in C0, C1, C2.
  destruct C0 as [->|[->| ->]], C1 as [->|[->| ->]], C2 as [->|[->| ->]]; vm_compute in D; try discriminate; split; vm_compute; reflexivity.
Qed.

Lemma closed_step : forall s h g, closedb (zcands s) (gens s) = true -> In h (cands s) -> In g (gens s) ->
  In (mmul h (inj g)) (cands s).
Proof.
  intros s h g C Hh Hg. rewrite <- zcands_inj in Hh |- *. apply in_map_iff in Hh. destruct Hh as (zh & <- & Hz).
  unfold closedb in C. rewrite forallb_forall in C. specialize (C _ Hz). rewrite forallb_forall in C. specialize (C _ Hg).
  rewrite existsb_exists in C. destruct C as (k & Hk & E). apply zeqb_eq in E. rewrite <- inj_mul, E. apply in_map, Hk.
Qed.

Lemma mid_in_cands : forall s, In mid (cands s).
Proof.
  intro s. assert (K : forall rots axis sym, In mid rots -> In mid (dstep rots axis sym)).
  { intros rots axis [] H; cbn [dstep]; try exact H; apply in_or_app; left; exact H. }
  unfold cands. apply K, K, K. left; reflexivity.
Qed.

Lemma group_cands : forall s, documented (x_symmetry s) (y_symmetry s) (z_symmetry s) -> discrete s ->
  forall h, symmetry_group s h <-> In h (cands s).
Proof.
  intros s D C h. destruct (zcands_closed s D C) as [CL _]. split.
  - intro H. induction H as [|h axis Ha _ IH E|h axis Ha _ IH E|h axis t Ha _ IH E].
    + apply mid_in_cands.
    + rewrite turn2. apply closed_step; auto. unfold gens. apply in_flat_map. exists axis.
      split; [destruct axis as [|[|[|axis]]]; simpl; lia|]. rewrite E. left; reflexivity.
    + rewrite turn1. apply closed_step; auto. unfold gens. apply in_flat_map. exists axis.
      split; [destruct axis as [|[|[|axis]]]; simpl; lia|]. rewrite E. left; reflexivity.
    + destruct (C axis Ha) as [K|[K|K]]; congruence.
  - intro H. exact (proj1 (Forall_forall _ _) (cands_group s) h H).
Qed.

Lemma group_mtr : forall s, documented (x_symmetry s) (y_symmetry s) (z_symmetry s) -> discrete s ->
  forall h, symmetry_group s h -> symmetry_group s (mtr h).
Proof.
  intros s D C h H. rewrite (group_cands s D C) in H |- *. destruct (zcands_closed s D C) as [_ I].
  rewrite <- zcands_inj in H |- *. apply in_map_iff in H. destruct H as (z & <- & Hz).
  unfold invb in I. rewrite forallb_forall in I. specialize (I z Hz). rewrite existsb_exists in I. destruct I as (k & Hk & E).
  apply zeqb_eq in E. rewrite <- inj_tr, E. apply in_map, Hk.
Qed.

(** The group is one, whatever the symmetry. *)
Lemma group_mul : forall s a b, symmetry_group s a -> symmetry_group s b -> symmetry_group s (mmul a b).
Proof.
  intros s a b Ha Hb. revert a Ha. induction Hb; intros a Ha.
  - rewrite mmul_1_r. exact Ha.
  - rewrite <- mmul_assoc. apply sg_two; auto.
  - rewrite <- mmul_assoc. apply sg_four; auto.
  - rewrite <- mmul_assoc. apply sg_cyl; auto.
Qed.

Section WithLog.
  Variable lognorm : mat -> R.
  Hypothesis LOG : lognorm_ok lognorm.

  Lemma rot_difference_angle : forall d g, rotation d -> rotation g ->
    rot_difference lognorm d g = rot_angle (mmul (mtr d) g).
  Proof.
    intros d g Hd Hg. unfold rot_difference.
    destruct (rotation_axis_angle (mmul (mtr d) g)) as (u & U & A & E); [apply rotation_mmul; [apply rotation_mtr, Hd|exact Hg]|].
    rewrite E at 1. rewrite (LOG u _ U A), <- Rmult_assoc, sqrt_half, Rmult_1_l. reflexivity.
  Qed.

  (** Minimum over any non-empty list of rotations. *)
  Lemma error_of_rots : forall d rots, rotation d -> Forall rotation rots -> rots <> [] ->
    exists e, match map (rot_difference lognorm d) rots with [] => Err ValueError | e :: es => Ok (min_list e es) end = Ok e /\
      (exists g, In g rots /\ angle_between d g e) /\ (forall g b, In g rots -> angle_between d g b -> e <= b).
  Proof.
    intros d rots Hd F N. rewrite Forall_forall in F.
    assert (M : map (rot_difference lognorm d) rots = map (fun g => rot_angle (mmul (mtr d) g)) rots).
    { apply map_ext_in. intros g Hg. apply rot_difference_angle; auto. }
    rewrite M. destruct rots as [|g0 rots]; [congruence|]. cbn [map].
    destruct (min_list_spec (map (fun g => rot_angle (mmul (mtr d) g)) rots) (rot_angle (mmul (mtr d) g0))) as [A B].
    eexists. split; [reflexivity|].
    change (rot_angle (mmul (mtr d) g0) :: map (fun g => rot_angle (mmul (mtr d) g)) rots) with
      (map (fun g => rot_angle (mmul (mtr d) g)) (g0 :: rots)) in A, B.
    split.
    - apply in_map_iff in A. destruct A as (g & E & Hg). exists g. split; [exact Hg|].
      apply angle_between_iff; auto.
    - intros g b Hg Hb. apply angle_between_iff in Hb; auto. subst b. apply B. apply in_map_iff. exists g; auto.
  Qed.

  Lemma error_least : forall d g s, rotation d -> rotation g ->
    documented (x_symmetry s) (y_symmetry s) (z_symmetry s) -> discrete s ->
    exists e, rotation_error_1 lognorm d g s = Ok e /\ least_angle s d g e.
  Proof.
    intros d g s Hd Hg D C. unfold rotation_error_1. rewrite (check_axes_discrete d g s C). cbn [bind].
    rewrite cands_left.
    destruct (error_of_rots d (map (mmul g) (cands s)) Hd) as (e & E & (r & Hr & A) & B).
    - apply Forall_forall. intros r Hr. apply in_map_iff in Hr. destruct Hr as (h & <- & Hh).
      apply rotation_mmul; [exact Hg|]. apply (group_rotation s). apply group_cands; assumption.
    - intro K. apply map_eq_nil in K. assert (M := mid_in_cands s). rewrite K in M. destruct M.
    - exists e. split; [exact E|]. split.
      + apply in_map_iff in Hr. destruct Hr as (h & <- & Hh). exists h. split; [apply group_cands; assumption|exact A].
      + intros h b Hh Hb. apply (B (mmul g h) b); [|exact Hb]. apply in_map_iff. exists h. split; [reflexivity|].
        apply group_cands; assumption.
  Qed.

  Lemma least_unique : forall s d g a b, least_angle s d g a -> least_angle s d g b -> a = b.
  Proof.
    intros s d g a b ((h & Hh & A) & MA) ((k & Hk & B) & MB). apply Rle_antisym; [apply (MA k)|apply (MB h)]; assumption.
  Qed.

  Lemma least_shift : forall s d g k a, documented (x_symmetry s) (y_symmetry s) (z_symmetry s) -> discrete s ->
    symmetry_group s k -> least_angle s d g a -> least_angle s d (mmul g k) a.
  Proof.
    intros s d g k a D C Hk ((h & Hh & A) & M). assert (Rk := group_rotation s k Hk). split.
    - exists (mmul (mtr k) h). split; [apply group_mul; [apply group_mtr; assumption|exact Hh]|].
      rewrite mmul_assoc, mmul_cancel_l by exact Rk. exact A.
    - intros h' b Hh' B. rewrite mmul_assoc in B. apply (M (mmul k h')); [apply group_mul; assumption|exact B].
  Qed.

  Lemma angle_sym : forall r s a, rotation r -> rotation s -> angle_between r s a -> angle_between s r a.
  Proof.
    intros r s a Hr Hs H. rewrite angle_between_iff in * by assumption. rewrite H. unfold rot_angle. f_equal. f_equal. f_equal.
    rewrite <- trace_mtr, mtr_mmul, mtr_mtr. reflexivity.
  Qed.

  Lemma angle_conj : forall r s h a, rotation r -> rotation s -> rotation h ->
    angle_between r (mmul s h) a -> angle_between (mmul r (mtr h)) s a.
  Proof.
    intros r s h a Hr Hs Hh H. rewrite angle_between_iff in *; auto using rotation_mmul, rotation_mtr.
    rewrite H. unfold rot_angle. f_equal. f_equal. f_equal.
    rewrite mtr_mmul, mtr_mtr, <- mmul_assoc, trace_mmul, mmul_assoc. reflexivity.
  Qed.

  Lemma least_sym : forall s d g a, rotation d -> rotation g ->
    documented (x_symmetry s) (y_symmetry s) (z_symmetry s) -> discrete s ->
    least_angle s d g a -> least_angle s g d a.
  Proof.
    intros s d g a Hd Hg D C ((h & Hh & A) & M). assert (Rh := group_rotation s h Hh). split.
    - exists (mtr h). split; [apply group_mtr; assumption|]. apply angle_sym; auto using rotation_mmul, rotation_mtr.
      apply angle_conj; assumption.
    - intros k b Hk B. assert (Rk := group_rotation s k Hk). apply (M (mtr k)); [apply group_mtr; assumption|].
      apply angle_sym in B; auto using rotation_mmul.
      rewrite angle_between_iff in * by auto using rotation_mmul, rotation_mtr.
      rewrite B. unfold rot_angle. f_equal. f_equal. f_equal.
      rewrite mtr_mmul, mmul_assoc, trace_mmul, mmul_assoc. reflexivity.
  Qed.

  Lemma least_frame : forall s q d g a, rotation q -> rotation d -> rotation g ->
    (least_angle s d g a <-> least_angle s (mmul q d) (mmul q g) a).
  Proof.
    intros s q d g a Hq Hd Hg.
    assert (K : forall h b, angle_between d (mmul g h) b <-> angle_between (mmul q d) (mmul (mmul q g) h) b).
    { intros h b. unfold angle_between. split; intros (B & u & U & E); split; auto; exists u; split; auto.
      - rewrite mmul_assoc, E, mmul_assoc. reflexivity.
      - rewrite !mmul_assoc in E. apply (f_equal (mmul (mtr q))) in E. rewrite !mmul_cancel_l' in E by exact Hq. exact E. }
    unfold least_angle. split; intros ((h & Hh & A) & M).
    - split; [exists h; split; [exact Hh|apply K, A]|]. intros k b Hk B. apply (M k); [exact Hk|apply K, B].
    - split; [exists h; split; [exact Hh|apply K, A]|]. intros k b Hk B. apply (M k); [exact Hk|apply K, B].
  Qed.

  (** * All symmetries: the error is defined *)
  Lemma cyl_rotation : forall d r axis, rotation d -> rotation r ->
    exists m, cylindrical_symmetric_rot d r axis = Ok m /\ rotation m.
  Proof.
    intros d r axis Hd Hr. unfold cylindrical_symmetric_rot.
    destruct (matrix_to_euler_eq d Hd) as [_ ->]. destruct (matrix_to_euler_eq r Hr) as [_ ->]. cbn [bind].
    eexists. split; [reflexivity|apply euler_to_matrix_rotation].
  Qed.

  Lemma check_axis_ok : forall d rots axis sym, rotation d -> Forall rotation rots -> rots <> [] ->
    check_axis d rots axis sym = Ok None \/
    exists rots', check_axis d rots axis sym = Ok (Some rots') /\ Forall rotation rots' /\ rots' <> [].
  Proof.
    intros d rots axis sym Hd F N. rewrite Forall_forall in F.
    assert (S : forall t, Forall rotation (map (fun rot => symmetric_rot rot axis t) rots)).
    { intro t. apply Forall_forall. intros m Hm. apply in_map_iff in Hm. destruct Hm as (r & <- & Hr).
      apply rotation_mmul; auto using axis_rot_rotation. }
    assert (NA : forall l : list mat, rots ++ l <> []) by (intros l K; apply app_eq_nil in K; tauto).
    destruct sym; cbn [check_axis]; [right|right|right|right|left; reflexivity].
    - exists rots. rewrite Forall_forall. auto.
    - eexists. split; [reflexivity|]. split; [|apply NA]. apply Forall_app. split; [apply Forall_forall; exact F|apply S].
    - eexists. split; [reflexivity|]. split; [|apply NA]. rewrite !Forall_app. repeat split; try apply S. apply Forall_forall; exact F.
    - assert (K : exists rots', mapM (fun rot => cylindrical_symmetric_rot d rot axis) rots = Ok rots' /\ Forall rotation rots' /\ List.length rots' = List.length rots).
      { clear S NA N. induction rots as [|r rots IH]; [exists []; auto|].
        destruct (cyl_rotation d r axis Hd (F r (or_introl eq_refl))) as (m & Em & Rm).
        destruct IH as (ms & E & Fm & L); [intros x Hx; apply F; right; exact Hx|].
        exists (m :: ms). cbn [mapM]. rewrite Em. cbn [bind]. rewrite E. split; [reflexivity|]. split; [constructor; assumption|simpl; congruence]. }
      destruct K as (rots' & E & Fr & L). rewrite E. cbn [bind]. eexists. split; [reflexivity|]. split; [exact Fr|].
      destruct rots'; [destruct rots; [congruence|discriminate]|discriminate].
  Qed.

  Lemma check_axes_ok : forall syms d rots axis, rotation d -> Forall rotation rots -> rots <> [] ->
    check_axes d rots axis syms = Ok None \/
    exists rots', check_axes d rots axis syms = Ok (Some rots') /\ Forall rotation rots' /\ rots' <> [].
  Proof.
    induction syms as [|s syms IH]; intros d rots axis Hd F N; cbn [check_axes].
    - right. exists rots. auto.
    - destruct (check_axis_ok d rots axis s Hd F N) as [->|(r' & -> & F' & N')]; cbn [bind]; [left; reflexivity|].
      apply IH; assumption.
  Qed.

  Lemma error_defined : forall d g s, rotation d -> rotation g ->
    exists e, rotation_error_1 lognorm d g s = Ok e /\ 0 <= e <= PI.
  Proof.
    intros d g s Hd Hg. unfold rotation_error_1.
    destruct (check_axes_ok [x_symmetry s; y_symmetry s; z_symmetry s] d [g] 0 Hd) as [->|(r & -> & F & N)];
      [constructor; [exact Hg|constructor]|discriminate| |]; cbn [bind].
    - exists 0. split; [reflexivity|]. assert (P := PI_RGT_0). lra.
    - destruct (error_of_rots d r Hd F N) as (e & E & (x & _ & A & _) & _). exists e. auto.
  Qed.

  (** * Cylindrical symmetry *)
  Lemma cyl_x_spin : forall d g t, rotation d -> rotation g -> gimbal_free g ->
    cylindrical_symmetric_rot d (mmul g (Rx t)) 0 = cylindrical_symmetric_rot d g 0.
  Proof.
    intros d g t Hd Hg G. unfold cylindrical_symmetric_rot.
    destruct (matrix_to_euler_eq d Hd) as [_ ->]. destruct (matrix_to_euler_eq g Hg) as [_ ->].
    assert (Hs : rotation (mmul g (Rx t))) by (apply rotation_mmul; [exact Hg|apply Rx_rotation]).
    destruct (matrix_to_euler_eq _ Hs) as [_ ->]. cbn [bind].
    replace (m10 (mmul g (Rx t))) with (m10 g) by (simpl; ring).
    replace (m00 (mmul g (Rx t))) with (m00 g) by (simpl; ring).
    replace (m20 (mmul g (Rx t))) with (m20 g) by (simpl; ring). reflexivity.
  Qed.

  Lemma cyl_x_hit : forall g t, rotation g -> gimbal_free g ->
    cylindrical_symmetric_rot (mmul g (Rx t)) g 0 = Ok (mmul g (Rx t)).
  Proof.
    intros g t Hg G. rewrite <- (cyl_x_spin (mmul g (Rx t)) g t); [|apply rotation_mmul; [exact Hg|apply Rx_rotation]|exact Hg|exact G].
    assert (G' : gimbal_free (mmul g (Rx t))).
    { unfold gimbal_free in *. replace (m20 (mmul g (Rx t))) with (m20 g) by (simpl; ring). exact G. }
    destruct (matrix_to_euler_sound (mmul g (Rx t))) as (z & y & x & E & F & _); [apply rotation_mmul; [exact Hg|apply Rx_rotation]|exact G'|].
    unfold cylindrical_symmetric_rot. rewrite E. cbn [bind]. rewrite F. reflexivity.
  Qed.

  Lemma self_angle : forall r, rotation r -> angle_between r r 0.
  Proof.
    intros r Hr. split; [assert (P := PI_RGT_0); lra|]. exists (V 1 0 0). split; [unfold dot; simpl; ring|].
    rewrite axis_angle_x, Rx_0, mmul_1_r. reflexivity.
  Qed.

  Lemma error_single : forall d g a, rotation d -> rotation g -> angle_between d g a ->
    match map (rot_difference lognorm d) [g] with [] => Err ValueError | e :: es => Ok (min_list e es) end = Ok a.
  Proof.
    intros d g a Hd Hg A. cbn [map min_list]. rewrite rot_difference_angle by assumption.
    apply angle_between_iff in A; auto. rewrite A. reflexivity.
  Qed.

  Lemma error_zero_in : forall d rots, rotation d -> Forall rotation rots -> In d rots ->
    match map (rot_difference lognorm d) rots with [] => Err ValueError | e :: es => Ok (min_list e es) end = Ok 0.
  Proof.
    intros d rots Hd F I. destruct (error_of_rots d rots Hd F) as (e & E & (g & _ & A & _) & B); [intro K; subst; destruct I|].
    rewrite E. f_equal. specialize (B d 0 I (self_angle d Hd)). lra.
  Qed.
End WithLog.

(** * pose_error *)
Lemma mapM_inv : forall B C (f : B -> res C) l cs, mapM f l = Ok cs -> Forall2 (fun b c => f b = Ok c) l cs.
Proof.
  intros B C f. induction l as [|b l IH]; intros cs E; cbn [mapM] in E.
  - injection E as <-. constructor.
  - destruct (f b) as [c0|] eqn:Eb; [|discriminate]. cbn [bind] in E.
    destruct (mapM f l) as [cs'|] eqn:El; [|discriminate]. cbn [bind] in E. injection E as <-. constructor; auto.
Qed.

Lemma mapM_all : forall B C (f : B -> res C) (Q : B -> C -> Prop) l,
  (forall b, In b l -> exists c, f b = Ok c /\ Q b c) -> exists cs, mapM f l = Ok cs /\ Forall2 Q l cs.
Proof.
  induction l as [|b l IH]; intro H; [exists []; split; [reflexivity|constructor]|].
  destruct (H b (or_introl eq_refl)) as (c & Ec & Qc). destruct IH as (cs & E & F); [intros; apply H; right; assumption|].
  exists (c :: cs). cbn [mapM]. rewrite Ec. cbn [bind]. rewrite E. split; [reflexivity|constructor; assumption].
Qed.

Lemma rmean_eq : forall l, l <> [] -> rmean l * INR (List.length l) = fold_right Rplus 0 l.
Proof.
  intros l N. unfold rmean, Rdiv. rewrite Rmult_assoc, Rinv_l; [ring|].
  apply not_0_INR. destruct l; [congruence|discriminate].
Qed.

Lemma sum_bounds : forall l b, (forall x, In x l -> 0 <= x <= b) -> 0 <= fold_right Rplus 0 l <= b * INR (List.length l).
Proof.
  induction l as [|x l IH]; intros b H; cbn [fold_right List.length]; [simpl; lra|].
  destruct (IH b) as [A B]; [intros; apply H; right; assumption|]. assert (C := H x (or_introl eq_refl)).
  rewrite S_INR. lra.
Qed.

Lemma rmean_bounds : forall l b, l <> [] -> (forall x, In x l -> 0 <= x <= b) -> 0 <= rmean l <= b.
Proof.
  intros l b N H. destruct (sum_bounds l b H) as [A B].
  assert (P : 0 < INR (List.length l)) by (apply lt_0_INR; destruct l; [congruence|simpl; lia]).
  rewrite <- (rmean_eq l N) in A, B. split; [|apply (Rmult_le_reg_r _ _ _ P); exact B].
  apply (Rmult_le_reg_r _ _ _ P). lra.
Qed.

Lemma rmean_ge0 : forall l, l <> [] -> (forall x, In x l -> 0 <= x) -> 0 <= rmean l.
Proof.
  intros l N H. assert (P : 0 < INR (List.length l)) by (apply lt_0_INR; destruct l; [congruence|simpl; lia]).
  unfold rmean. apply Rmult_le_pos; [|left; apply Rinv_0_lt_compat; exact P].
  clear N P. induction l as [|x l IH]; cbn [fold_right]; [lra|]. assert (A := H x (or_introl eq_refl)).
  assert (B := IH (fun y Hy => H y (or_intror Hy))). lra.
Qed.

Section PoseErr.
  Variable lognorm : mat -> R.
  Hypothesis LOG : lognorm_ok lognorm.
  Variable sim : placed -> placed -> Q.
  Variables sub gt : @scene (pose * symmetry).
  Variable ts : list Q.
  Variable cats : list string.
  Variable ev : @evaluator (pose * symmetry).
  Hypothesis Kd : keyed_by_id sub.
  Hypothesis Kg : keyed_by_id gt.
  Hypothesis Hev : evaluator_init sim sub gt ts cats = Ok ev.
  Hypothesis RD : forall d, In d (elements sub) -> rotation (pR (fst (e_info d))).
  Hypothesis RG : forall g, In g (elements gt) -> rotation (pR (fst (e_info g))).

  Lemma keyed_lookup : forall (s : @scene (pose * symmetry)) d, keyed_by_id s -> In d (elements s) -> sget (e_id d) s = Some d.
  Proof.
    intros s d [N K] H. unfold elements in H. apply in_map_iff in H. destruct H as ([k e] & E & Hin). simpl in E. subst e.
    rewrite <- (K k d Hin). rewrite (dget_NoDup String.eqb str_eqb_spec s k d); [reflexivity|exact N|exact Hin].
  Qed.

  Lemma assoc_entry : forall t table k c, In t ts -> dget Qeq_bool t (ev_agnostic ev) = Some table -> In (k, c) table ->
    exists d g, In d (elements sub) /\ In g (elements gt) /\ c_det c = e_id d /\ c_gt c = e_id g.
  Proof.
    intros t table k c Ht E Hin. rewrite (keyed_agnostic sim sub gt ts cats ev t Kd Kg Hev Ht) in E. injection E as <-.
    assert (Hd := keyed_nodup _ Kd). assert (Hg := keyed_nodup _ Kg).
    unfold assoc_at, enc_result in Hin. apply in_map_iff in Hin. destruct Hin as ([d g] & E & Hin). simpl in E.
    injection E as <- <-. exists d, g.
    assert (P : pairs (elements sub) (elements gt) (assoc_at sim sub gt t) d g) by (apply pairs_run; assumption).
    split; [apply P|]. split; [apply P|]. split; reflexivity.
  Qed.

  Definition in_scenes (p : placed * placed) : Prop :=
    In (fst p) (elements sub) /\ In (snd p) (elements gt) /\ e_evaluated (snd p) = true.

  (** One threshold. *)
  Lemma table_errors : forall table,
    (forall k c, In (k, c) table -> exists d g, In d (elements sub) /\ In g (elements gt) /\ c_det c = e_id d /\ c_gt c = e_id g) ->
    exists es l,
    mapM (corr_errors lognorm ev) (dvalues table) = Ok es /\
    evaluated_pairs ev table l /\ Forall in_scenes l /\
    Forall2 (fun p v => rot_value lognorm p (fst v) /\ trans_value p (snd v)) l (List.concat es).
  Proof.
    destruct (init_fields sim _ _ _ _ _ Hev) as (_ & _ & F3 & F4). intros table IN.
    induction table as [|[k c] table IH].
    - exists [], []. split; [reflexivity|]. split; [exists []; split; constructor|]. split; constructor.
    - destruct IH as (es & l & E & (fl & Ffl & ->) & Fs & F2); [intros k' c' H; apply (IN k' c'); right; exact H|].
      destruct (IN k c (or_introl eq_refl)) as (d & g & Id & Ig & Cd & Cg).
      destruct (error_defined lognorm LOG (pR (fst (e_info d))) (pR (fst (e_info g))) (snd (e_info g)) (RD d Id) (RG g Ig)) as (e & Ee & _).
      assert (EC : corr_errors lognorm ev c = Ok (if e_evaluated g then [(e, norm (vsub (pt (fst (e_info g))) (pt (fst (e_info d)))))] else [])).
      { unfold corr_errors. rewrite F3, F4, Cd, Cg. unfold dgetE. rewrite (keyed_lookup sub d Kd Id), (keyed_lookup gt g Kg Ig). cbn [bind].
        destruct (e_evaluated g); [|reflexivity]. unfold pair_errors. rewrite Ee. reflexivity. }
      exists ((if e_evaluated g then [(e, norm (vsub (pt (fst (e_info g))) (pt (fst (e_info d)))))] else []) :: es).
      exists ((if e_evaluated g then [(d, g)] else []) ++ List.concat fl).
      unfold dvalues in *. cbn [map mapM]. cbn [snd]. rewrite EC. cbn [bind]. rewrite E. split; [reflexivity|].
      split; [exists ((if e_evaluated g then [(d, g)] else []) :: fl); split; [|reflexivity]|].
      { constructor; [|exact Ffl]. exists d, g. cbn [snd]. rewrite F3, F4, Cd, Cg.
        split; [apply keyed_lookup; assumption|]. split; [apply keyed_lookup; assumption|reflexivity]. }
      destruct (e_evaluated g) eqn:Ev; cbn [app List.concat]; [|split; assumption].
      split; constructor; try assumption; [split; [exact Id|split; [exact Ig|exact Ev]]|].
      cbn [fst snd]. split; [exact Ee|]. unfold trans_value; cbn [fst snd]. apply dist_sym.
  Qed.

  Lemma mean_pair : forall (l : list (placed * placed)) es,
    Forall2 (fun p v => rot_value lognorm p (fst v) /\ trans_value p (snd v)) l es -> es <> [] ->
    mean_of l (rot_value lognorm) (rmean (map fst es)) /\ mean_of l trans_value (rmean (map snd es)).
  Proof.
    intros l es F N.
    assert (L : List.length l = List.length es) by (clear N; induction F; simpl; congruence).
    assert (NL : l <> []) by (intro K; subst; destruct es; [congruence|discriminate]).
    split; (split; [exact NL|]); rewrite L.
    - exists (map fst es). split.
      + clear N NL L. induction F as [|p v l es [A B] F IH]; constructor; assumption.
      + rewrite <- (map_length fst es). apply rmean_eq. destruct es; [congruence|discriminate].
    - exists (map snd es). split.
      + clear N NL L. induction F as [|p v l es [A B] F IH]; constructor; assumption.
      + rewrite <- (map_length snd es). apply rmean_eq. destruct es; [congruence|discriminate].
  Qed.

  Definition level (p : list (placed * placed)) (v : R * R) : Prop :=
    mean_of p (rot_value lognorm) (fst v) /\ mean_of p trans_value (snd v) /\ 0 <= fst v <= PI /\ 0 <= snd v.

  Lemma thresh_value : forall t, In t ts -> exists table l v,
    dget Qeq_bool t (ev_agnostic ev) = Some table /\ evaluated_pairs ev table l /\ Forall in_scenes l /\
    thresh_errors lognorm ev t = Ok v /\
    ((l = [] /\ v = []) \/ exists w, l <> [] /\ v = [w] /\ level l w).
  Proof.
    intros t Ht. assert (Et := keyed_agnostic sim sub gt ts cats ev t Kd Kg Hev Ht).
    destruct (table_errors (assoc_at sim sub gt t)) as (es & l & E & EP & Fs & F2).
    { intros k c H. eapply assoc_entry; eassumption. }
    exists (assoc_at sim sub gt t), l. unfold thresh_errors. unfold dgetE. rewrite Et. cbn [bind]. rewrite E. cbn [bind].
    destruct (List.concat es) as [|v0 vs] eqn:Ec.
    - exists []. inversion F2; subst. repeat split; auto.
    - eexists. split; [reflexivity|]. split; [exact EP|]. split; [exact Fs|]. split; [reflexivity|]. right.
      eexists. split; [intro K; subst; inversion F2|]. split; [reflexivity|].
      destruct (mean_pair l (v0 :: vs) F2) as [M1 M2]; [discriminate|].
      split; [exact M1|]. split; [exact M2|]. cbn [fst snd].
      assert (B : forall p v, In p l -> rot_value lognorm p (fst v) /\ trans_value p (snd v) -> 0 <= fst v <= PI /\ 0 <= snd v).
      { intros p v Hp [A T]. rewrite Forall_forall in Fs. destruct (Fs p Hp) as (Id & Ig & _).
        destruct (error_defined lognorm LOG _ _ (snd (e_info (snd p))) (RD _ Id) (RG _ Ig)) as (e & Ee & Be).
        unfold rot_value in A. rewrite Ee in A. injection A as <-. split; [exact Be|]. rewrite T. apply dist_nonneg. }
      assert (BB : forall v, In v (v0 :: vs) -> 0 <= fst v <= PI /\ 0 <= snd v).
      { clear M1 M2 Ec E EP Fs. induction F2 as [|p v l' vs' A F2 IH]; [intros ? []|].
        intros v' [<-|Hv]; [apply (B p); [left; reflexivity|exact A]|]. apply IH; [|exact Hv].
        intros p' w Hp. apply B. right; exact Hp. }
      split.
      + apply rmean_bounds; [discriminate|]. intros x Hx. apply in_map_iff in Hx. destruct Hx as (v & <- & Hv). apply BB, Hv.
      + apply rmean_ge0; [discriminate|]. intros x Hx. apply in_map_iff in Hx. destruct Hx as (v & <- & Hv). apply BB, Hv.
  Qed.

  Lemma pose_value : exists r ll, pose_error lognorm ev = Ok r /\
    Forall2 (fun t l => exists table, dget Qeq_bool t (ev_agnostic ev) = Some table /\ evaluated_pairs ev table l)
            (ev_thresholds ev) ll /\
    Forall (Forall in_scenes) ll /\
    (r = None <-> forall l, In l ll -> l = []) /\
    (forall re te, r = Some (re, te) -> 0 <= re <= PI /\ 0 <= te /\
       mean_of (filter nonempty ll) (fun l m => mean_of l (rot_value lognorm) m) re /\
       mean_of (filter nonempty ll) (fun l m => mean_of l trans_value m) te).
  Proof.
    destruct (init_fields sim _ _ _ _ _ Hev) as (F1 & _).
    assert (K : forall l, (forall t, In t l -> In t ts) -> exists vs ll,
      mapM (thresh_errors lognorm ev) l = Ok vs /\
      Forall2 (fun t l => exists table, dget Qeq_bool t (ev_agnostic ev) = Some table /\ evaluated_pairs ev table l) l ll /\
      Forall (Forall in_scenes) ll /\ Forall2 level (filter nonempty ll) (List.concat vs)).
    { induction l as [|t l IH]; intro H; [exists [], []; repeat split; constructor|].
      destruct IH as (vs & ll & E & A & B & C); [intros; apply H; right; assumption|].
      destruct (thresh_value t (H t (or_introl eq_refl))) as (table & p & v & Et & EP & Fs & Ev & D).
      exists (v :: vs), (p :: ll). cbn [mapM]. rewrite Ev. cbn [bind]. rewrite E. split; [reflexivity|].
      split; [constructor; [exists table; auto|exact A]|]. split; [constructor; assumption|].
      cbn [filter List.concat]. destruct D as [[-> ->]|(w & N & -> & L)]; [exact C|].
      destruct p; [congruence|]. cbn [nonempty app]. constructor; assumption. }
    destruct (K (ev_thresholds ev)) as (vs & ll & E & A & B & C).
    { intros t Ht. rewrite F1 in Ht. apply (proj1 (sort_thresholds_In _ _)) in Ht. exact Ht. }
    unfold pose_error. rewrite E. cbn [bind].
    destruct (List.concat vs) as [|w ws] eqn:Ec.
    - exists None, ll. split; [reflexivity|]. split; [exact A|]. split; [exact B|]. split; [|discriminate].
      split; [|auto]. intros _ l Hl. destruct l as [|x l]; [reflexivity|].
      assert (I : In (x :: l) (filter nonempty ll)) by (apply filter_In; auto). inversion C as [Z|]. rewrite <- Z in I. destruct I.
    - eexists. exists ll. split; [reflexivity|]. split; [exact A|]. split; [exact B|]. split.
      + split; [discriminate|]. intro H. inversion C as [|p ? ? ? _ _ Z]. assert (I : In p (filter nonempty ll)) by (rewrite <- Z; left; reflexivity).
        apply filter_In in I. destruct I as [I1 I2]. apply H in I1. subst p. discriminate.
      + intros re te HH. injection HH as <- <-.
        assert (BB : forall v, In v (w :: ws) -> 0 <= fst v <= PI /\ 0 <= snd v).
        { intros v Hv. apply (proj1 (Forall_forall (fun v => 0 <= fst v <= PI /\ 0 <= snd v) (w :: ws))); [|exact Hv].
          clear -C. induction C as [|p v l vs (_ & _ & L) C IH]; constructor; [exact L|exact IH]. }
        split; [apply rmean_bounds; [discriminate|]; intros x Hx; apply (proj1 (in_map_iff _ (w :: ws) _)) in Hx; destruct Hx as (v & <- & Hv); apply BB, Hv|].
        split; [apply rmean_ge0; [discriminate|]; intros x Hx; apply (proj1 (in_map_iff _ (w :: ws) _)) in Hx; destruct Hx as (v & <- & Hv); apply BB, Hv|].
        assert (L : List.length (filter nonempty ll) = List.length (w :: ws)) by (clear -C; induction C; simpl; congruence).
        assert (NL : filter nonempty ll <> []) by (intro Z; rewrite Z in L; discriminate).
        split; (split; [exact NL|]); rewrite L.
        * exists (map fst (w :: ws)). split; [clear -C; induction C as [|p v l vs (M & _) C IH]; constructor; assumption|].
          rewrite <- (map_length fst (w :: ws)). apply rmean_eq. discriminate.
        * exists (map snd (w :: ws)). split; [clear -C; induction C as [|p v l vs (_ & M & _) C IH]; constructor; assumption|].
          rewrite <- (map_length snd (w :: ws)). apply rmean_eq. discriminate.
  Qed.
End PoseErr.

Lemma mean_const : forall A (l : list A) (f : A -> R -> Prop) m c, mean_of l f m ->
  (forall x v, In x l -> f x v -> v = c) -> m = c.
Proof.
  intros A l f m c (N & vs & F & E) H.
  assert (S : fold_right Rplus 0 vs = c * INR (List.length l)).
  { clear N E. induction F as [|x v l vs Hv F IH]; cbn [fold_right List.length]; [simpl; ring|].
    rewrite IH by (intros y w Hy; apply H; right; exact Hy). rewrite (H x v (or_introl eq_refl) Hv), S_INR. ring. }
  apply (Rmult_eq_reg_r (INR (List.length l))); [congruence|]. apply not_0_INR. destruct l; [congruence|discriminate].
Qed.
