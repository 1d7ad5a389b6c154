(** C27, C28, C57: rotation error under symmetry and pose error. *)
From Coq Require Import Reals Lra Lia List Bool String QArith.
From Verif.Base Require Import Py PyFacts Vec.
From Verif.Assoc Require Import Model Spec Proofs.
From Verif.Geom Require Import Model Spec Proofs.
From Verif.Symm Require Import Model Spec Proofs.
From Verif.PoseErr Require Import Model Spec Proofs.
Import ListNotations.
Open Scope R_scope.

(** The contract of the matrix logarithm can be met. *)
Lemma lognorm_exists : lognorm_ok (fun m => sqrt 2 * rot_angle m).
Proof. intros d a D A. rewrite axis_angle_rot_angle by assumption. reflexivity. Qed.

(** Every pair of rotations has exactly one angle. *)
Theorem C27_angle_exists_unique : forall r s, rotation r -> rotation s -> exists! a, angle_between r s a.
Proof.
  intros r s Hr Hs. exists (rot_angle (mmul (mtr r) s)). split; [apply angle_between_iff; auto|].
  intros b Hb. apply angle_between_iff in Hb; auto.
Qed.

Definition accepted (s : symmetry) : Prop := documented (x_symmetry s) (y_symmetry s) (z_symmetry s).

(** The error is the least angle over the symmetry group. *)
Theorem C27_least_angle : forall lognorm, lognorm_ok lognorm ->
  forall d g s, rotation d -> rotation g -> accepted s -> discrete s ->
  exists e, rotation_error_1 lognorm d g s = Ok e /\ least_angle s d g e /\
    forall e', least_angle s d g e' -> e' = e.
Proof.
  intros lognorm L d g s Hd Hg D C. destruct (error_least lognorm L d g s Hd Hg D C) as (e & E & M).
  exists e. split; [exact E|]. split; [exact M|]. intros e' M'. eapply least_unique; eassumption.
Qed.

Lemma same_error : forall lognorm, lognorm_ok lognorm -> forall s d g d' g',
  rotation d -> rotation g -> rotation d' -> rotation g' -> accepted s -> discrete s ->
  (forall a, least_angle s d g a -> least_angle s d' g' a) ->
  rotation_error_1 lognorm d' g' s = rotation_error_1 lognorm d g s.
Proof.
  intros lognorm L s d g d' g' Hd Hg Hd' Hg' D C K.
  destruct (error_least lognorm L d g s Hd Hg D C) as (e & -> & M).
  destruct (error_least lognorm L d' g' s Hd' Hg' D C) as (e' & -> & M').
  f_equal. eapply least_unique; [exact M'|apply K, M].
Qed.

Theorem C27_symmetry_invariant : forall lognorm, lognorm_ok lognorm ->
  forall d g s h, rotation d -> rotation g -> accepted s -> discrete s -> symmetry_group s h ->
  rotation_error_1 lognorm d (rot_mul g h) s = rotation_error_1 lognorm d g s /\
  rotation_error_1 lognorm (rot_mul d h) g s = rotation_error_1 lognorm d g s.
Proof.
  intros lognorm L d g s h Hd Hg D C Hh. assert (Rh := group_rotation s h Hh). unfold rot_mul. split.
  - apply same_error; auto using rotation_mmul. intros a M. apply least_shift; assumption.
  - apply same_error; auto using rotation_mmul. intros a M.
    apply least_sym; auto using rotation_mmul. apply least_shift; auto. apply least_sym; auto.
Qed.

(** Detection and ground truth may be exchanged, and the world frame is irrelevant. *)
Theorem C27_symmetric_and_frame_free : forall lognorm, lognorm_ok lognorm ->
  forall d g s, rotation d -> rotation g -> accepted s -> discrete s ->
  rotation_error_1 lognorm g d s = rotation_error_1 lognorm d g s /\
  forall q, rotation q -> rotation_error_1 lognorm (rot_mul q d) (rot_mul q g) s = rotation_error_1 lognorm d g s.
Proof.
  intros lognorm L d g s Hd Hg D C. split.
  - apply same_error; auto. intros a M. apply least_sym; auto.
  - intros q Hq. unfold rot_mul. apply same_error; auto using rotation_mmul. intros a M. apply least_frame; assumption.
Qed.

Theorem C27_zero_iff : forall lognorm, lognorm_ok lognorm ->
  forall d g s, rotation d -> rotation g -> accepted s -> discrete s ->
  (rotation_error_1 lognorm d g s = Ok 0 <-> exists h, symmetry_group s h /\ d = rot_mul g h).
Proof.
  intros lognorm L d g s Hd Hg D C. destruct (error_least lognorm L d g s Hd Hg D C) as (e & E & (h & Hh & A) & M). rewrite E. split.
  - intro Z. injection Z as ->. exists h. split; [exact Hh|]. destruct A as (_ & u & _ & F). unfold rot_mul. rewrite F.
    unfold AxisAngle. rewrite cos_0, sin_0. apply mat_eq; simpl; ring.
  - intros (k & Hk & ->). f_equal. unfold rot_mul in *. assert (B := M k 0 Hk (self_angle _ Hd)). destruct A as (A & _). lra.
Qed.

(** A ball has no rotation error. *)
Theorem C27_spherical : forall lognorm d g s axis, accepted s -> (axis < 3)%nat -> sym_of s axis = spherical ->
  rotation_error_1 lognorm d g s = Ok 0.
Proof.
  intros lognorm d g [x y z] axis D Ha E. unfold accepted in D. cbn [x_symmetry y_symmetry z_symmetry] in D.
  apply valid_documented in D. assert (X : x = spherical).
  { destruct axis as [|[|[|axis]]]; cbn in E; subst; [reflexivity|destruct x, z; discriminate D || reflexivity|destruct x, y; discriminate D || reflexivity|lia]. }
  subst x. reflexivity.
Qed.

(** A cube turned by a quarter about x and a half about z. *)
Example C27_example : forall lognorm, lognorm_ok lognorm ->
  let s := Symmetry fourFold fourFold fourFold in
  accepted s /\ discrete s /\ symmetry_group s (mmul (Rx (PI / 2)) (Rz (PI / 2))) /\
  rotation_error_1 lognorm (mmul (Rx (PI / 2)) (Rz (PI / 2))) mid s = Ok 0.
Proof.
  intros lognorm L s.
  assert (D : accepted s) by (apply valid_documented; reflexivity).
  assert (C : discrete s) by (intros [|[|[|axis]]] Ha; cbn; auto; lia).
  assert (G : symmetry_group s (mmul (Rx (PI / 2)) (Rz (PI / 2)))).
  { apply (sg_four s (Rx (PI / 2)) 2); [lia| |reflexivity]. rewrite <- (mmul_1_l (Rx (PI / 2))).
    apply (sg_four s mid 0); [lia|constructor|reflexivity]. }
  repeat split; auto. apply (C27_zero_iff lognorm L); auto using rotation_id.
  - apply (group_rotation s). exact G.
  - exists (mmul (Rx (PI / 2)) (Rz (PI / 2))). split; [exact G|]. unfold rot_mul. rewrite mmul_1_l. reflexivity.
Qed.

(** Without acceptance the candidates are not the group: two four-fold axes. *)
Theorem C27_unlisted_refuted : exists s h, ~ accepted s /\ discrete s /\ symmetry_group s h /\
  forall lognorm, lognorm_ok lognorm -> rotation_error_1 lognorm h mid s <> Ok 0.
Proof.
  set (s := Symmetry fourFold fourFold none). exists s, (mmul (mmul (Ry (PI / 2)) (Rx (PI / 2))) mid).
  assert (G1 : symmetry_group s (mmul (mmul mid (Ry (PI / 2))) (Rx (PI / 2)))).
  { apply (sg_four s _ 0); [lia| |reflexivity]. apply (sg_four s _ 1); [lia|constructor|reflexivity]. }
  rewrite mmul_1_l in G1. rewrite mmul_1_r.
  assert (C : discrete s) by (intros [|[|[|axis]]] Ha; cbn; auto; lia).
  split; [intro D; apply valid_documented in D; discriminate D|]. split; [exact C|]. split; [exact G1|].
  intros lognorm L E. unfold rotation_error_1 in E. rewrite (check_axes_discrete _ _ _ C) in E. cbn [bind] in E.
  rewrite cands_left in E. set (h := mmul (Ry (PI / 2)) (Rx (PI / 2))) in *.
  assert (Hh : rotation h) by (apply rotation_mmul; [apply Ry_rotation|apply Rx_rotation]).
  assert (CM : map (mmul mid) (cands s) = cands s) by (rewrite <- map_id; apply map_ext; intro; apply mmul_1_l).
  rewrite CM in E.
  destruct (error_of_rots lognorm L h (cands s) Hh) as (e & E' & (r & Hr & A) & _).
  { apply Forall_forall. intros r Hr. apply (group_rotation s). exact (proj1 (Forall_forall _ _) (cands_group s) r Hr). }
  { intro K. assert (M := mid_in_cands s). rewrite K in M. destruct M. }
  rewrite E' in E. injection E as ->. destruct A as (_ & u & _ & F).
  assert (R : r = h). { rewrite F. unfold AxisAngle. rewrite cos_0, sin_0. apply mat_eq; simpl; ring. }
  rewrite R in Hr. clear F u E' CM R. rewrite <- zcands_inj in Hr. apply in_map_iff in Hr. destruct Hr as (z & Ez & Hz).
  assert (Hz' : h = inj (zmul (zturn 1) (zturn 0))).
  { unfold h. rewrite inj_mul, <- !turn1. reflexivity. }
  rewrite Hz' in Ez.
  assert (IJ : forall a b, inj a = inj b -> a = b).
  { intros [] [] H. unfold inj in H; simpl in H. injection H; intros. f_equal; apply eq_IZR; assumption. }
  apply IJ in Ez. subst z. revert Hz. vm_compute. intuition discriminate.
Qed.

(** * C28 *)

(** Cylinder about x, away from gimbal lock: a spin of the ground truth does not
    matter, and a detection that differs by a spin has error 0. *)
Theorem C28_x_axis : forall lognorm, lognorm_ok lognorm ->
  forall d g s t, rotation d -> rotation g -> gimbal_free g -> accepted s -> x_symmetry s = cylindrical ->
  rotation_error_1 lognorm d (rot_mul g (Rx t)) s = rotation_error_1 lognorm d g s /\
  rotation_error_1 lognorm (rot_mul g (Rx t)) g s = Ok 0.
Proof.
  intros lognorm L d g s t Hd Hg G D X. unfold rot_mul, rotation_error_1. rewrite X. cbn [check_axes check_axis mapM]. split.
  - rewrite cyl_x_spin by assumption. reflexivity.
  - assert (Hs : rotation (mmul g (Rx t))) by (apply rotation_mmul; [exact Hg|apply Rx_rotation]).
    rewrite cyl_x_hit by assumption. cbn [bind].
    assert (Y : y_symmetry s = none \/ y_symmetry s = twoFold \/ y_symmetry s = fourFold).
    { unfold accepted in D. rewrite X in D. apply valid_documented in D. destruct (y_symmetry s); auto; destruct (z_symmetry s); discriminate D. }
    assert (Z : z_symmetry s = none \/ z_symmetry s = twoFold \/ z_symmetry s = fourFold).
    { unfold accepted in D. rewrite X in D. apply valid_documented in D. destruct (z_symmetry s); auto; destruct (y_symmetry s); discriminate D. }
    rewrite check_axis_discrete by exact Y. cbn [bind]. rewrite check_axis_discrete by exact Z. cbn [bind].
    assert (KR : forall rots axis sym, Forall rotation rots -> Forall rotation (dstep rots axis sym)).
    { intros rots axis sym F. assert (S : forall a, Forall rotation (map (fun rot => symmetric_rot rot axis a) rots)).
      { intro a. apply Forall_forall. intros m Hm. apply in_map_iff in Hm. destruct Hm as (r & <- & Hr).
        apply rotation_mmul; [exact (proj1 (Forall_forall _ _) F r Hr)|apply axis_rot_rotation]. }
      destruct sym; cbn [dstep]; rewrite ?Forall_app; auto. }
    assert (KI : forall rots axis sym m, In m rots -> In m (dstep rots axis sym)).
    { intros rots axis sym m H. destruct sym; cbn [dstep]; try exact H; apply in_or_app; left; exact H. }
    apply (error_zero_in lognorm L); [exact Hs| |].
    + apply KR, KR. constructor; [exact Hs|constructor].
    + apply KI, KI. left; reflexivity.
Qed.

Example C28_example : let s := Symmetry cylindrical twoFold twoFold in
  accepted s /\ gimbal_free (Rz 1) /\ x_symmetry s = cylindrical.
Proof.
  split; [apply valid_documented; reflexivity|]. split; [|reflexivity]. unfold gimbal_free; simpl. rewrite Rabs_R0. lra.
Qed.

Lemma cyl_eval : forall dz dy dx gz gy gx axis,
  - PI < dz <= PI -> - (PI / 2) < dy < PI / 2 -> - PI < dx <= PI ->
  - PI < gz <= PI -> - (PI / 2) < gy < PI / 2 -> - PI < gx <= PI ->
  cylindrical_symmetric_rot (euler_to_matrix (dz, dy, dx)) (euler_to_matrix (gz, gy, gx)) axis =
  Ok (euler_to_matrix (match axis with O => (gz, gy, dx) | S O => (gz, dy, gx) | _ => (dz, gy, gx) end)).
Proof.
  intros. unfold cylindrical_symmetric_rot. rewrite !matrix_to_euler_inverse by assumption. reflexivity.
Qed.

(** A quarter turn about x puts the body's y and z axes where the Euler angles do
    not follow them. *)
Definition tipped : mat := Rx (PI / 2).
Lemma tipped_euler : tipped = euler_to_matrix (0, 0, PI / 2).
Proof.
  unfold tipped, euler_to_matrix, rot_mul. rewrite Rz_0, Ry_0, !mmul_1_l. reflexivity.
Qed.

(** Cylinder about y: the detection is the ground truth spun by 60 degrees about
    its axis, and the error is 60 degrees instead of 0. *)
Theorem C28_y_axis_refuted : forall lognorm, lognorm_ok lognorm -> exists d g s t,
  rotation d /\ rotation g /\ gimbal_free g /\ accepted s /\ y_symmetry s = cylindrical /\ d = rot_mul g (Ry t) /\
  rotation_error_1 lognorm d g s = Ok (PI / 3) /\ rotation_error_1 lognorm d (rot_mul g (Ry t)) s = Ok 0.
Proof.
  intros lognorm L. assert (P := PI_RGT_0).
  set (d := mmul tipped (Ry (PI / 3))). exists d, tipped, (Symmetry none cylindrical none), (PI / 3).
  assert (Ht : rotation tipped) by apply Rx_rotation. assert (Hd : rotation d) by (apply rotation_mmul; [exact Ht|apply Ry_rotation]).
  assert (Ed : d = euler_to_matrix (PI / 3, 0, PI / 2)).
  { unfold d, tipped, euler_to_matrix, rot_mul. rewrite Ry_0, mmul_1_r. unfold Rx, Ry, Rz, FromScalars. rewrite cos_PI2, sin_PI2.
    apply mat_eq; simpl; ring. }
  split; [exact Hd|]. split; [exact Ht|]. split; [rewrite tipped_euler; apply euler_gimbal_free; lra|].
  split; [apply valid_documented; reflexivity|]. split; [reflexivity|]. split; [reflexivity|].
  unfold rotation_error_1, rot_mul. cbn [x_symmetry y_symmetry z_symmetry check_axes check_axis mapM bind].
  fold d. split.
  - rewrite Ed at 1. rewrite tipped_euler at 1. rewrite cyl_eval by lra. cbn [bind]. rewrite <- tipped_euler.
    apply (error_single lognorm L); auto. apply angle_sym; auto. split; [lra|].
    exists (V 0 1 0). split; [unfold dot; simpl; ring|]. rewrite axis_angle_y. reflexivity.
  - rewrite Ed at 1 2. rewrite cyl_eval by lra. cbn [bind]. rewrite <- Ed.
    apply (error_single lognorm L); auto using self_angle.
Qed.

Theorem C28_z_axis_refuted : forall lognorm, lognorm_ok lognorm -> exists d g s t,
  rotation d /\ rotation g /\ gimbal_free g /\ accepted s /\ z_symmetry s = cylindrical /\ d = rot_mul g (Rz t) /\
  rotation_error_1 lognorm d g s = Ok (PI / 3) /\ rotation_error_1 lognorm d (rot_mul g (Rz t)) s = Ok 0.
Proof.
  intros lognorm L. assert (P := PI_RGT_0).
  set (d := mmul tipped (Rz (PI / 3))). exists d, tipped, (Symmetry none none cylindrical), (PI / 3).
  assert (Ht : rotation tipped) by apply Rx_rotation. assert (Hd : rotation d) by (apply rotation_mmul; [exact Ht|apply Rz_rotation]).
  assert (Ed : d = euler_to_matrix (0, - (PI / 3), PI / 2)).
  { unfold d, tipped, euler_to_matrix, rot_mul. rewrite Rz_0, mmul_1_l. unfold Rx, Ry, Rz, FromScalars.
    rewrite cos_neg, sin_neg, cos_PI2, sin_PI2. apply mat_eq; simpl; ring. }
  split; [exact Hd|]. split; [exact Ht|]. split; [rewrite tipped_euler; apply euler_gimbal_free; lra|].
  split; [apply valid_documented; reflexivity|]. split; [reflexivity|]. split; [reflexivity|].
  unfold rotation_error_1, rot_mul. cbn [x_symmetry y_symmetry z_symmetry check_axes check_axis mapM bind].
  fold d. split.
  - rewrite Ed at 1. rewrite tipped_euler at 1. rewrite cyl_eval by lra. cbn [bind]. rewrite <- tipped_euler.
    apply (error_single lognorm L); auto. apply angle_sym; auto. split; [lra|].
    exists (V 0 0 1). split; [unfold dot; simpl; ring|]. rewrite axis_angle_z. reflexivity.
  - rewrite Ed at 1 2. rewrite cyl_eval by lra. cbn [bind]. rewrite <- Ed.
    apply (error_single lognorm L); auto using self_angle.
Qed.

(** Even about x the error is not the least angle over all spins: 180 degrees are
    reported where a half spin leaves 90. *)
Theorem C28_x_least_refuted : forall lognorm, lognorm_ok lognorm -> exists d g s h e b,
  rotation d /\ rotation g /\ gimbal_free d /\ gimbal_free g /\ accepted s /\ x_symmetry s = cylindrical /\
  rotation_error_1 lognorm d g s = Ok e /\ symmetry_group s h /\ angle_between d (rot_mul g h) b /\ b < e.
Proof.
  intros lognorm L. assert (P := PI_RGT_0).
  set (d := Ry (PI / 4)). set (g := mmul (Rz PI) (Ry (PI / 4))). set (s := Symmetry cylindrical none none).
  exists d, g, s, (mmul mid (axis_rot 0 PI)), PI, (PI / 2).
  assert (Hd : rotation d) by apply Ry_rotation. assert (Hg : rotation g) by (apply rotation_mmul; [apply Rz_rotation|apply Ry_rotation]).
  assert (Ed : d = euler_to_matrix (0, PI / 4, 0)).
  { unfold d, euler_to_matrix, rot_mul. rewrite Rz_0, Rx_0, mmul_1_l, mmul_1_r. reflexivity. }
  assert (Eg : g = euler_to_matrix (PI, PI / 4, 0)).
  { unfold g, euler_to_matrix, rot_mul. rewrite Rx_0, mmul_1_r. reflexivity. }
  split; [exact Hd|]. split; [exact Hg|]. split; [rewrite Ed; apply euler_gimbal_free; lra|].
  split; [rewrite Eg; apply euler_gimbal_free; lra|]. split; [apply valid_documented; reflexivity|]. split; [reflexivity|].
  split; [|split; [|split]].
  - unfold rotation_error_1. cbn [s x_symmetry y_symmetry z_symmetry check_axes check_axis mapM bind].
    rewrite Ed at 1. rewrite Eg at 1. rewrite cyl_eval by lra. cbn [bind]. rewrite <- Eg.
    apply (error_single lognorm L); auto. apply angle_between_iff; auto. unfold rot_angle.
    replace (trace (mmul (mtr d) g)) with (trace (mmul d (mtr d)) - 4 * 1).
    + rewrite (rotation_right d Hd). unfold trace; simpl. replace ((1 + 1 + 1 - 4 * 1 - 1) / 2) with (Ropp 1) by field.
      rewrite acos_opp, acos_1. ring.
    + unfold g, d, trace, Ry, Rz, FromScalars. rewrite cos_PI, sin_PI. simpl. assert (S := sc1 (PI / 4)).
      set (c := cos (PI / 4)) in *. set (k := sin (PI / 4)) in *. clearbody c k. nra.
  - apply sg_cyl; [lia|constructor|reflexivity].
  - split; [lra|]. exists (V 0 1 0). split; [unfold dot; simpl; ring|]. rewrite axis_angle_y. unfold d, g, rot_mul. rewrite mmul_1_l.
    assert (S : sin (PI / 4) = cos (PI / 4)) by (rewrite sin_PI4, cos_PI4; reflexivity).
    unfold axis_rot, Rx, Ry, Rz, FromScalars. rewrite cos_PI, sin_PI, cos_PI2, sin_PI2, S. apply mat_eq; simpl; ring.
  - lra.
Qed.

(** At gimbal lock even a detection equal to the ground truth gets an error. *)
Theorem C28_identical_refuted : forall lognorm, lognorm_ok lognorm -> exists g s,
  rotation g /\ accepted s /\ x_symmetry s = cylindrical /\ rotation_error_1 lognorm g g s <> Ok 0.
Proof.
  intros lognorm L. exists gimbal_witness, (Symmetry cylindrical none none).
  assert (H := gimbal_witness_rotation). split; [exact H|]. split; [apply valid_documented; reflexivity|]. split; [reflexivity|].
  unfold rotation_error_1. cbn [x_symmetry y_symmetry z_symmetry check_axes check_axis mapM bind].
  unfold cylindrical_symmetric_rot. rewrite gimbal_witness_euler. cbn [bind]. cbn [map min_list].
  assert (He := euler_to_matrix_rotation (0, PI / 2, 0)).
  rewrite (rot_difference_angle lognorm L) by assumption. intro E. injection E as E.
  apply rot_angle_zero in E; [|apply rotation_mmul; [apply rotation_mtr, H|exact He]].
  apply gimbal_witness_lost. assert (K := mmul_cancel_l gimbal_witness (euler_to_matrix (0, PI / 2, 0)) H).
  assert (E' : mmul (mtr gimbal_witness) (euler_to_matrix (0, PI / 2, 0)) = mid) by exact E.
  rewrite E' in K. rewrite <- K. apply mmul_1_r.
Qed.

(** * C57 *)

(** Reported errors: infinity exactly when no threshold has an evaluated match;
    otherwise the mean, over the thresholds with evaluated matches, of the mean
    over those matches; rotation errors lie in [0, pi], translations are >= 0. *)
Theorem C57_pose_error : forall lognorm, lognorm_ok lognorm ->
  forall (sim : placed -> placed -> Q) sub gt ts cats ev,
  keyed_by_id sub -> keyed_by_id gt -> evaluator_init sim sub gt ts cats = Ok ev ->
  (forall d, In d (elements sub) -> rotation (pR (fst (e_info d)))) ->
  (forall g, In g (elements gt) -> rotation (pR (fst (e_info g)))) ->
  exists r ll, pose_error lognorm ev = Ok r /\
    Forall2 (fun t l => exists table, dget Qeq_bool t (ev_agnostic ev) = Some table /\ evaluated_pairs ev table l)
            (ev_thresholds ev) ll /\
    (forall l p, In l ll -> In p l -> In (fst p) (elements sub) /\ In (snd p) (elements gt) /\ e_evaluated (snd p) = true) /\
    (r = None <-> forall l, In l ll -> l = []) /\
    (forall re te, r = Some (re, te) -> 0 <= re <= PI /\ 0 <= te /\
       mean_of (filter nonempty ll) (fun l m => mean_of l (rot_value lognorm) m) re /\
       mean_of (filter nonempty ll) (fun l m => mean_of l trans_value m) te).
Proof.
  intros lognorm L sim sub gt ts cats ev Kd Kg Hev RD RG.
  destruct (pose_value lognorm L sim sub gt ts cats ev Kd Kg Hev RD RG) as (r & ll & A & B & C & D & E).
  exists r, ll. split; [exact A|]. split; [exact B|]. split; [|split; assumption].
  intros l p Hl Hp. rewrite Forall_forall in C. specialize (C l Hl). rewrite Forall_forall in C. apply (C p Hp).
Qed.

(** Matches with identical poses (and no cylindrical axis) give zero errors. *)
Theorem C57_identical_poses : forall lognorm, lognorm_ok lognorm ->
  forall (sim : placed -> placed -> Q) sub gt ts cats ev,
  keyed_by_id sub -> keyed_by_id gt -> evaluator_init sim sub gt ts cats = Ok ev ->
  (forall d, In d (elements sub) -> rotation (pR (fst (e_info d)))) ->
  (forall g, In g (elements gt) -> rotation (pR (fst (e_info g)))) ->
  (forall t table k c d g, In t ts -> dget Qeq_bool t (ev_agnostic ev) = Some table -> In (k, c) table ->
     sget (c_det c) sub = Some d -> sget (c_gt c) gt = Some g ->
     fst (e_info d) = fst (e_info g) /\ accepted (snd (e_info g)) /\
     forall axis, (axis < 3)%nat -> sym_of (snd (e_info g)) axis <> cylindrical) ->
  pose_error lognorm ev = Ok None \/ pose_error lognorm ev = Ok (Some (0, 0)).
Proof.
  intros lognorm L sim sub gt ts cats ev Kd Kg Hev RD RG ID.
  destruct (pose_value lognorm L sim sub gt ts cats ev Kd Kg Hev RD RG) as (r & ll & A & B & C & D & E).
  destruct (Verif.Scores.Proofs.init_fields sim _ _ _ _ _ Hev) as (F1 & _ & F3 & F4).
  rewrite A. destruct r as [[re te]|]; [right|left; reflexivity]. destruct (E re te eq_refl) as (_ & _ & M1 & M2).
  assert (S : forall l p, In l ll -> In p l -> rotation (pR (fst (e_info (snd p)))) /\ fst (e_info (fst p)) = fst (e_info (snd p)) /\
    accepted (snd (e_info (snd p))) /\ forall axis, (axis < 3)%nat -> sym_of (snd (e_info (snd p))) axis <> cylindrical).
  { intros l p Hl Hp.
    assert (T : exists t table, In t (ev_thresholds ev) /\ dget Qeq_bool t (ev_agnostic ev) = Some table /\ evaluated_pairs ev table l).
    { clear -B Hl. induction B as [|t l' ts ll (table & X1 & X2) B IH]; [destruct Hl|].
      destruct Hl as [->|Hl]; [exists t, table; split; [left; reflexivity|auto]|]. destruct (IH Hl) as (t' & table' & Y & Z). exists t', table'. split; [right; exact Y|exact Z]. }
    destruct T as (t & table & It & Et & fl & Ff & ->). rewrite F1 in It. apply (proj1 (Verif.Scores.Proofs.sort_thresholds_In _ _)) in It.
    assert (K : exists k c d g, In (k, c) table /\ sget (c_det c) (ev_submission ev) = Some d /\ sget (c_gt c) (ev_ground_truth ev) = Some g /\ p = (d, g)).
    { clear -Ff Hp. induction Ff as [|[k c] ps table fl (d & g & X1 & X2 & X3) Ff IH]; [destruct Hp|].
      cbn [List.concat] in Hp. apply in_app_or in Hp. destruct Hp as [Hp|Hp].
      - exists k, c, d, g. subst ps. destruct (e_evaluated g); [|destruct Hp]. destruct Hp as [<-|[]]. simpl. auto.
      - destruct (IH Hp) as (k' & c' & d' & g' & X & Y). exists k', c', d', g'. split; [right; exact X|exact Y]. }
    destruct K as (k & c & d & g & Hin & Ed & Eg & ->). rewrite F3 in Ed. rewrite F4 in Eg. cbn [fst snd].
    rewrite Forall_forall in C. specialize (C _ Hl). rewrite Forall_forall in C. destruct (C _ Hp) as (_ & Ig & _). cbn [snd] in Ig.
    split; [apply RG, Ig|]. exact (ID t table k c d g It Et Hin Ed Eg). }
  do 2 f_equal. f_equal.
  - apply (mean_const _ _ _ re 0 M1). intros l m Hl Hm. apply filter_In in Hl. destruct Hl as [Hl _].
    apply (mean_const _ _ _ m 0 Hm). intros p v Hp Hv. destruct (S l p Hl Hp) as (Rg & EP & ACC & NC).
    unfold rot_value in Hv. rewrite EP in Hv. set (g := pR _) in *. set (s := snd (e_info (snd p))) in *.
    assert (Z : rotation_error_1 lognorm g g s = Ok 0); [|congruence].
    assert (DS : discrete s \/ exists axis, (axis < 3)%nat /\ sym_of s axis = spherical).
    { assert (NC0 := NC 0%nat ltac:(lia)). assert (NC1 := NC 1%nat ltac:(lia)). assert (NC2 := NC 2%nat ltac:(lia)).
      cbn in NC0, NC1, NC2.
      destruct (x_symmetry s) eqn:X; destruct (y_symmetry s) eqn:Y; destruct (z_symmetry s) eqn:Z; try congruence;
        try (right; exists 0%nat; split; [lia|exact X]); try (right; exists 1%nat; split; [lia|exact Y]);
        try (right; exists 2%nat; split; [lia|exact Z]);
        left; intros [|[|[|axis]]] Ha; cbn; rewrite ?X, ?Y, ?Z; auto; lia. }
    destruct DS as [DS|(axis & Ha & SP)]; [|eapply C27_spherical; eassumption].
    apply (C27_zero_iff lognorm L); auto. exists mid. split; [constructor|]. unfold rot_mul. rewrite mmul_1_r. reflexivity.
  - apply (mean_const _ _ _ te 0 M2). intros l m Hl Hm. apply filter_In in Hl. destruct Hl as [Hl _].
    apply (mean_const _ _ _ m 0 Hm). intros p v Hp Hv. destruct (S l p Hl Hp) as (_ & EP & _).
    unfold trans_value in Hv. rewrite Hv, EP. apply dist_zero. reflexivity.
Qed.

(** A detection a third of a half turn and 5 metres off, matched at 1/2 only. *)
Local Open Scope string_scope.
Example C57_example : forall lognorm, lognorm_ok lognorm ->
  let p q := (q, Symmetry none none none) : pose * symmetry in
  let sub : scene := [("a", mkElem "a" "chair" 1%Q true (p pose_id))] in
  let gt : scene := [("x", mkElem "x" "chair" 1%Q true (p (Pose (Rz (PI / 3)) (V 3 4 0))))] in
  (let* ev := evaluator_init (fun _ _ => (6#10)%Q) sub gt [1#2; 3#4]%Q ["chair"] in pose_error lognorm ev) = Ok (Some (PI / 3, 5)).
Proof.
  intros lognorm L p sub gt.
  assert (G : forall i j : pose * symmetry, exists ev,
    evaluator_init (fun _ _ => (6#10)%Q) [("a", mkElem "a" "chair" 1%Q true i)] [("x", mkElem "x" "chair" 1%Q true j)] [1#2; 3#4]%Q ["chair"] = Ok ev /\
    pose_error lognorm ev = (let* e := pair_errors lognorm (mkElem "a" "chair" 1%Q true i) (mkElem "x" "chair" 1%Q true j) in
      Ok (Some ((((fst e + 0) / 1 + 0) / 1), (((snd e + 0) / 1 + 0) / 1))))).
  { intros i j. eexists. split; [reflexivity|]. unfold pose_error, thresh_errors, corr_errors. cbn. destruct (pair_errors lognorm _ _); reflexivity. }
  destruct (G (p pose_id) (p (Pose (Rz (PI / 3)) (V 3 4 0)))) as (ev & E1 & E2). unfold sub, gt. rewrite E1. cbn [bind]. rewrite E2.
  unfold pair_errors, rotation_error_1. cbn [e_info p fst snd pR pt pose_id x_symmetry y_symmetry z_symmetry check_axes check_axis mapM bind].
  assert (P := PI_RGT_0).
  rewrite (error_single lognorm L mid (Rz (PI / 3)) (PI / 3)); auto using rotation_id, Rz_rotation.
  - cbn [bind fst snd]. do 3 f_equal; [field|]. replace (norm _) with 5; [field|]. unfold norm, vsub, dot; simpl.
    replace ((3 - 0) * (3 - 0) + (4 - 0) * (4 - 0) + (0 - 0) * (0 - 0)) with (5 * 5) by ring. symmetry. apply sqrt_square. lra.
  - split; [lra|]. exists (V 0 0 1). split; [unfold dot; simpl; ring|]. rewrite axis_angle_z, mmul_1_l. reflexivity.
Qed.

Print Assumptions C27_angle_exists_unique.
Print Assumptions C27_least_angle.
Print Assumptions C27_symmetry_invariant.
Print Assumptions C27_symmetric_and_frame_free.
Print Assumptions C27_zero_iff.
Print Assumptions C27_spherical.
Print Assumptions C27_unlisted_refuted.
Print Assumptions C28_x_axis.
Print Assumptions C28_y_axis_refuted.
Print Assumptions C28_z_axis_refuted.
Print Assumptions C28_x_least_refuted.
Print Assumptions C28_identical_refuted.
Print Assumptions C57_pose_error.
Print Assumptions C57_identical_poses.
