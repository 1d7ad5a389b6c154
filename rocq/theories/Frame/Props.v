(** Property C78: the names of the objects and the coordinate frame do not matter. *)
From Coq Require Import Reals Lra Lia List Bool String QArith.
From Verif.Base Require Import Py PyFacts Vec.
From Verif.Assoc Require Import Model.
From Verif.AP Require Import Model.
From Verif.Scores Require Import Model.
From Verif.Geom Require Import Model Spec Proofs.
From Verif.Box Require Import Model Spec.
From Verif.Symm Require Import Model Spec Proofs.
From Verif.Points Require Import Model Spec Proofs Props.
From Verif.PoseErr Require Import Model Spec Proofs Props.
From Verif.Percept Require Import Model Spec Proofs Props.
From Verif.Frame Require Import Spec Proofs MoveProofs.
Import ListNotations.
Local Open Scope string_scope.
Local Open Scope list_scope.
Local Open Scope R_scope.

(** Partners, with what is known of them. *)
Lemma scene_rel : forall A B f (P : elem A -> elem B -> Prop) (s : @scene A) (s' : @scene B), relabelled_scene f s s' ->
  (forall e e', partners s s' e e' -> relabelled f e e' -> P e e') -> dict_rel f P s s'.
Proof.
  intros A B f P s s' F H. apply rel_in in F. unfold dict_rel. revert F.
  assert (W : forall l l', Forall2 (fun x y => In (x, y) (combine s s') /\ fst y = f (fst x) /\ relabelled f (snd x) (snd y)) l l' ->
    Forall2 (fun x y => fst y = f (fst x) /\ P (snd x) (snd y)) l l').
  { intros l l' F. induction F as [|[k e] [k' e'] l l' [I [K R]] F IH]; constructor; [|exact IH].
    split; [exact K|]. apply H; [exists k, k'; exact I|exact R]. }
  apply W.
Qed.

Lemma redescribed_relabelled : forall A B f (m : A -> B) s, relabelled_scene f s (redescribed f m s).
Proof.
  intros A B f m s. unfold relabelled_scene, redescribed. induction s as [|[k e] s IH]; constructor; [|exact IH].
  cbn. unfold relabelled. cbn. auto.
Qed.
Lemma redescribed_partners : forall A B f (m : A -> B) s e e', partners s (redescribed f m s) e e' -> In e (dvalues s) /\ e_info e' = m (e_info e).
Proof.
  intros A B f m s e e' (k & k' & I). unfold dvalues. induction s as [|[x a] s IH]; cbn in I; [destruct I|].
  destruct I as [E|I]; [injection E as <- <- <- <-; cbn; auto|]. destruct (IH I). cbn. auto.
Qed.

(** What all of the following have in common. *)
Lemma described : forall A B (f h : string -> string) (sim : elem A -> elem A -> Q) (sim' : elem B -> elem B -> Q) sub sub' gt gt' ts cats (P : _ -> _ -> Prop),
  injective f -> injective h -> relabelled_scene f sub sub' -> relabelled_scene h gt gt' -> same_similarities sim sim' sub sub' gt gt' ->
  (forall ev ev', same_matches f h ev ev' ->
    dict_rel f (fun e e' => partners sub sub' e e' /\ relabelled f e e') (ev_submission ev) (ev_submission ev') ->
    dict_rel h (fun e e' => partners gt gt' e e' /\ relabelled h e e') (ev_ground_truth ev) (ev_ground_truth ev') -> P ev ev') ->
  same_outcome P (evaluator_init sim sub gt ts cats) (evaluator_init sim' sub' gt' ts cats).
Proof.
  intros A B f h sim sim' sub sub' gt gt' ts cats P Jf Jh RS RG SS H.
  assert (FD := scene_rel _ _ f (fun e e' => partners sub sub' e e' /\ relabelled f e e') sub sub' RS (fun e e' a b => conj a b)).
  assert (FG := scene_rel _ _ h (fun e e' => partners gt gt' e e' /\ relabelled h e e') gt gt' RG (fun e e' a b => conj a b)).
  set (D := fun e e' => partners sub sub' e e' /\ relabelled f e e') in *. set (G := fun e e' => partners gt gt' e e' /\ relabelled h e e') in *.
  assert (I := init_rel f h Jf Jh sim sim' D G (fun d d' X => proj2 X) (fun g g' X => proj2 X)
                 (fun d d' g g' X Y => SS d d' g g' (proj1 X) (proj1 Y)) sub sub' gt gt' ts cats FD FG).
  destruct (evaluator_init sim sub gt ts cats) as [ev|], (evaluator_init sim' sub' gt' ts cats) as [ev'|]; cbn in *; try assumption.
  destruct I as (SM & E1 & E2 & E3 & E4). apply H; [exact SM| |]; congruence.
Qed.

Ltac rels L FD FG := match type of FD with dict_rel ?f0 ?D0 _ _ => match type of FG with dict_rel ?h0 ?G0 _ _ => eapply L with (f := f0) (h := h0) (D := D0) (G := G0) end end;
  [..|eassumption|exact FD|exact FG|]; try assumption; try (intros ? ? [_ X]; exact X).
Ltac rels' L FD FG := match type of FD with dict_rel ?f0 ?D0 _ _ => match type of FG with dict_rel ?h0 ?G0 _ _ => eapply L with (f := f0) (h := h0) (D := D0) (G := G0) end end;
  [..|eassumption|exact FD|exact FG]; try assumption; try (intros ? ? [_ X]; exact X).

(** The matches are the same under the new names, or the constructor raises the same
    exception. *)
Theorem C78_matches : forall A B (f h : string -> string) (sim : elem A -> elem A -> Q) (sim' : elem B -> elem B -> Q) sub sub' gt gt' ts cats,
  injective f -> injective h -> relabelled_scene f sub sub' -> relabelled_scene h gt gt' -> same_similarities sim sim' sub sub' gt gt' ->
  same_outcome (same_matches f h) (evaluator_init sim sub gt ts cats) (evaluator_init sim' sub' gt' ts cats).
Proof. intros. apply described with f h; auto. Qed.

(** Shape and semantics scores. *)
Theorem C78_scores : forall argsort A B (f h : string -> string) (sim : elem A -> elem A -> Q) (sim' : elem B -> elem B -> Q) sub sub' gt gt' ts cats,
  injective f -> injective h -> relabelled_scene f sub sub' -> relabelled_scene h gt gt' -> same_similarities sim sim' sub sub' gt gt' ->
  same_outcome (fun ev ev' => shape_score argsort ev' = shape_score argsort ev /\ semantics_score argsort ev' = semantics_score argsort ev)
    (evaluator_init sim sub gt ts cats) (evaluator_init sim' sub' gt' ts cats).
Proof.
  intros. apply described with f h; auto. intros ev ev' SM FD FG. split.
  - rels' @shape_rel FD FG.
  - rels' @semantics_rel FD FG.
Qed.

(** The mesh track: the points of both scenes are moved by the same rigid motion. *)
Theorem C78_mesh_track : forall query argsort T thresh (f h : string -> string) sub gt ts cats,
  query_ok query -> rotation (pR T) -> injective f -> injective h ->
  same_outcome (fun ev ev' => same_matches f h ev ev' /\
      shape_score argsort ev' = shape_score argsort ev /\ semantics_score argsort ev' = semantics_score argsort ev /\
      points_rmsssd query (fun p => p) ev' = points_rmsssd query (fun p => p) ev)
    (evaluator_init (mesh_similarity query thresh) sub gt ts cats)
    (evaluator_init (mesh_similarity query thresh) (redescribed f (moved_points T) sub) (redescribed h (moved_points T) gt) ts cats).
Proof.
  intros query argsort T thresh f h sub gt ts cats HQ HT Jf Jh. apply described with f h; auto using redescribed_relabelled.
  - intros d d' g g' PD PG. apply redescribed_partners in PD, PG. apply (similarity_moved T HT query HQ); tauto.
  - intros ev ev' SM FD FG. split; [exact SM|]. split; [|split].
    + rels' @shape_rel FD FG.
    + rels' @semantics_rel FD FG.
    + rels @average_rel FD FG.
      intros d d' g g' [PD _] [PG _]. apply redescribed_partners in PD, PG. destruct PD as [_ ->], PG as [_ ->].
      symmetry. apply (surface_moved T HT query HQ).
Qed.

(** The symmetry of a ground truth element does not depend on the frame: two-fold and
    four-fold axes, and balls. *)
Definition frame_free (s : symmetry) : Prop := accepted s /\ (discrete s \/ exists axis, (axis < 3)%nat /\ sym_of s axis = spherical).

Lemma errors_moved : forall lognorm, lognorm_ok lognorm -> forall T, rotation (pR T) -> forall d d' g g' : elem (pose * symmetry),
  rotation (pR (fst (e_info d))) -> rotation (pR (fst (e_info g))) -> frame_free (snd (e_info g)) ->
  e_info d' = (moved_pose T (fst (e_info d)), snd (e_info d)) -> e_info g' = (moved_pose T (fst (e_info g)), snd (e_info g)) ->
  pair_errors lognorm d g = pair_errors lognorm d' g'.
Proof.
  intros lognorm L T HT d d' g g' Hd Hg (A & S) Ed Eg. unfold pair_errors. rewrite Ed, Eg. cbn [fst snd]. rewrite (move_difference T HT).
  assert (E : rotation_error_1 lognorm (pR (moved_pose T (fst (e_info d)))) (pR (moved_pose T (fst (e_info g)))) (snd (e_info g)) =
              rotation_error_1 lognorm (pR (fst (e_info d))) (pR (fst (e_info g))) (snd (e_info g))); [|rewrite E; reflexivity].
  destruct S as [D|(axis & I & S)].
  - apply (proj2 (C27_symmetric_and_frame_free lognorm L _ _ _ Hd Hg A D) _ HT).
  - rewrite !(C27_spherical _ _ _ _ _ A I S). reflexivity.
Qed.

(** The pose error. *)
Theorem C78_pose_error : forall lognorm, lognorm_ok lognorm -> forall T (f h : string -> string) sim sim' sub gt ts cats,
  rotation (pR T) -> injective f -> injective h ->
  (forall d, In d (dvalues sub) -> rotation (pR (fst (e_info d)))) ->
  (forall g, In g (dvalues gt) -> rotation (pR (fst (e_info g))) /\ frame_free (snd (e_info g))) ->
  let move := fun ps : pose * symmetry => (moved_pose T (fst ps), snd ps) in
  same_similarities sim sim' sub (redescribed f move sub) gt (redescribed h move gt) ->
  same_outcome (fun ev ev' => pose_error lognorm ev' = pose_error lognorm ev)
    (evaluator_init sim sub gt ts cats) (evaluator_init sim' (redescribed f move sub) (redescribed h move gt) ts cats).
Proof.
  intros lognorm L T f h sim sim' sub gt ts cats HT Jf Jh Hs Hg move SS. apply described with f h; auto using redescribed_relabelled.
  intros ev ev' SM FD FG. rels @pose_rel FD FG.
  intros d d' g g' [PD _] [PG _]. apply redescribed_partners in PD, PG. destruct PD as [ID ED], PG as [IG EG]. destruct (Hg _ IG).
  apply (errors_moved lognorm L T HT); auto.
Qed.

(** Not for cylinders: their error depends on the frame. *)
Theorem C78_pose_cylindrical_refuted : forall lognorm, lognorm_ok lognorm -> exists d g s q,
  rotation d /\ rotation g /\ rotation q /\ accepted s /\
  rotation_error_1 lognorm d g s = Ok (PI / 3) /\ rotation_error_1 lognorm (mmul q d) (mmul q g) s = Ok 0.
Proof.
  intros lognorm L. assert (P := PI_RGT_0).
  assert (Ht : rotation tipped) by apply Rx_rotation.
  set (d := mmul tipped (Ry (PI / 3))). assert (Hd : rotation d) by (apply rotation_mmul; [exact Ht|apply Ry_rotation]).
  exists d, tipped, (Symmetry none cylindrical none), (mtr tipped).
  assert (Ed : d = euler_to_matrix (PI / 3, 0, PI / 2)).
  { unfold d, tipped, euler_to_matrix, rot_mul. rewrite Ry_0, mmul_1_r. unfold Rx, Ry, Rz, FromScalars. rewrite cos_PI2, sin_PI2.
    apply mat_eq; simpl; ring. }
  split; [exact Hd|]. split; [exact Ht|]. split; [apply rotation_mtr, Ht|]. split; [apply valid_documented; reflexivity|].
  unfold rotation_error_1, rot_mul. cbn [x_symmetry y_symmetry z_symmetry check_axes check_axis mapM bind]. split.
  - rewrite Ed at 1. rewrite tipped_euler at 1. rewrite cyl_eval by lra. cbn [bind]. rewrite <- tipped_euler.
    apply (error_single lognorm L); auto. apply angle_sym; auto. split; [lra|].
    exists (V 0 1 0). split; [unfold dot; simpl; ring|]. rewrite axis_angle_y. reflexivity.
  - assert (E1 : mmul (mtr tipped) tipped = mid) by apply Ht.
    assert (E2 : mmul (mtr tipped) d = Ry (PI / 3)) by (unfold d; rewrite <- mmul_assoc, E1; apply mmul_1_l).
    rewrite E1, E2.
    assert (M1 : mid = euler_to_matrix (0, 0, 0)) by (unfold euler_to_matrix, rot_mul; rewrite Rx_0, Ry_0, Rz_0, !mmul_1_l; reflexivity).
    assert (M2 : Ry (PI / 3) = euler_to_matrix (0, PI / 3, 0)) by (unfold euler_to_matrix, rot_mul; rewrite Rx_0, Rz_0, mmul_1_l, mmul_1_r; reflexivity).
    rewrite M1, M2 at 1. rewrite cyl_eval by lra. cbn [bind]. rewrite <- M2.
    apply (error_single lognorm L); auto using self_angle, Ry_rotation.
Qed.

(** The perceptual score: a turn about the vertical axis, and any shift. *)
Theorem C78_perceptual : forall T (f h : string -> string) sim sim' sub gt ts cats params,
  upright (pR T) -> injective f -> injective h ->
  let move := fun bp : box * pose => (fst bp, moved_pose T (snd bp)) in
  same_similarities sim sim' sub (redescribed f move sub) gt (redescribed h move gt) ->
  same_outcome (fun ev ev' => perceptual_score ev' params = perceptual_score ev params)
    (evaluator_init sim sub gt ts cats) (evaluator_init sim' (redescribed f move sub) (redescribed h move gt) ts cats).
Proof.
  intros T f h sim sim' sub gt ts cats params U Jf Jh move SS. apply described with f h; auto using redescribed_relabelled.
  intros ev ev' SM FD FG. rels' @perceptual_rel FD FG.
  - intros d d' [X _]. apply redescribed_partners in X. unfold e_bounds. destruct X as [_ ->]. reflexivity.
  - intros d d' [X _]. apply redescribed_partners in X. unfold e_bounds. destruct X as [_ ->]. reflexivity.
  - intros d d' g g' [X _] [Y _]. apply redescribed_partners in X, Y. destruct X as [_ X], Y as [_ Y]. unfold e_t. rewrite X, Y.
    apply (upright_difference T U).
Qed.

(** Not when the frame is tilted: a shift by 1 along x costs more once it is a shift
    along y. *)
Definition ex_slab (m : mat) (x y : R) : @scene (box * pose) := [("f", mkElem "f" "floor" 1 true (Box (V 0 0 0) (V 4 1 4), Pose m (V x y 0)))].
Definition ex_corr : corr := mkCorr "f" "f" 1 1 true.
Definition ex_slab_evaluator (m : mat) (x y : R) : @evaluator (box * pose) :=
  mkEvaluator [1#2]%Q ["floor"] (ex_slab m x y) (ex_slab m 0 0) [("f", [("f", ex_corr)])] [((1#2)%Q, [("f", ex_corr)])] [("floor", [((1#2)%Q, [("f", ex_corr)])])].

Lemma slab_score : forall m x y, evaluator_init ex_like (ex_slab m x y) (ex_slab m 0 0) [1#2]%Q ["floor"] = Ok (ex_slab_evaluator m x y) /\
  perceptual_score (ex_slab_evaluator m x y) default_perceptual =
  Ok (Some ((110 + bell (p_translation default_perceptual) (sqrt (x * x)) + bell (p_elevation default_perceptual) y) / 120)).
Proof.
  intros m x y. split; [reflexivity|].
  unfold perceptual_score, perceptual_step, _perceptual_score_1.
  set (ev := ex_slab_evaluator m x y).
  assert (RS : _room_scale ev = 1).
  { unfold _room_scale. cbn. unfold area. cbn. destruct (Rlt_dec 0 _) as [L|L]; [field|exfalso; apply L; lra]. }
  rewrite RS. cbn. assert (V16 : volume (Box (V 0 0 0) (V 4 1 4)) = 16) by (unfold volume; cbn; ring). rewrite V16.
  assert (PK : forall w m s, s <> 0 -> bell (Gaussian w m s) m = w).
  { intros w k s S. unfold bell. cbn. replace (_ / _) with 0 by (field; exact S). rewrite exp_0. ring. }
  rewrite !gaussian_ok by (cbn; lra). cbn [bind].
  destruct (Rlt_dec 0 16) as [_|L]; [|lra]. replace (16 / 16) with 1 by field. cbn [bind fst snd].
  destruct (Rlt_dec 0 (16 * 1)) as [_|L]; [|lra]. replace (16 / (16 * 1)) with 1 by field. cbn [bind fst snd].
  rewrite !PK by lra. replace ((x - 0) * (x - 0) + (0 - 0) * (0 - 0)) with (x * x) by ring. replace (y - 0) with y by ring.
  assert (B1 := bell_bounds (Gaussian 5 0 (5 / 10)) (sqrt (x * x)) ltac:(cbn; lra) ltac:(cbn; lra)).
  assert (B2 := bell_bounds (Gaussian 5 0 (5 / 1000)) y ltac:(cbn; lra) ltac:(cbn; lra)). cbn [weight] in B1, B2.
  set (b1 := bell _ (sqrt (x * x))) in *. set (b2 := bell _ y) in *.
  destruct (Rle_dec _ 0) as [L|_]; [lra|]. destruct (Req_EM_T _ 0) as [L|_]; [lra|]. cbn. do 2 f_equal. field.
Qed.

Theorem C78_perceptual_tilt_refuted : exists T sub gt ev ev' a b, rotation (pR T) /\
  let move := fun bp : box * pose => (fst bp, moved_pose T (snd bp)) in
  let same := fun x : string => x in
  same_similarities ex_like ex_like sub (redescribed same move sub) gt (redescribed same move gt) /\
  evaluator_init ex_like sub gt [1#2]%Q ["floor"] = Ok ev /\
  evaluator_init ex_like (redescribed same move sub) (redescribed same move gt) [1#2]%Q ["floor"] = Ok ev' /\
  perceptual_score ev default_perceptual = Ok (Some a) /\ perceptual_score ev' default_perceptual = Ok (Some b) /\ b < a.
Proof.
  set (T := Pose (Rz (PI / 2)) vzero).
  assert (M : forall x, redescribed (fun x : string => x) (fun bp : box * pose => (fst bp, moved_pose T (snd bp))) (ex_slab mid x 0) = ex_slab (Rz (PI / 2)) 0 x).
  { intros x. unfold redescribed, ex_slab, moved_pose, T. cbn [map fst snd e_id e_category e_score e_evaluated e_info pR pt]. rewrite mmul_1_r.
    do 6 f_equal. unfold Rz, FromScalars. rewrite cos_PI2, sin_PI2. apply vec_eq; cbn; ring. }
  exists T, (ex_slab mid 1 0), (ex_slab mid 0 0), (ex_slab_evaluator mid 1 0), (ex_slab_evaluator (Rz (PI / 2)) 0 1).
  eexists. eexists. split; [apply Rz_rotation|]. cbv zeta. rewrite !M.
  split; [|split; [apply slab_score|]; split; [apply slab_score|]; split; [apply slab_score|]; split; [apply slab_score|]].
  - intros d d' g g' (k & k' & [D|[]]) (l & l' & [G|[]]). injection D as <- <- <- <-. injection G as <- <- <- <-. reflexivity.
  - replace (1 * 1) with 1 by ring. rewrite sqrt_1. replace (0 * 0) with 0 by ring. rewrite sqrt_0. unfold bell. cbn.
    replace (- ((0 - 0) * (0 - 0)) / (2 * (5 / 10 * (5 / 10)))) with 0 by field.
    replace (- ((0 - 0) * (0 - 0)) / (2 * (5 / 1000 * (5 / 1000)))) with 0 by field.
    assert (E : exp (- ((1 - 0) * (1 - 0)) / (2 * (5 / 1000 * (5 / 1000)))) < exp (- ((1 - 0) * (1 - 0)) / (2 * (5 / 10 * (5 / 10))))).
    { apply exp_increasing. lra. }
    rewrite exp_0. lra.
Qed.

(** Example: a room and the same room turned by 90 degrees, shifted and with new names. *)
Definition ex_turn : pose := Pose (Ry (PI / 2)) (V 3 2 1).
Example C78_example : injective (append "new") /\ upright (pR ex_turn) /\
  (forall v, mvec (pR ex_turn) v = V (vz v) (vy v) (- vx v)) /\
  dkeys (redescribed (append "new") (fun bp : box * pose => (fst bp, moved_pose ex_turn (snd bp))) ex_room) = ["newf"; "newc"] /\
  (forall rs, moved_points ex_turn (Row (V 1 0 0) [] :: rs) = Row (V 3 2 0) [] :: moved_points ex_turn rs) /\
  (evaluator_init ex_like ex_room ex_room [1#2]%Q ["chair"; "floor"] =
   Ok (mkEvaluator [1#2]%Q ["chair"; "floor"] ex_room ex_room
     [("f", [("f", mkCorr "f" "f" 1 1 true); ("c", mkCorr "f" "c" 0 1 true)]); ("c", [("f", mkCorr "c" "f" 0 (1#2) true); ("c", mkCorr "c" "c" 1 (1#2) true)])]
     [((1#2)%Q, [("f", mkCorr "f" "f" 1 1 true); ("c", mkCorr "c" "c" 1 (1#2) true)])]
     [("chair", [((1#2)%Q, [("c", mkCorr "c" "c" 1 (1#2) true)])]); ("floor", [((1#2)%Q, [("f", mkCorr "f" "f" 1 1 true)])])])).
Proof.
  assert (R : forall v, mvec (pR ex_turn) v = V (vz v) (vy v) (- vx v)).
  { intros v. unfold ex_turn, Ry, FromScalars. cbn [pR]. rewrite cos_PI2, sin_PI2. apply vec_eq; cbn; ring. }
  split; [intros x y E; cbn in E; congruence|]. split; [split; [apply Ry_rotation|intros v; rewrite R; reflexivity]|]. split; [exact R|].
  split; [reflexivity|]. split; [|reflexivity]. intros rs. unfold moved_points. cbn [map r_pos r_col]. rewrite R. do 2 f_equal.
  apply vec_eq; cbn; ring.
Qed.

Print Assumptions C78_matches.
Print Assumptions C78_scores.
Print Assumptions C78_mesh_track.
Print Assumptions C78_pose_error.
Print Assumptions C78_pose_cylindrical_refuted.
Print Assumptions C78_perceptual.
Print Assumptions C78_perceptual_tilt_refuted.
