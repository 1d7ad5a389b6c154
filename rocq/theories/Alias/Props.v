(** Poses share their arrays (C87); scenes share their settings (C88). *)
From Coq Require Import Reals List Bool String Arith Lia Lra.
From Verif.Base Require Import Py Vec.
From Verif.Geom Require Import Model.
From Verif.Scene Require Import Model.
From Verif.Alias Require Import Model Spec Proofs Proofs2 Proofs3.
Import ListNotations.
Local Open Scope R_scope.
Local Open Scope list_scope.

(** * C87 *)

(** Without assignments to entries, the poses are what the operations compute. *)
Theorem C87_values : forall ops, Forall no_write ops ->
  match run ops with
  | Ok s => exists v, v_run ops = Ok v /\ map (pose_at (mem s)) (poses s) = v_poses v
  | Err e => v_run ops = Err e
  end.
Proof.
  intros ops F. assert (K := vrun_agree ops initial (VState [] []) F vinv_initial). unfold run, v_run. destruct (foldM step initial ops) as [s|e]; cbn [vagree] in K; [|exact K].
  destruct K as (v & E & (_ & _ & K & _)). exists v. tauto.
Qed.

(** Every pose of a running program has its origins. *)
Theorem C87_origins : forall ops j q, pose_of ops j = Ok q -> exists m, made_of ops j = Ok m.
Proof.
  intros ops j q H. destruct (pose_of_ok _ _ _ H) as (s & pr & E & X & _). destruct (run_made ops s E) as (p & Ep & (B & T & _ & Fp & _)).
  unfold made_of. rewrite Ep. cbn [bind]. eapply var_right; eassumption.
Qed.

(** p.translation()[a] = v changes the translation of exactly the poses whose translation
    has the same origin. *)
Theorem C87_translation : forall ops i j a v mi mj old, made_of ops i = Ok mi -> made_of ops j = Ok mj -> pose_of ops j = Ok old -> (a < 3)%nat ->
  exists new, pose_of (ops ++ [WriteT i a v]) j = Ok new /\ pR new = pR old /\
    (t_origin mi = t_origin mj -> set_coord (pt old) (pt new) a v) /\
    (t_origin mi <> t_origin mj -> pt new = pt old).
Proof.
  intros ops i j a v mi mj old Hi Hj H Ha. destruct (pose_of_ok _ _ _ H) as (s & pr & E & X & ->). destruct (run_made ops s E) as (p & Ep & (B & T & Bl & Fp & Fa)).
  destruct (made_of_ok _ _ _ Hi) as (p1 & Ep1 & Xi). destruct (made_of_ok _ _ _ Hj) as (p2 & Ep2 & Xj). assert (p1 = p) by congruence. assert (p2 = p) by congruence. subst p1 p2.
  destruct (var_left _ _ _ _ _ _ _ Fp Xi) as [pi Yi]. destruct (var_pair _ _ _ _ _ _ _ _ Fp Yi Xi) as (P1 & P2 & P3 & P4).
  exists (pose_at (store (mem s) (cell (t_cells pi) a) v) pr). split.
  - unfold pose_of, run in *. rewrite run_app, E. cbn [bind foldM step]. rewrite Yi. cbn [bind]. rewrite within_ok by exact Ha. cbn [bind poses mem]. rewrite X. reflexivity.
  - rewrite P2. exact (see_t B T _ _ (mem s) (t_origin mi) a v pr mj Bl (var_pair _ _ _ _ _ _ _ _ Fp X Xj) P4 Ha).
Qed.

(** p.rotation().matrix()[a, b] = v changes the rotation of exactly the poses whose
    rotation has the same origin; entry (b, a) if one of the two sees it transposed. *)
Theorem C87_rotation : forall ops i j a b v mi mj old, made_of ops i = Ok mi -> made_of ops j = Ok mj -> pose_of ops j = Ok old -> (a < 3)%nat -> (b < 3)%nat ->
  exists new, pose_of (ops ++ [WriteR i a b v]) j = Ok new /\ pt new = pt old /\
    (r_origin mi = r_origin mj -> flipped mi = flipped mj -> set_entry (pR old) (pR new) a b v) /\
    (r_origin mi = r_origin mj -> flipped mi <> flipped mj -> set_entry (pR old) (pR new) b a v) /\
    (r_origin mi <> r_origin mj -> pR new = pR old).
Proof.
  intros ops i j a b v mi mj old Hi Hj H Ha Hb. destruct (pose_of_ok _ _ _ H) as (s & pr & E & X & ->). destruct (run_made ops s E) as (p & Ep & (B & T & Bl & Fp & Fa)).
  destruct (made_of_ok _ _ _ Hi) as (p1 & Ep1 & Xi). destruct (made_of_ok _ _ _ Hj) as (p2 & Ep2 & Xj). assert (p1 = p) by congruence. assert (p2 = p) by congruence. subst p1 p2.
  destruct (var_left _ _ _ _ _ _ _ Fp Xi) as [pi Yi]. destruct (var_pair _ _ _ _ _ _ _ _ Fp Yi Xi) as (P1 & P2 & P3 & P4).
  exists (pose_at (store (mem s) (cell (r_cells pi) (3 * a + b)) v) pr). split.
  - unfold pose_of, run in *. rewrite run_app, E. cbn [bind foldM step]. rewrite Yi. cbn [bind]. rewrite !within_ok by assumption. cbn [bind poses mem]. rewrite X. reflexivity.
  - rewrite P1. destruct (see_r B T _ _ (mem s) (r_origin mi) (flipped mi) a b v pr mj Bl (var_pair _ _ _ _ _ _ _ _ Fp X Xj) P3 Ha Hb) as (S1 & S2 & S3).
    split; [exact S1|]. split; [|split; [|exact S3]].
    + intros O Fl. specialize (S2 O). rewrite Fl, eqb_reflx in S2. rewrite Fl. exact S2.
    + intros O Fl. specialize (S2 O). destruct (flipped mi), (flipped mj); try (exfalso; apply Fl; reflexivity); exact S2.
Qed.

(** T[a, b] = v changes the poses made from the array T, and theirs. *)
Theorem C87_array : forall ops k j a b v o mj old, array_made_of ops k = Ok o -> made_of ops j = Ok mj -> pose_of ops j = Ok old -> (a < 3)%nat -> (b < 4)%nat ->
  exists new, pose_of (ops ++ [WriteArray k a b v]) j = Ok new /\
    ((b < 3)%nat -> o = r_origin mj -> if flipped mj then set_entry (pR old) (pR new) b a v else set_entry (pR old) (pR new) a b v) /\
    (b = 3%nat -> o = t_origin mj -> set_coord (pt old) (pt new) a v) /\
    ((b = 3%nat \/ o <> r_origin mj) -> pR new = pR old) /\ (((b < 3)%nat \/ o <> t_origin mj) -> pt new = pt old).
Proof.
  intros ops k j a b v o mj old Hk Hj H Ha Hb. destruct (pose_of_ok _ _ _ H) as (s & pr & E & X & ->). destruct (run_made ops s E) as (p & Ep & (B & T & Bl & Fp & Fa)).
  destruct (array_made_of_ok _ _ _ Hk) as (p1 & Ep1 & Xk). destruct (made_of_ok _ _ _ Hj) as (p2 & Ep2 & Xj). assert (p1 = p) by congruence. assert (p2 = p) by congruence. subst p1 p2.
  destruct (var_left _ _ _ _ _ _ _ Fa Xk) as [l Yk]. destruct (var_pair _ _ _ _ _ _ _ _ Fa Yk Xk) as (P1 & P2 & P3 & P4).
  exists (pose_at (store (mem s) (cell l (4 * a + b)) v) pr). split.
  - unfold pose_of, run in *. rewrite run_app, E. cbn [bind foldM step]. rewrite Yk. cbn [bind]. rewrite !within_ok by assumption. cbn [bind poses mem]. rewrite X. reflexivity.
  - destruct (Nat.eq_dec b 3) as [-> | Nb].
    + replace (cell l (4 * a + 3)) with (cell (T o) a) by (rewrite <- P2; destruct a as [|[|[|a]]]; [reflexivity|reflexivity|reflexivity|lia]).
      destruct (see_t B T _ _ (mem s) o a v pr mj Bl (var_pair _ _ _ _ _ _ _ _ Fp X Xj) ltac:(rewrite <- P2; reflexivity) Ha) as (S1 & S2 & S3).
      split; [lia|]. split; [intros _; exact S2|]. split; [intros _; exact S1|]. intros [C|C]; [lia|exact (S3 C)].
    + replace (cell l (4 * a + b)) with (cell (flip false (B o)) (3 * a + b)).
      2:{ cbn [flip]. rewrite <- P1. destruct a as [|[|[|a]]]; [| | |lia]; destruct b as [|[|[|b]]]; try reflexivity; lia. }
      destruct (see_r B T _ _ (mem s) o false a b v pr mj Bl (var_pair _ _ _ _ _ _ _ _ Fp X Xj) ltac:(rewrite <- P1; reflexivity) Ha ltac:(lia)) as (S1 & S2 & S3).
      split; [|split; [lia|split; [|intros _; exact S1]]].
      * intros _ O. specialize (S2 O). destruct (flipped mj); exact S2.
      * intros [C|C]; [lia|exact (S3 C)].
Qed.

(** Pose3() is the identity as long as no assignment goes to the arrays of another
    pose made from the defaults ... *)
Theorem C87_default : forall ops, spares_default (PState 0 [] []) ops -> forall s, run ops = Ok s ->
  pose_of (ops ++ [NewPose]) (List.length (poses s)) = Ok pose_id.
Proof.
  intros ops W s E. assert (D : pose_default (mem s)).
  { eapply (spare_run ops initial (PState 0 [] [])); [apply inv_initial|constructor| |exact W|exact E]. split; [cbn; lia|]. intros a Ha. reflexivity. }
  unfold pose_of, run in *. rewrite run_app, E. cbn [bind foldM step poses add_pose mem]. rewrite var_app_new. cbn [bind]. f_equal.
  destruct D as [_ D]. unfold pose_at, mat_at, vec_at, pose_id, cell; cbn [r_cells t_cells]. rewrite !D by (cbn; lia). reflexivity.
Qed.
(** ... but not always: *)
Theorem C87_default_refuted : exists ops q, pose_of (ops ++ [NewPose]) 1 = Ok q /\ q <> pose_id /\ Forall (fun o => o = NewPose \/ exists a v, o = WriteT 0 a v) ops.
Proof.
  exists [NewPose; WriteT 0 0 5]. eexists. split; [reflexivity|]. split.
  - intro E. assert (F := f_equal (fun q => vx (pt q)) E). cbn in F. lra.
  - constructor; [left; reflexivity|constructor; [right; exists 0%nat, 5; reflexivity|constructor]].
Qed.
(** The inverse of a pose changes with the pose, into something that is not its inverse. *)
Theorem C87_inverse_refuted : exists ops p q, pose_of ops 0 = Ok p /\ pose_of ops 1 = Ok q /\ (exists r t v, ops = [NewFrom r t; Inverse 0; WriteR 0 0 1 v]) /\
  entry (pR q) 1 0 = 7 /\ q <> inverse p.
Proof.
  exists [NewFrom mid (V 1 2 3); Inverse 0; WriteR 0 0 1 7]. eexists. eexists. split; [reflexivity|]. split; [reflexivity|].
  split; [exists mid, (V 1 2 3), 7; reflexivity|]. split; [reflexivity|]. intro E. assert (F := f_equal (fun q => vy (pt q)) E). cbn in F. lra.
Qed.
(** Copies, compositions and new poses have arrays of their own. *)
Theorem C87_own : forall ops o p, p_run ops = Ok p -> (exists i, o = DeepCopy i) \/ (exists i j, o = Compose i j) \/ (exists r t, o = NewFrom r t) ->
  forall p', p_run (ops ++ [o]) = Ok p' -> exists m, var (p_poses p') (List.length (p_poses p)) = Ok m /\
    forall i mi, var (p_poses p) i = Ok mi -> r_origin m <> r_origin mi /\ t_origin m <> t_origin mi.
Proof.
  intros ops o p E Ho p' E'.
  assert (Old : forall i mi, var (p_poses p) i = Ok mi -> (forall n, r_origin mi = Made n -> (n < p_count p)%nat) /\ (forall n, t_origin mi = Made n -> (n < p_count p)%nat)).
  { clear E' Ho. revert p E. assert (G : forall ops p p', (forall m, In m (p_poses p) -> (forall n, r_origin m = Made n -> (n < p_count p)%nat) /\ (forall n, t_origin m = Made n -> (n < p_count p)%nat)) ->
        (forall n, In (Made n) (p_arrays p) -> (n < p_count p)%nat) -> foldM p_step p ops = Ok p' ->
        (forall m, In m (p_poses p') -> (forall n, r_origin m = Made n -> (n < p_count p')%nat) /\ (forall n, t_origin m = Made n -> (n < p_count p')%nat))).
    { clear. induction ops as [|o ops IH]; intros p p' H A E; cbn [foldM] in E; [injection E as <-; exact H|].
      destruct (p_step p o) as [p1|] eqn:E1; cbn [bind] in E; [|discriminate].
      assert (U : forall m, In m (p_poses p) -> (forall n, r_origin m = Made n -> (n < S (p_count p))%nat) /\ (forall n, t_origin m = Made n -> (n < S (p_count p))%nat)).
      { intros m Hm. destruct (H m Hm) as [U1 U2]. split; intros n Hn; [apply U1 in Hn|apply U2 in Hn]; lia. }
      apply (IH p1 p'); [| |exact E].
      - destruct o; cbn [p_step] in E1; repeat match type of E1 with context [var ?x ?y] => let X := fresh "X" in destruct (var x y) eqn:X; cbn [bind] in E1; [|discriminate] end;
          apply Ok_inj in E1; subst p1; cbn [p_poses p_count p_add]; try exact U; intros m Hm; (apply in_app_or in Hm; destruct Hm as [Hm|[<-|[]]]; [exact (U m Hm)|]);
          cbn [r_origin t_origin]; split; intros n Hn; try discriminate; try (injection Hn as <-; lia);
          repeat match goal with X : var (p_poses p) _ = Ok _ |- _ => apply var_ok_in in X; apply U in X; destruct X as [? ?]; eauto end;
          try (apply var_ok_in in X; subst; apply A in X; lia); eauto.
      - destruct o; cbn [p_step] in E1; repeat match type of E1 with context [var ?x ?y] => let X := fresh "X" in destruct (var x y) eqn:X; cbn [bind] in E1; [|discriminate] end;
          apply Ok_inj in E1; subst p1; cbn [p_arrays p_count p_add]; try (intros n Hn; apply A in Hn; lia).
        intros n Hn. apply in_app_or in Hn. destruct Hn as [Hn|[Hn|[]]]; [apply A in Hn; lia|injection Hn as <-; lia]. }
    intros p E i mi Hm. eapply (G ops (PState 0 [] []) p); [intros m []|intros n []|exact E|eapply var_ok_in, Hm]. }
  assert (K : exists m, p_poses p' = p_poses p ++ [m] /\ r_origin m = Made (p_count p) /\ t_origin m = Made (p_count p)).
  { unfold p_run in *. rewrite run_app, E in E'. cbn [bind foldM] in E'. exists (From (Made (p_count p)) false (Made (p_count p))).
    destruct Ho as [[i ->]|[(i & j & ->)|(r & t & ->)]]; cbn [p_step] in E';
      repeat match type of E' with context [var ?x ?y] => destruct (var x y); cbn [bind] in E'; [|discriminate] end; injection E' as <-; cbn; tauto. }
  destruct K as (m & -> & R1 & R2). exists m. split; [apply var_app_new|]. intros i mi Hi. destruct (Old i mi Hi) as [U1 U2]. rewrite R1, R2.
  split; intro Q; symmetry in Q; [apply U1 in Q|apply U2 in Q]; lia.
Qed.

Example C87_example :
  let ops := [NewFrom mid (V 1 2 3); Inverse 0; DeepCopy 0; Share 1 0; NewArray (V 1 0 0) (V 0 1 0) (V 0 0 1) (V 4 5 6); FromArray 0] in
  made_of ops 0 = Ok (From (Made 0) false (Made 0)) /\ made_of ops 1 = Ok (From (Made 0) true (Made 1)) /\
  made_of ops 2 = Ok (From (Made 2) false (Made 2)) /\ made_of ops 3 = Ok (From (Made 0) true (Made 0)) /\ made_of ops 4 = Ok (From (Made 4) false (Made 4)) /\
  pose_of (ops ++ [WriteR 0 0 1 7]) 3 = Ok (Pose (M33 1 0 0 7 1 0 0 0 1) (V 1 2 3)) /\
  pose_of (ops ++ [WriteArray 0 1 3 9]) 4 = Ok (Pose mid (V 4 9 6)).
Proof. vm_compute. repeat split. Qed.

(** * C88 *)

(** scene.settings[k] = v changes the settings of exactly the scenes with the same
    dictionary: those made without settings (ProjectScene(type), transform_pose), or made
    from each other's. *)
Theorem C88_visible : forall ops i j k v old, settings_of ops j = Ok old -> (exists c, settings_of ops i = Ok c) ->
  exists new, settings_of (ops ++ [Set_ i k v]) j = Ok new /\
    (group_of ops i = group_of ops j -> new = sset k v old) /\ (group_of ops i <> group_of ops j -> new = old).
Proof. exact set_visible. Qed.

(** A new scene, and a moved one, has the default settings as long as nobody assigned to
    the settings of such a scene ... *)
Theorem C88_default : forall ops s o, spares_settings ops -> scene_run ops = Ok s -> o = NewScene \/ (exists i c, o = TransformScene i /\ settings_of ops i = Ok c) ->
  settings_of (ops ++ [o]) (List.length (scenes s)) = Ok default_settings.
Proof.
  intros ops s o W E Ho. assert (K := kept_default ops s E W). unfold settings_of, scene_run in *. rewrite run_app, E. cbn [bind].
  assert (R : foldM scene_step s [o] = Ok (Scenes (dicts s) (scenes s ++ [0%nat]))).
  { destruct Ho as [-> | (i & c & -> & H)]; [reflexivity|]. rewrite E in H. cbn [bind] in H. unfold scene_settings in H. cbn [foldM scene_step]. destruct (var (scenes s) i); [reflexivity|discriminate]. }
  rewrite R. cbn [bind]. unfold scene_settings; cbn [scenes dicts]. rewrite var_app_new. exact K.
Qed.
(** ... a converted one has those of the scene it is made from. *)
Theorem C88_convert : forall ops s i c, scene_run ops = Ok s -> settings_of ops i = Ok c -> settings_of (ops ++ [ConvertScene i]) (List.length (scenes s)) = Ok c.
Proof.
  intros ops s i c E H. destruct (settings_of_ok _ _ _ H) as (s1 & d & E1 & X & Y). assert (s1 = s) by congruence. subst s1.
  unfold settings_of, scene_run in *. rewrite run_app, E. cbn [bind foldM scene_step]. rewrite X. cbn [bind]. rewrite Y. cbn [bind]. unfold scene_settings; cbn [scenes dicts]. rewrite var_app_new. cbn [bind]. apply var_app_new.
Qed.
(** Moving a scene does not keep its settings. *)
Theorem C88_transform_refuted : exists ops c d, settings_of ops 0 = Ok c /\ settings_of (ops ++ [TransformScene 0]) 1 = Ok d /\ sget "version"%string c <> sget "version"%string d.
Proof. exists [NewSceneWith [("version"%string, Some "1.0"%string)]]. eexists. eexists. split; [reflexivity|]. split; [reflexivity|]. vm_compute. discriminate. Qed.
(** A new scene has the settings someone assigned to another one. *)
Theorem C88_default_refuted : exists ops c, settings_of ops 1 = Ok c /\ c <> default_settings /\ ops = [NewScene; Set_ 0 "version"%string (Some "9"%string); NewScene].
Proof. eexists. eexists. split; [|split; [|reflexivity]]; [reflexivity|]. vm_compute. discriminate. Qed.

Example C88_example :
  let ops := [NewScene; NewSceneWith [("version"%string, Some "1.0"%string)]; ConvertScene 1; ShareSettings 1; TransformScene 1] in
  map (group_of ops) [0; 1; 2; 3; 4]%nat = [Ok None; Ok (Some 1%nat); Ok (Some 2%nat); Ok (Some 1%nat); Ok None] /\
  settings_of (ops ++ [Set_ 3 "a"%string None]) 1 = Ok [("version"%string, Some "1.0"%string); ("a"%string, None)] /\
  settings_of (ops ++ [Set_ 3 "a"%string None]) 2 = Ok [("version"%string, Some "1.0"%string)].
Proof. vm_compute. repeat split. Qed.

Print Assumptions C87_values.
Print Assumptions C87_origins.
Print Assumptions C87_translation.
Print Assumptions C87_rotation.
Print Assumptions C87_array.
Print Assumptions C87_default.
Print Assumptions C87_default_refuted.
Print Assumptions C87_inverse_refuted.
Print Assumptions C87_own.
Print Assumptions C88_visible.
Print Assumptions C88_default.
Print Assumptions C88_convert.
Print Assumptions C88_transform_refuted.
Print Assumptions C88_default_refuted.
