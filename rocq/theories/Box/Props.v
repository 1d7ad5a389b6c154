(** C18-C21, C60: boxes, bounding boxes and box meshes. *)
From Coq Require Import Reals Lra List Bool Permutation Arith Lia.
From Verif.Base Require Import Py Vec.
From Verif.Geom Require Import Model Proofs.
From Verif.Box Require Import Model Spec Proofs.
Import ListNotations.
Open Scope R_scope.

(** C18: the constructor orders the corners and gives the smallest box holding both. *)
Theorem C18_constructor : forall c1 c2,
  normalized (mk_box c1 c2) /\ mk_box c1 c2 = mk_box c2 c1 /\
  inside (mk_box c1 c2) c1 /\ inside (mk_box c1 c2) c2 /\
  (forall u, inside u c1 -> inside u c2 -> box_le (mk_box c1 c2) u) /\
  (vle c1 c2 -> mk_box c1 c2 = Box c1 c2).
Proof.
  intros c1 c2. split; [apply mk_box_normalized|].
  split; [unfold mk_box, amin, amax, vmin2, vmax2; simpl; f_equal; apply vec_eq; simpl; (apply Rmin_comm || apply Rmax_comm)|].
  destruct (mk_box_inside c1 c2 vzero) as (A & B & _). split; [exact A|]. split; [exact B|].
  split; [intros u Hu Hv p; apply mk_box_inside; assumption|apply mk_box_ordered].
Qed.

Theorem C18_merge_least : forall bs, bs <> [] -> Forall normalized bs -> least_upper_box bs (merge bs).
Proof. exact merge_lub. Qed.

Theorem C18_merge_order_and_grouping :
  (forall bs bs', Forall normalized bs -> (forall b, In b bs <-> In b bs') -> merge bs = merge bs') /\
  (forall gs, gs <> [] -> Forall (fun g => g <> [] /\ Forall normalized g) gs ->
     merge (map merge gs) = merge (concat gs)).
Proof. split; [exact merge_same_members|exact merge_grouping]. Qed.

Theorem C18_merge_empty : merge [] = Box vzero vzero.
Proof. apply mk_box_ordered, vle_refl. Qed.

(** So merging with an empty group is not neutral: the origin gets in. *)
Theorem C18_empty_neutral_refuted : exists b, normalized b /\ merge [b; merge []] <> merge [b].
Proof.
  exists (Box (V 1 1 1) (V 2 2 2)).
  assert (N : normalized (Box (V 1 1 1) (V 2 2 2))) by (unfold normalized, vle; simpl; lra).
  split; [exact N|]. rewrite C18_merge_empty.
  rewrite !merge_corners; [|constructor; [exact N|constructor]|
    constructor; [exact N|constructor; [apply vle_refl|constructor]]].
  simpl. intro H. apply (f_equal (fun b => vx (min_corner b))) in H. simpl in H. rewrite Rmin_right in H; lra.
Qed.

Example C18_example : normalized (Box (V 0 0 0) (V 1 1 1)) /\
  merge [Box (V 0 0 0) (V 1 1 1); Box (V 2 (-1) 0) (V 3 2 0)] = Box (V 0 (-1) 0) (V 3 2 1).
Proof.
  split; [unfold normalized, vle; simpl; lra|].
  rewrite merge_corners by (repeat constructor; unfold normalized, vle; simpl; lra).
  unfold amin, amax, vmin2, vmax2; simpl.
  f_equal; apply vec_eq; simpl; ((rewrite Rmin_left by lra) || (rewrite Rmin_right by lra) || (rewrite Rmax_left by lra) || (rewrite Rmax_right by lra)); reflexivity.
Qed.

(** C19: bounding boxes of points and meshes are tight (and tight boxes are unique). *)
Theorem C19_point_cloud_tight : forall ps, ps <> [] -> tight (from_point_cloud ps) ps.
Proof. exact from_point_cloud_tight. Qed.

Theorem C19_tight_unique : forall b b' ps, tight b ps -> tight b' ps -> b = b'.
Proof. exact tight_unique. Qed.

Theorem C19_meshes_tight : forall ms, ms <> [] -> Forall (fun m => m <> []) ms ->
  tight (from_meshes ms) (concat ms).
Proof. intros ms Hn F. rewrite <- or_origin_nonempty by exact F. apply from_meshes_tight, Hn. Qed.

(** An empty mesh contributes the origin, whatever the other meshes are. *)
Theorem C19_empty_mesh_adds_origin : forall ms, In [] ms ->
  inside (from_meshes ms) vzero /\ tight (from_meshes ms) (vzero :: concat ms).
Proof.
  intros ms H. assert (Hn : ms <> []) by (intros ->; destruct H).
  destruct (from_meshes_tight ms Hn) as [I T].
  assert (K : forall p, In p (flat_map or_origin ms) <-> In p (vzero :: concat ms)).
  { intro p. simpl. rewrite in_flat_map, in_concat. split.
    - intros (m & Hm & Hp). destruct m as [|q m]; simpl in Hp; [destruct Hp as [<-|[]]; auto|].
      right. exists (q :: m). auto.
    - intros [<-|(m & Hm & Hp)]; [exists []; simpl; auto|]. exists m. split; [exact Hm|].
      destruct m; [destruct Hp|exact Hp]. }
  split; [apply I, K; left; reflexivity|]. split.
  - intros p Hp. apply I, K, Hp.
  - intros axis Ha. destruct (T axis Ha) as [(p & Hp & E) (q & Hq & F)].
    split; [exists p|exists q]; split; try assumption; apply K; assumption.
Qed.

Theorem C19_empty_mesh_refuted : exists ms, concat ms <> [] /\ ~ tight (from_meshes ms) (concat ms).
Proof.
  exists [[V 1 1 1]; []]. split; [discriminate|]. intro H.
  destruct (C19_empty_mesh_adds_origin [[V 1 1 1]; []]) as [[(L & _) _] _]; [simpl; auto|].
  destruct H as [_ T]. destruct (T 0%nat) as [(p & Hp & E) _]; [lia|]. simpl in Hp. destruct Hp as [<-|[]].
  cbn [coord] in E. change (vx (V 1 1 1)) with 1 in E. change (vx vzero) with 0 in L. rewrite <- E in L. lra.
Qed.

Example C19_example : from_point_cloud [V 1 5 0; V 2 3 (-1); V 0 4 7] = Box (V 0 3 (-1)) (V 2 5 7).
Proof.
  apply tight_unique with [V 1 5 0; V 2 3 (-1); V 0 4 7]; [apply from_point_cloud_tight; discriminate|].
  split.
  - intros p Hp. unfold inside, vle; simpl in Hp |- *. destruct Hp as [<-|[<-|[<-|[]]]]; simpl; lra.
  - intros [|[|axis]] _; simpl.
    + split; [exists (V 0 4 7)|exists (V 2 3 (-1))]; simpl; tauto.
    + split; [exists (V 2 3 (-1))|exists (V 1 5 0)]; simpl; tauto.
    + split; [exists (V 2 3 (-1))|exists (V 0 4 7)]; simpl; tauto.
Qed.

(** C20: the mesh of a box. *)
Theorem C20_closed : forall b o,
  let '(vs, idx, ns) := to_mesh_helper b o in
  length vs = 24%nat /\ length ns = 24%nat /\ length idx = 36%nat /\
  (forall i, In i idx -> (i < 24)%nat) /\ (forall v, In v vs <-> In v (corners b)) /\
  length (indexed_surface vs idx) = 12%nat /\
  closed_surface (indexed_surface vs idx) /\
  (vlt (min_corner b) (max_corner b) -> NoDup (edges (indexed_surface vs idx))).
Proof.
  intros b o. assert (C := mesh_closed b o). assert (N := mesh_edges_once b o). unfold mesh_surface in *.
  destruct (to_mesh_helper b o) as [[vs idx] ns] eqn:E.
  assert (Ei : idx = mesh_indices o) by (unfold to_mesh_helper in E; congruence).
  assert (Ev : vs = map (fun i => nth i (corners b) vzero) vert_lut) by (unfold to_mesh_helper in E; congruence).
  split; [rewrite Ev, map_length; reflexivity|].
  split; [unfold to_mesh_helper in E; injection E; intros <- _ _; destruct o; rewrite ?map_length; reflexivity|].
  split; [rewrite Ei; destruct o; reflexivity|].
  split.
  { rewrite Ei. intros i Hi. assert (K : forallb (fun i => Nat.ltb i 24) (mesh_indices o) = true) by (destruct o; reflexivity).
    rewrite forallb_forall in K. apply Nat.ltb_lt, K, Hi. }
  split; [rewrite Ev; intro v; simpl; tauto|].
  split; [rewrite Ei; unfold indexed_surface; rewrite map_length; destruct o; reflexivity|].
  split; [exact C|exact N].
Qed.

(** Winding, stored normals and inside agree for every triangle. *)
Theorem C20_normals : forall b o f, normalized b -> In f (triples (mesh_indices o)) ->
  let '(vs, _, ns) := to_mesh_helper b o in
  let '(i, j, k) := f in
  let n := nth i ns vzero in
  nth j ns vzero = n /\ nth k ns vzero = n /\ dot n n = 1 /\
  exists s, 0 <= s /\ (vlt (min_corner b) (max_corner b) -> 0 < s) /\
    winding_normal (tri_at vs f) = smul s n /\
    forall p, inside b p ->
      if o then dot n (vsub (nth i vs vzero) p) >= 0 else dot n (vsub (nth i vs vzero) p) <= 0.
Proof. intros b o f N H. exact (mesh_winding b o f H N). Qed.

Theorem C20_volume : forall b o,
  let '(vs, idx, _) := to_mesh_helper b o in
  signed_volume (indexed_surface vs idx) = (if o then 1 else -1) * volume b.
Proof. exact mesh_volume. Qed.

Example C20_example : vlt (V 0 0 0) (V 1 2 3) /\ volume (Box (V 0 0 0) (V 1 2 3)) = 6 /\
  In (20, 21, 22)%nat (triples (mesh_indices true)).
Proof. split; [unfold vlt; simpl; lra|]. split; [unfold volume; simpl; ring|simpl; tauto]. Qed.

(** C21: the mesh handed to the boolean engine. *)
Theorem C21_mesh_volume : forall T b, rotation (pR T) ->
  let '(vs, fs) := bbox2pymesh T b in
  closed_surface (map (tri_at vs) fs) /\
  signed_volume (map (tri_at vs) fs) = 5 / 6 * volume b.
Proof.
  intros T b [_ D]. assert (V := pymesh_volume T b). rewrite D, Rmult_1_l in V.
  split; [|exact V]. apply closed_indexed, pymesh_edges_check.
Qed.

(** It never encloses the posed box: not for any pose or any box of positive volume. *)
Theorem C21_never_the_box : forall T b, rotation (pR T) -> vlt (min_corner b) (max_corner b) ->
  let '(vs, fs) := bbox2pymesh T b in Rabs (signed_volume (map (tri_at vs) fs)) <> volume b.
Proof.
  intros T b H (X & Y & Z). assert (V := C21_mesh_volume T b H).
  destruct (bbox2pymesh T b) as [vs fs]. destruct V as [_ ->].
  assert (P : 0 < volume b).
  { unfold volume; simpl. apply Rmult_lt_0_compat; [apply Rmult_lt_0_compat|]; lra. }
  rewrite Rabs_pos_eq; lra.
Qed.

Theorem C21_mesh_is_box_refuted : exists T b, rotation (pR T) /\ normalized b /\
  Rabs (signed_volume (map (tri_at (fst (bbox2pymesh T b))) (snd (bbox2pymesh T b)))) <> volume b.
Proof.
  exists pose_id, (Box (V 0 0 0) (V 1 1 1)).
  split; [apply rotation_id|]. split; [unfold normalized, vle; simpl; lra|].
  apply (C21_never_the_box pose_id (Box (V 0 0 0) (V 1 1 1))); [apply rotation_id|unfold vlt; simpl; lra].
Qed.

Example C21_example : rotation (pR pose_id) /\ vlt (V 0 0 0) (V 1 1 1) /\
  signed_volume (map (tri_at (fst (bbox2pymesh pose_id (Box (V 0 0 0) (V 1 1 1))))) pymesh_faces) = 5 / 6.
Proof.
  split; [apply rotation_id|]. split; [unfold vlt; simpl; lra|].
  assert (K := C21_mesh_volume pose_id (Box (V 0 0 0) (V 1 1 1)) rotation_id).
  destruct K as [_ K]. refine (eq_trans K _). unfold volume; simpl. field.
Qed.

(** C60: the quick rejection test of the bounding box evaluator. *)
Theorem C60_posed_bbox : forall T b,
  (forall q, posed_region T b q -> inside (posed_bbox T b) q) /\
  tight (posed_bbox T b) (map (transform_from T) (corners b)).
Proof. intros T b. split; [apply posed_bbox_contains|apply posed_bbox_tight]. Qed.

Theorem C60_quick_reject : forall T1 b1 T2 b2,
  (quick_reject (posed_bbox T1 b1) (posed_bbox T2 b2) = true <->
   forall q, ~ (inside (posed_bbox T1 b1) q /\ inside (posed_bbox T2 b2) q)) /\
  (quick_reject (posed_bbox T1 b1) (posed_bbox T2 b2) = true ->
   forall q, ~ (posed_region T1 b1 q /\ posed_region T2 b2 q)).
Proof.
  intros. assert (E := quick_reject_disjoint _ _ (posed_bbox_normalized T1 b1) (posed_bbox_normalized T2 b2)).
  split; [exact E|]. intros H q [A B]. apply (proj1 E H q). split; apply posed_bbox_contains; assumption.
Qed.

(** The similarity stays in [0,1] when the engine's intersection is no larger than
    either mesh and one of the meshes has volume; it is 1 for an element against
    itself when the engine intersects a mesh with itself to itself. *)
Theorem C60_similarity_bounds : forall vol inter T1 b1 T2 b2,
  (forall m1 m2, Rabs (vol (inter m1 m2)) <= Rabs (vol m1) /\ Rabs (vol (inter m1 m2)) <= Rabs (vol m2)) ->
  0 < Rabs (vol (bbox2pymesh T1 b1)) + Rabs (vol (bbox2pymesh T2 b2)) ->
  0 <= bb_shape_similarity vol inter T1 b1 T2 b2 <= 1.
Proof.
  intros vol inter T1 b1 T2 b2 H P. unfold bb_shape_similarity.
  destruct (quick_reject _ _); [lra|].
  destruct (H (bbox2pymesh T1 b1) (bbox2pymesh T2 b2)) as [A B].
  set (i := Rabs (vol (inter _ _))) in *. set (x := Rabs (vol (bbox2pymesh T1 b1))) in *.
  set (y := Rabs (vol (bbox2pymesh T2 b2))) in *.
  assert (I : 0 <= i) by apply Rabs_pos. clearbody i x y.
  assert (U : 0 < x + y - i) by lra. split.
  - apply Rmult_le_pos; [exact I|]. left. apply Rinv_0_lt_compat, U.
  - apply Rmult_le_reg_r with (x + y - i); [exact U|]. unfold Rdiv. rewrite Rmult_assoc, Rinv_l by lra. lra.
Qed.
Theorem C60_similarity_self : forall vol inter T b,
  (forall m, inter m m = m) -> vol (bbox2pymesh T b) <> 0 ->
  bb_shape_similarity vol inter T b T b = 1.
Proof.
  intros vol inter T b H P. unfold bb_shape_similarity.
  destruct (quick_reject _ _) eqn:E.
  - exfalso. rewrite quick_reject_disjoint in E by apply posed_bbox_normalized.
    apply (E (min_corner (posed_bbox T b))). assert (N := posed_bbox_normalized T b).
    split; (split; [apply vle_refl|exact N]).
  - rewrite H. assert (Q := Rabs_pos_lt _ P). field. lra.
Qed.
Example C60_example :
  quick_reject (posed_bbox pose_id (Box (V 0 0 0) (V 1 1 1))) (posed_bbox (Pose mid (V 3 0 0)) (Box (V 0 0 0) (V 1 1 1))) = true.
Proof.
  apply quick_reject_disjoint; try apply posed_bbox_normalized.
  assert (E1 : posed_bbox pose_id (Box (V 0 0 0) (V 1 1 1)) = Box (V 0 0 0) (V 1 1 1)).
  { eapply tight_unique; [apply posed_bbox_tight|]. split.
    - intros p Hp. simpl in Hp. unfold inside, vle. repeat destruct Hp as [<-|Hp]; try contradiction; simpl; lra.
    - intros [|[|axis]] _; simpl; (split; [eexists; split; [do 4 right; left; reflexivity|simpl; ring]|eexists; split; [do 2 right; left; reflexivity|simpl; ring]]). }
  assert (E2 : posed_bbox (Pose mid (V 3 0 0)) (Box (V 0 0 0) (V 1 1 1)) = Box (V 3 0 0) (V 4 1 1)).
  { eapply tight_unique; [apply posed_bbox_tight|]. split.
    - intros p Hp. simpl in Hp. unfold inside, vle. repeat destruct Hp as [<-|Hp]; try contradiction; simpl; lra.
    - intros [|[|axis]] _; simpl; (split; [eexists; split; [do 4 right; left; reflexivity|simpl; ring]|eexists; split; [do 2 right; left; reflexivity|simpl; ring]]). }
  rewrite E1, E2. intros p [[_ (A & _)] [(B & _) _]]. simpl in A, B. lra.
Qed.

Print Assumptions C18_constructor.
Print Assumptions C18_merge_least.
Print Assumptions C18_merge_order_and_grouping.
Print Assumptions C18_merge_empty.
Print Assumptions C18_empty_neutral_refuted.
Print Assumptions C19_point_cloud_tight.
Print Assumptions C19_tight_unique.
Print Assumptions C19_meshes_tight.
Print Assumptions C19_empty_mesh_adds_origin.
Print Assumptions C19_empty_mesh_refuted.
Print Assumptions C20_closed.
Print Assumptions C20_normals.
Print Assumptions C20_volume.
Print Assumptions C21_mesh_volume.
Print Assumptions C21_never_the_box.
Print Assumptions C21_mesh_is_box_refuted.
Print Assumptions C60_posed_bbox.
Print Assumptions C60_quick_reject.
Print Assumptions C60_similarity_bounds.
Print Assumptions C60_similarity_self.
