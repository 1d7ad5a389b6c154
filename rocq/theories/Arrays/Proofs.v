From Coq Require Import List Bool ZArith Arith String Reals Lra Lia.
From Verif.Base Require Import Py Vec.
From Verif.Mesh Require Model.
From Verif.Gltf Require Model.
From Verif.Cloud Require Model.
From Verif.Geom Require Model Proofs.
From Verif.Arrays Require Import Model Spec.
Import ListNotations.

Lemma len3 : forall a, nrow a = 3%nat -> List.length (vector3fs_of_array a) = ncol a.
Proof. intros a H. unfold vector3fs_of_array. rewrite H. simpl. rewrite map_length, seq_length. reflexivity. Qed.

Lemma none3 : forall a, nrow a <> 3%nat -> vector3fs_of_array a = [].
Proof. intros a H. unfold vector3fs_of_array. apply Nat.eqb_neq in H. rewrite H. reflexivity. Qed.

Lemma len2 : forall a, nrow a = 2%nat -> List.length (vector2fs_of_array a) = ncol a.
Proof. intros a H. unfold vector2fs_of_array. rewrite H. simpl. rewrite map_length, seq_length. reflexivity. Qed.

Lemma none2 : forall a, nrow a <> 2%nat -> vector2fs_of_array a = [].
Proof. intros a H. unfold vector2fs_of_array. apply Nat.eqb_neq in H. rewrite H. reflexivity. Qed.

Lemma nth_columns : forall A (f : nat -> A) n j d, (j < n)%nat -> nth j (map f (seq 0 n)) d = f j.
Proof.
  intros A f n j d H. rewrite (nth_indep _ d (f 0%nat)) by (rewrite map_length, seq_length; exact H).
  rewrite map_nth, seq_nth by exact H. reflexivity.
Qed.

Lemma nth3 : forall a j, nrow a = 3%nat -> (j < ncol a)%nat -> nth j (vector3fs_of_array a) vzero = column a j.
Proof. intros a j H J. unfold vector3fs_of_array. rewrite H. cbn [Nat.eqb]. rewrite nth_columns by exact J. reflexivity. Qed.

Lemma round3 : forall a, nrow a = 3%nat -> array_equal (array_of_vector3fs (vector3fs_of_array a)) a.
Proof.
  intros a H. split; [symmetry; exact H|]. split; [apply len3, H|].
  cbn [nrow ncol array_of_vector3fs entry]. rewrite len3 by exact H. intros i j I J. rewrite nth3 by assumption.
  destruct i as [|[|[|i]]]; [reflexivity..|lia].
Qed.

Lemma round2 : forall a, nrow a = 2%nat -> array_equal (array_of_vector2fs (vector2fs_of_array a)) a.
Proof.
  intros a H. split; [symmetry; exact H|]. split; [apply len2, H|].
  cbn [nrow ncol array_of_vector2fs entry]. rewrite len2 by exact H. intros i j I J.
  unfold vector2fs_of_array. rewrite H. cbn [Nat.eqb]. rewrite nth_columns by exact J.
  destruct i as [|[|i]]; [reflexivity..|lia].
Qed.

(** Back and forth the other way. *)
Lemma back3 : forall ps, vector3fs_of_array (array_of_vector3fs ps) = ps.
Proof.
  intros ps. apply (nth_ext _ _ vzero vzero).
  - apply len3. reflexivity.
  - intros j J. rewrite len3 in J by reflexivity. rewrite nth3 by (exact J || reflexivity).
    unfold column. cbn [array_of_vector3fs entry coord]. destruct (nth j ps vzero); reflexivity.
Qed.

Lemma back2 : forall ps, vector2fs_of_array (array_of_vector2fs ps) = ps.
Proof.
  intros ps. apply (nth_ext _ _ (0, 0)%R (0, 0)%R).
  - apply len2. reflexivity.
  - intros j J. rewrite len2 in J by reflexivity. cbn [array_of_vector2fs ncol] in J.
    unfold vector2fs_of_array. cbn [array_of_vector2fs nrow ncol Nat.eqb]. rewrite nth_columns by exact J.
    unfold vector2f. cbn [array_of_vector2fs entry]. destruct (nth j ps (0, 0)%R); reflexivity.
Qed.

(** The points an array stands for when it has the entries of a list of points. *)
Lemma from_columns : forall a ps, nrow a = 3%nat -> ncol a = List.length ps ->
  (forall j, (j < List.length ps)%nat -> column a j = nth j ps vzero) -> vector3fs_of_array a = ps.
Proof.
  intros a ps H L E. apply (nth_ext _ _ vzero vzero).
  - rewrite len3 by exact H. exact L.
  - intros j J. rewrite len3 in J by exact H. rewrite nth3 by assumption. apply E. rewrite <- L. exact J.
Qed.

Lemma vertices_columns : forall ps j, column (array_of_vector3fs ps) j = nth j ps vzero.
Proof. intros ps j. unfold column. cbn [array_of_vector3fs entry coord]. destruct (nth j ps vzero); reflexivity. Qed.

Lemma nth_mapped : forall f ps j, (j < List.length ps)%nat -> nth j (map f ps) vzero = f (nth j ps vzero).
Proof.
  intros f ps j J. rewrite (nth_indep _ vzero (f vzero)) by (rewrite map_length; exact J). apply map_nth.
Qed.

(** Rot3 times an array of points. *)
Lemma rot_times_points : forall r ps, exists a, rot_times r (array_of_vector3fs ps) = Ok a /\
  nrow a = 3%nat /\ ncol a = List.length ps /\
  forall j, (j < List.length ps)%nat -> column a j = mvec r (nth j ps vzero).
Proof.
  intros r ps. eexists. split; [reflexivity|]. split; [reflexivity|]. split; [reflexivity|].
  intros j J. unfold column. cbn [entry mrow]. unfold vector3f. cbn [array_of_vector3fs entry coord].
  destruct (nth j ps vzero). reflexivity.
Qed.

Lemma pose_times_points : forall t ps, exists a, pose_times t (array_of_vector3fs ps) = Ok a /\
  nrow a = 3%nat /\ ncol a = List.length ps /\
  forall j, (j < List.length ps)%nat -> column a j = vadd (mvec (Geom.Model.pR t) (nth j ps vzero)) (Geom.Model.pt t).
Proof.
  intros t ps. eexists. split; [reflexivity|]. split; [reflexivity|]. split; [reflexivity|].
  intros j J. unfold column. cbn [np_transpose entry mrow]. unfold vector3f. cbn [array_of_vector3fs entry coord].
  destruct (nth j ps vzero). reflexivity.
Qed.

Lemma column_astype : forall f a j, column (astype f a) j = each f (column a j).
Proof. reflexivity. Qed.

Lemma astype_points : forall f g a ps, nrow a = 3%nat -> ncol a = List.length ps ->
  (forall j, (j < List.length ps)%nat -> column a j = g (nth j ps vzero)) ->
  vector3fs_of_array (astype f a) = map (fun p => each f (g p)) ps.
Proof.
  intros f g a ps H L E. apply from_columns.
  - exact H.
  - rewrite map_length. exact L.
  - intros j J. rewrite map_length in J. rewrite column_astype, E by exact J.
    rewrite (nth_mapped (fun p => each f (g p))) by exact J. reflexivity.
Qed.

(** What rebuild makes of arrays with the right number of points. *)
Definition moved (m : cmesh) (v n : list vec) : cmesh :=
  CMesh (c_indices m) v n
    (match tex m with
     | None => Gltf.Model.Material "" []
     | Some (_, c, r) => Gltf.Model.mat (Gltf.Model.new_textured (Mesh.Model.Mesh [] [] []) [] c r)
     end) (tex m).

Lemma cpp_assert_true : forall d b, b = true -> Cloud.Model.cpp_assert d b = Ok tt.
Proof. intros d b ->. unfold Cloud.Model.cpp_assert. destruct d; reflexivity. Qed.

Lemma rebuild_points : forall d m v n pv pn, vector3fs_of_array v = pv -> vector3fs_of_array n = pn ->
  ncol v = List.length pv -> ncol n = List.length pn ->
  List.length pv = List.length (c_vertices m) -> List.length pn = List.length (c_normals m) ->
  proper m -> rebuild d m v n = Ok (moved m pv pn).
Proof.
  intros d m v n pv pn EV EN CV CN LV LN [P T].
  assert (L : List.length pv = List.length pn) by congruence.
  unfold rebuild, moved. destruct (tex m) as [[[uv c] r]|] eqn:TX.
  - unfold uv_coords, base_color, metallic_roughness. rewrite TX. cbn [bind].
    unfold TexturedMesh_init. rewrite CV, CN, L, Nat.eqb_refl. cbn [negb array_of_vector2fs ncol].
    destruct (Nat.leb_spec (List.length uv) (List.length pn)) as [LE|GT]; [|exfalso; lia]. cbn [negb].
    unfold new_textured. rewrite EV, EN, back2, !cpp_assert_true; [reflexivity| |].
    + apply Nat.leb_le. lia.
    + apply Nat.eqb_eq. exact L.
  - unfold Mesh_init. rewrite CV, CN, L, Nat.eqb_refl. cbn [negb]. unfold new_mesh.
    rewrite EV, EN, cpp_assert_true; [reflexivity|]. apply Nat.eqb_eq. exact L.
Qed.

Lemma rotate_ok : forall f d r m, proper m ->
  rotate f d r m = Ok (moved m (map (fun p => each f (mvec r p)) (c_vertices m)) (map (fun p => each f (mvec r p)) (c_normals m))).
Proof.
  intros f d r m P. unfold rotate, vertices, normals.
  destruct (rot_times_points r (c_vertices m)) as (v & EV & RV & LV & CV). rewrite EV. cbn [bind].
  destruct (rot_times_points r (c_normals m)) as (n & EN & RN & LN & CN). rewrite EN. cbn [bind].
  apply rebuild_points.
  - apply (astype_points f (mvec r)); assumption.
  - apply (astype_points f (mvec r)); assumption.
  - rewrite map_length. exact LV.
  - rewrite map_length. exact LN.
  - apply map_length.
  - apply map_length.
  - exact P.
Qed.

Lemma transform_ok : forall f d t m, proper m ->
  transform f d t m = Ok (moved m (map (fun p => each f (vadd (mvec (Geom.Model.pR t) p) (Geom.Model.pt t))) (c_vertices m))
                            (map (fun p => each f (mvec (Geom.Model.pR t) p)) (c_normals m))).
Proof.
  intros f d t m P. unfold transform, vertices, normals.
  destruct (pose_times_points t (c_vertices m)) as (v & EV & RV & LV & CV). rewrite EV. cbn [bind].
  destruct (rot_times_points (Geom.Model.pR t) (c_normals m)) as (n & EN & RN & LN & CN). rewrite EN. cbn [bind].
  apply rebuild_points.
  - apply (astype_points f (fun p => vadd (mvec (Geom.Model.pR t) p) (Geom.Model.pt t))); assumption.
  - apply (astype_points f (mvec (Geom.Model.pR t))); assumption.
  - rewrite map_length. exact LV.
  - rewrite map_length. exact LN.
  - apply map_length.
  - apply map_length.
  - exact P.
Qed.

Lemma rebuild_raises : forall d m v n, ncol v <> ncol n -> rebuild d m v n = Err AssertionError.
Proof.
  intros d m v n H. apply Nat.eqb_neq in H. unfold rebuild. destruct (tex m) as [[[uv c] r]|] eqn:TX.
  - unfold uv_coords, base_color, metallic_roughness. rewrite TX. cbn [bind]. unfold TexturedMesh_init. rewrite H. reflexivity.
  - unfold Mesh_init. rewrite H. reflexivity.
Qed.

Lemma moved_proper : forall m v n, proper m -> List.length v = List.length (c_vertices m) ->
  List.length n = List.length (c_normals m) -> proper (moved m v n).
Proof.
  intros m v n [P T] LV LN. split; [cbn [moved c_vertices c_normals]; congruence|].
  cbn [moved tex c_vertices]. destruct (tex m) as [[[uv c] r]|]; [lia|exact I].
Qed.

Lemma each_id : forall p, each (fun x => x) p = p.
Proof. intros []. reflexivity. Qed.

(** * Normals *)
Import Verif.Mesh.Model.

Lemma normalized_rotation : forall r a, rotation r -> normalized (mvec r a) = mvec r (normalized a).
Proof.
  intros r a H. unfold normalized, norm. rewrite rotation_dot by exact H. destruct (Rlt_dec 0 (dot a a)).
  - apply vec_eq; simpl; ring.
  - reflexivity.
Qed.

Lemma at_map : forall A B (f : A -> B) l i, at_ (map f l) i = (let* x := at_ l i in Ok (f x)).
Proof.
  intros A B f l i. unfold at_. destruct (i <? 0)%Z; [reflexivity|]. rewrite nth_error_map.
  destruct (nth_error l (Z.to_nat i)); reflexivity.
Qed.

Lemma iterate_map : forall (f : vec -> vec) vs idx,
  iterate (map f vs) idx =
  (let* ts := iterate vs idx in Ok (map (fun t => let '(i, j, k, (a, b, c)) := t in (i, j, k, (f a, f b, f c))) ts)).
Proof.
  intros f vs. fix IH 1. intros [|i [|j [|k rest]]]; try reflexivity. cbn [iterate].
  rewrite !at_map. destruct (at_ vs i) as [a|]; cbn [bind]; [|reflexivity].
  destruct (at_ vs j) as [b|]; cbn [bind]; [|reflexivity].
  destruct (at_ vs k) as [c|]; cbn [bind]; [|reflexivity].
  rewrite IH. destruct (iterate vs rest) as [ts|]; reflexivity.
Qed.

Lemma face_normals_moved : forall r t idx vs, rotation r ->
  CalculateFaceNormals idx (map (fun p => vadd (mvec r p) t) vs) =
  (let* ns := CalculateFaceNormals idx vs in Ok (map (mvec r) ns)).
Proof.
  intros r t idx vs H. unfold CalculateFaceNormals. rewrite iterate_map.
  destruct (iterate vs idx) as [ts|]; cbn [bind]; [|reflexivity]. f_equal. rewrite !map_map. apply map_ext.
  intros [[[i j] k] [[a b] c]]. rewrite <- normalized_rotation by exact H. f_equal. rewrite rotation_cross by exact H.
  f_equal; apply vec_eq; simpl; ring.
Qed.

Lemma set_nth_map : forall A B (f : A -> B) l i x, set_nth (map f l) i (f x) = map f (set_nth l i x).
Proof.
  intros A B f l. induction l as [|y l IH]; intros [|i] x; cbn; try reflexivity. f_equal. apply IH.
Qed.

Lemma add_at_map : forall r ns i n, add_at (map (mvec r) ns) i (mvec r n) = (let* x := add_at ns i n in Ok (map (mvec r) x)).
Proof.
  intros r ns i n. unfold add_at. rewrite at_map. destruct (at_ ns i) as [x|]; cbn [bind]; [|reflexivity].
  unfold set_at, size. rewrite map_length. destruct (_ && _); cbn [bind]; [|reflexivity]. f_equal.
  rewrite <- set_nth_map. f_equal. rewrite mvec_add. reflexivity.
Qed.

Lemma add_faces_map : forall r faces ns idx,
  add_faces (map (mvec r) ns) idx (map (mvec r) faces) = (let* x := add_faces ns idx faces in Ok (map (mvec r) x)).
Proof.
  intros r faces. induction faces as [|n faces IH]; intros ns idx; [reflexivity|]. cbn [add_faces map].
  destruct idx as [|i [|j [|k idx]]]; try reflexivity. rewrite add_at_map.
  destruct (add_at ns i n) as [x|]; cbn [bind]; [|reflexivity]. rewrite add_at_map.
  destruct (add_at x j n) as [y|]; cbn [bind]; [|reflexivity]. rewrite add_at_map.
  destruct (add_at y k n) as [z|]; cbn [bind]; [|reflexivity]. apply IH.
Qed.

Lemma estimate_moved : forall r t idx vs, rotation r ->
  EstimateNormals idx (map (fun p => vadd (mvec r p) t) vs) = (let* ns := EstimateNormals idx vs in Ok (map (mvec r) ns)).
Proof.
  intros r t idx vs H. unfold EstimateNormals. rewrite face_normals_moved by exact H.
  destruct (CalculateFaceNormals idx vs) as [faces|]; cbn [bind]; [|reflexivity].
  replace (map (fun _ : vec => vzero) (map (fun p => vadd (mvec r p) t) vs)) with (map (mvec r) (map (fun _ : vec => vzero) vs)).
  - rewrite add_faces_map. destruct (add_faces _ idx faces) as [ns|]; cbn [bind]; [|reflexivity]. f_equal.
    rewrite !map_map. apply map_ext. intros a. apply normalized_rotation, H.
  - rewrite !map_map. apply map_ext. intros a. apply vec_eq; simpl; ring.
Qed.
