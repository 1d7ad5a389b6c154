(** C94: numpy arrays and meshes. *)
From Coq Require Import List Bool ZArith Arith String Reals Lra Lia.
From Verif.Base Require Import Py Vec.
From Verif.Mesh Require Model.
From Verif.Gltf Require Model.
From Verif.Geom Require Model Proofs.
From Verif.Arrays Require Import Model Spec Proofs.
Import ListNotations.

Definition pose := Geom.Model.pose.
Definition pR := Geom.Model.pR.
Definition pt := Geom.Model.pt.

(** Arrays of three rows come back from the mesh as they were. *)
Theorem C94_roundtrip : forall debug i v n, nrow v = 3%nat -> nrow n = 3%nat -> ncol v = ncol n ->
  exists m, Mesh_init debug i v n = Ok m /\ is_textured m = false /\ indices m = i /\
    array_equal (vertices m) v /\ array_equal (normals m) n /\
    num_indices m = List.length i /\ num_vertices m = ncol v /\ proper m.
Proof.
  intros debug i v n V N C. unfold Mesh_init. rewrite C, Nat.eqb_refl. cbn [negb]. unfold new_mesh.
  rewrite cpp_assert_true by (rewrite !len3 by assumption; apply Nat.eqb_eq; exact C). cbn [bind].
  eexists. split; [reflexivity|]. split; [reflexivity|]. split; [reflexivity|].
  split; [apply round3, V|]. split; [apply round3, N|]. split; [reflexivity|].
  split; [rewrite <- C; apply len3, V|]. split; [|exact I].
  cbn [c_vertices c_normals]. rewrite !len3 by assumption. exact C.
Qed.

Theorem C94_textured_roundtrip : forall debug i v n uv color rough, nrow v = 3%nat -> nrow n = 3%nat -> nrow uv = 2%nat ->
  ncol v = ncol n -> (ncol uv <= ncol v)%nat ->
  exists m, TexturedMesh_init debug i v n uv color rough = Ok m /\ is_textured m = true /\ indices m = i /\
    array_equal (vertices m) v /\ array_equal (normals m) n /\
    (exists a, uv_coords m = Ok a /\ array_equal a uv) /\ base_color m = Ok color /\ metallic_roughness m = Ok rough /\
    num_indices m = List.length i /\ num_vertices m = ncol v /\ proper m.
Proof.
  intros debug i v n uv color rough V N U C L. unfold TexturedMesh_init. rewrite C, Nat.eqb_refl. cbn [negb].
  rewrite <- C. destruct (Nat.leb_spec (ncol uv) (ncol v)) as [LE|GT]; [|exfalso; lia]. cbn [negb]. unfold new_textured.
  rewrite !cpp_assert_true; [|rewrite len2, len3 by assumption; apply Nat.leb_le; exact L|rewrite !len3 by assumption; apply Nat.eqb_eq; exact C].
  cbn [bind]. eexists. split; [reflexivity|]. split; [reflexivity|]. split; [reflexivity|].
  split; [apply round3, V|]. split; [apply round3, N|].
  split; [eexists; split; [reflexivity|apply round2, U]|]. split; [reflexivity|]. split; [reflexivity|].
  split; [reflexivity|]. split; [apply len3, V|]. split.
  - cbn [c_vertices c_normals]. rewrite !len3 by assumption. exact C.
  - cbn [tex c_vertices]. rewrite len2, len3 by assumption. exact L.
Qed.

(** For arrays of any shape: exactly the different numbers of columns are reported. *)
Theorem C94_raises : forall debug i v n uv color rough,
  (Mesh_init debug i v n = Err AssertionError <-> ncol v <> ncol n) /\
  (TexturedMesh_init debug i v n uv color rough = Err AssertionError <-> ncol v <> ncol n \/ (ncol v < ncol uv)%nat).
Proof.
  intros debug i v n uv color rough.
  assert (A : forall b, Cloud.Model.cpp_assert debug b <> Err AssertionError).
  { intros b. unfold Cloud.Model.cpp_assert. destruct (debug && negb b); discriminate. }
  split.
  - unfold Mesh_init. destruct (Nat.eqb_spec (ncol v) (ncol n)) as [E|E]; cbn [negb]; [|tauto].
    split; [|tauto]. unfold new_mesh. intros H. exfalso.
    destruct (Cloud.Model.cpp_assert debug _) eqn:K in H; cbn [bind] in H; [discriminate|].
    injection H as ->. exact (A _ K).
  - unfold TexturedMesh_init. destruct (Nat.eqb_spec (ncol v) (ncol n)) as [E|E]; cbn [negb]; [|tauto].
    destruct (Nat.leb_spec (ncol uv) (ncol v)) as [L|L]; cbn [negb]; [|tauto].
    split; [|intros [?|?]; [contradiction|exfalso; lia]]. unfold new_textured. intros H. exfalso.
    destruct (Cloud.Model.cpp_assert debug _) eqn:K in H; cbn [bind] in H; [|injection H as ->; exact (A _ K)].
    destruct (Cloud.Model.cpp_assert debug (_ <=? _)%nat) eqn:K2 in H; cbn [bind] in H; [discriminate|].
    injection H as ->. exact (A _ K2).
Qed.

(** An array with another number of rows is not reported: its points are dropped. *)
Theorem C94_rows_dropped : forall i v n, ncol v = ncol n -> nrow v <> 3%nat ->
  (forall debug, nrow n <> 3%nat -> exists m, Mesh_init debug i v n = Ok m /\ indices m = i /\
     num_vertices m = 0%nat /\ ncol (vertices m) = 0%nat /\ ncol (normals m) = 0%nat) /\
  (nrow n = 3%nat -> (0 < ncol n)%nat ->
     Mesh_init true i v n = Err Terminate /\
     exists m, Mesh_init false i v n = Ok m /\ num_vertices m = 0%nat /\ array_equal (normals m) n /\
       forall f32 debug r, rotate f32 debug r m = Err AssertionError).
Proof.
  intros i v n C V. split.
  - intros debug N. unfold Mesh_init. rewrite C, Nat.eqb_refl. cbn [negb]. unfold new_mesh.
    rewrite (none3 v), (none3 n) by assumption. rewrite cpp_assert_true by reflexivity.
    eexists. split; [reflexivity|]. repeat split; reflexivity.
  - intros N P. unfold Mesh_init. rewrite C, Nat.eqb_refl. cbn [negb]. unfold new_mesh.
    rewrite (none3 v) by assumption. rewrite len3 by exact N. split.
    + destruct (ncol n); [lia|reflexivity].
    + eexists. split; [reflexivity|]. split; [reflexivity|]. split; [apply round3, N|].
      intros f32 debug r. unfold rotate, vertices, normals. cbn [c_vertices c_normals].
      destruct (rot_times_points r []) as (a & EA & _ & LA & _). rewrite EA. cbn [bind].
      destruct (rot_times_points r (vector3fs_of_array n)) as (b & EB & _ & LB & _). rewrite EB. cbn [bind].
      apply rebuild_raises. cbn [astype ncol]. rewrite LA, LB, len3 by exact N. cbn [List.length]. lia.
Qed.

(** The same with texture coordinates. *)
Theorem C94_uv_dropped : forall debug i v n uv color rough, nrow v = 3%nat -> nrow n = 3%nat ->
  ncol v = ncol n -> (ncol uv <= ncol v)%nat -> nrow uv <> 2%nat ->
  exists m, TexturedMesh_init debug i v n uv color rough = Ok m /\ array_equal (vertices m) v /\
    exists a, uv_coords m = Ok a /\ ncol a = 0%nat.
Proof.
  intros debug i v n uv color rough V N C L U. unfold TexturedMesh_init. rewrite C, Nat.eqb_refl. cbn [negb].
  rewrite <- C. destruct (Nat.leb_spec (ncol uv) (ncol v)) as [LE|GT]; [|exfalso; lia]. cbn [negb]. unfold new_textured.
  rewrite (none2 uv) by exact U.
  rewrite !cpp_assert_true; [|reflexivity|rewrite !len3 by assumption; apply Nat.eqb_eq; exact C].
  cbn [bind]. eexists. split; [reflexivity|]. split; [apply round3, V|]. eexists. split; reflexivity.
Qed.

(** So points given as rows are accepted without an error and without vertices... *)
Theorem C94_rows_refuted : exists v : arr, nrow v = 4%nat /\ ncol v = 3%nat /\
  row v 1 = V 1 0 0 /\ row v 3 = V 0 0 1 /\
  forall debug, exists m, Mesh_init debug [0; 1; 2]%Z v v = Ok m /\ indices m = [0; 1; 2]%Z /\ num_vertices m = 0%nat.
Proof.
  exists (Arr 4 3 (fun i j => if Nat.eqb i (S j) then 1 else 0)%R). split; [reflexivity|]. split; [reflexivity|].
  split; [reflexivity|]. split; [reflexivity|]. intros debug. eexists.
  split; [destruct debug; reflexivity|]. split; reflexivity.
Qed.

(** ... and three points given as rows become three other points. *)
Theorem C94_three_rows_refuted : exists v : arr, nrow v = 3%nat /\ ncol v = 3%nat /\
  forall debug, exists m, Mesh_init debug [0; 1; 2]%Z v v = Ok m /\ column (vertices m) 1 <> row v 1.
Proof.
  exists (Arr 3 3 (fun i j => if Nat.eqb i 1 then 5 else 0)%R). split; [reflexivity|]. split; [reflexivity|].
  intros debug. destruct (C94_roundtrip debug [0; 1; 2]%Z (Arr 3 3 (fun i j => if Nat.eqb i 1 then 5 else 0)%R)
     (Arr 3 3 (fun i j => if Nat.eqb i 1 then 5 else 0)%R) eq_refl eq_refl eq_refl) as (m & E & _ & _ & (_ & L & A) & _).
  exists m. split; [exact E|]. unfold column, row. rewrite !A by (rewrite ?L; cbn; lia). cbn [entry Nat.eqb].
  intros H. injection H as H _. lra.
Qed.

(** rotate and transform succeed on a mesh with as many normals as vertices, change
    vertices and normals only, and map each of them as they should. *)
Theorem C94_rotate : forall f32 debug r m, proper m -> exists m', rotate f32 debug r m = Ok m' /\
  proper m' /\ same_but_points m m' /\
  (forall j, (j < num_vertices m)%nat -> column (vertices m') j = each f32 (mvec r (column (vertices m) j)) /\
                                   column (normals m') j = each f32 (mvec r (column (normals m) j))).
Proof.
  intros f32 debug r m P. eexists. split; [apply rotate_ok, P|].
  split; [apply moved_proper; [exact P|apply map_length..]|].
  split; [repeat split; cbn; unfold num_vertices; cbn; rewrite ?map_length; reflexivity|].
  intros j J. unfold vertices, normals. rewrite !vertices_columns. cbn [moved c_vertices c_normals].
  rewrite !(nth_mapped (fun p => each f32 (mvec r p))); [split; reflexivity| |exact J].
  rewrite <- (proj1 P). exact J.
Qed.

Theorem C94_transform : forall f32 debug t m, proper m -> exists m', transform f32 debug t m = Ok m' /\
  proper m' /\ same_but_points m m' /\
  (forall j, (j < num_vertices m)%nat ->
     column (vertices m') j = each f32 (vadd (mvec (pR t) (column (vertices m) j)) (pt t)) /\
     column (normals m') j = each f32 (mvec (pR t) (column (normals m) j))).
Proof.
  intros f32 debug t m P. eexists. split; [apply transform_ok, P|].
  split; [apply moved_proper; [exact P|apply map_length..]|].
  split; [repeat split; cbn; unfold num_vertices; cbn; rewrite ?map_length; reflexivity|].
  intros j J. unfold vertices, normals. rewrite !vertices_columns. cbn [moved c_vertices c_normals].
  rewrite (nth_mapped (fun p => each f32 (vadd (mvec (Geom.Model.pR t) p) (Geom.Model.pt t)))) by exact J.
  rewrite (nth_mapped (fun p => each f32 (mvec (Geom.Model.pR t) p))); [split; reflexivity|].
  rewrite <- (proj1 P). exact J.
Qed.

(** They raise when there is not one normal per vertex. *)
Theorem C94_move_raises : forall f32 debug r t m, List.length (c_vertices m) <> List.length (c_normals m) ->
  rotate f32 debug r m = Err AssertionError /\ transform f32 debug t m = Err AssertionError.
Proof.
  intros f32 debug r t m H. split.
  - unfold rotate, vertices, normals.
    destruct (rot_times_points r (c_vertices m)) as (a & EA & _ & LA & _). rewrite EA. cbn [bind].
    destruct (rot_times_points r (c_normals m)) as (b & EB & _ & LB & _). rewrite EB. cbn [bind].
    apply rebuild_raises. cbn [astype ncol]. congruence.
  - unfold transform, vertices, normals.
    destruct (pose_times_points t (c_vertices m)) as (a & EA & _ & LA & _). rewrite EA. cbn [bind].
    destruct (rot_times_points (Geom.Model.pR t) (c_normals m)) as (b & EB & _ & LB & _). rewrite EB. cbn [bind].
    apply rebuild_raises. cbn [astype ncol]. congruence.
Qed.

(** The identity gives the same arrays, if their entries are float32 values (they
    always are: a mesh holds float32). *)
Theorem C94_identity : forall f32 debug m, proper m -> fixed f32 (c_vertices m) -> fixed f32 (c_normals m) ->
  exists a b, rotate f32 debug mid m = Ok a /\ transform f32 debug Geom.Model.pose_id m = Ok b /\
    c_vertices a = c_vertices m /\ c_normals a = c_normals m /\ c_vertices b = c_vertices m /\ c_normals b = c_normals m.
Proof.
  intros f32 debug m P FV FN. do 2 eexists. split; [apply rotate_ok, P|]. split; [apply transform_ok, P|].
  cbn [moved c_vertices c_normals Geom.Model.pose_id Geom.Model.pR Geom.Model.pt].
  assert (G : forall ps, fixed f32 ps -> map (fun p => each f32 (mvec mid p)) ps = ps).
  { intros ps F. rewrite <- (map_id ps) at 2. apply map_ext_in. intros p H. rewrite mvec_1. apply F, H. }
  split; [apply G, FV|]. split; [apply G, FN|]. split; [|apply G, FN].
  rewrite <- (map_id (c_vertices m)) at 2. apply map_ext_in. intros p H. rewrite mvec_1.
  replace (vadd p vzero) with p by (apply vec_eq; simpl; ring). apply FV, H.
Qed.

(** Without rounding, moving twice is moving by the composition, moving back gives the
    mesh back, and distances between vertices stay. *)
Definition exact (x : R) : R := x.
Theorem C94_compose : forall debug s t m, proper m -> exists a b c, transform exact debug t m = Ok a /\
  transform exact debug s a = Ok b /\ transform exact debug (Geom.Model.compose s t) m = Ok c /\ b = c.
Proof.
  intros debug s t m P. do 3 eexists. split; [apply transform_ok, P|].
  split; [apply transform_ok, moved_proper; [exact P|apply map_length..]|]. split; [apply transform_ok, P|].
  unfold moved. cbn [c_indices c_vertices c_normals tex]. f_equal.
  - rewrite map_map. apply map_ext. intros p. unfold exact. rewrite !each_id. cbn [Geom.Model.compose Geom.Model.pR Geom.Model.pt].
    unfold Geom.Model.rot_mul. rewrite mvec_mmul, mvec_add. apply vec_eq; simpl; ring.
  - rewrite map_map. apply map_ext. intros p. unfold exact. rewrite !each_id. cbn [Geom.Model.compose Geom.Model.pR].
    unfold Geom.Model.rot_mul. rewrite mvec_mmul. reflexivity.
Qed.

Theorem C94_inverse : forall debug t m, proper m -> rotation (pR t) ->
  exists a b, transform exact debug t m = Ok a /\ transform exact debug (Geom.Model.inverse t) a = Ok b /\
    same_but_points m b /\ c_vertices b = c_vertices m /\ c_normals b = c_normals m.
Proof.
  intros debug t m P H. destruct (C94_compose debug (Geom.Model.inverse t) t m P) as (a & b & c & A & B & C & E).
  exists a, b. split; [exact A|]. split; [exact B|]. rewrite Geom.Proofs.compose_inverse_l in C by exact H. subst c.
  destruct (C94_transform exact debug Geom.Model.pose_id m P) as (b' & B' & _ & S & _). rewrite C in B'. injection B' as <-.
  split; [exact S|].
  destruct (C94_identity exact debug m P) as (_ & b' & _ & B' & _ & _ & V & N); [intros p _; apply each_id..|].
  rewrite C in B'. injection B' as <-. split; assumption.
Qed.

Theorem C94_rigid : forall debug t m, proper m -> rotation (pR t) -> exists a, transform exact debug t m = Ok a /\
  (forall i j, (i < num_vertices m)%nat -> (j < num_vertices m)%nat ->
     dist (column (vertices a) i) (column (vertices a) j) = dist (column (vertices m) i) (column (vertices m) j)) /\
  (forall i, (i < num_vertices m)%nat -> norm (column (normals a) i) = norm (column (normals m) i)).
Proof.
  intros debug t m P H. destruct (C94_transform exact debug t m P) as (a & A & _ & _ & E). exists a. split; [exact A|]. split.
  - intros i j I J. rewrite (proj1 (E i I)), (proj1 (E j J)). unfold exact. rewrite !each_id.
    exact (Geom.Proofs.transform_from_dist t _ _ H).
  - intros i I. rewrite (proj2 (E i I)). unfold exact. rewrite each_id. apply rotation_norm, H.
Qed.

(** rotate is transform without a translation. *)
Theorem C94_rotate_is_transform : forall f32 debug r m, proper m ->
  rotate f32 debug r m = transform f32 debug (Geom.Model.Pose r vzero) m.
Proof.
  intros f32 debug r m P. rewrite rotate_ok, transform_ok by exact P. do 2 f_equal.
  apply map_ext. intros p. cbn [Geom.Model.pR Geom.Model.pt]. f_equal. apply vec_eq; simpl; ring.
Qed.

(** The material is not kept. *)
Theorem C94_material_refuted : exists m, proper m /\ forall f32 debug r t,
  exists a b, rotate f32 debug r m = Ok a /\ transform f32 debug t m = Ok b /\
    has_same_material m a = false /\ has_same_material m b = false.
Proof.
  exists (CMesh [] [] [] (Gltf.Model.Material "wood" []) None). split; [split; [reflexivity|exact I]|].
  intros f32 debug r t. do 2 eexists.
  split; [apply rotate_ok; split; [reflexivity|exact I]|]. split; [apply transform_ok; split; [reflexivity|exact I]|].
  split; reflexivity.
Qed.

(** from_mesh keeps the geometry and puts every vertex at the same texture point. *)
Theorem C94_from_mesh : forall debug m color, proper m -> exists m', from_mesh debug m color = Ok m' /\
  is_textured m' = true /\ same_size m m' = true /\ indices m' = indices m /\
  array_equal (vertices m') (vertices m) /\ array_equal (normals m') (normals m) /\ base_color m' = Ok color /\
  exists a, uv_coords m' = Ok a /\ nrow a = 2%nat /\ ncol a = num_vertices m /\
    forall i j, (i < 2)%nat -> (j < num_vertices m)%nat -> entry a i j = 0%R.
Proof.
  intros debug m color [P _].
  destruct (C94_textured_roundtrip debug (indices m) (vertices m) (normals m) (Arr 2 (num_vertices m) (fun _ _ => 0%R))
     color Gltf.Model.default_texture) as (m' & E & T & I & V & N & (a & UA & U) & B & M & NI & NV & _);
    [reflexivity..|exact P|apply le_n|].
  exists m'. split; [exact E|]. split; [exact T|]. split.
  - unfold same_size. rewrite NI, NV. change (List.length (indices m)) with (num_indices m).
    rewrite Nat.eqb_refl. change (ncol (vertices m)) with (num_vertices m). rewrite Nat.eqb_refl. reflexivity.
  - split; [exact I|]. split; [exact V|]. split; [exact N|]. split; [exact B|]. exists a. split; [exact UA|].
    destruct U as (R & C & Z). split; [exact R|]. split; [exact C|]. intros i j H J. rewrite Z; [reflexivity| |].
    + rewrite R. exact H.
    + rewrite C. exact J.
Qed.

(** from_open3d_mesh: points in order, three indices per triangle, and normals from
    Open3D, which are computed (in the argument too) if there is not one per vertex. *)
Lemma transposed_rows : forall f ps, vector3fs_of_array (np_transpose (astype f (rows_of ps))) = map (each f) ps.
Proof.
  intros f ps. apply from_columns; [reflexivity|rewrite map_length; reflexivity|].
  intros j J. rewrite map_length in J. rewrite nth_mapped by exact J. unfold column.
  cbn [np_transpose astype rows_of entry coord]. reflexivity.
Qed.

Theorem C94_open3d : forall f32 compute debug textured o,
  (forall o', List.length (compute o') = List.length (o_vertices o')) ->
  exists m o', from_open3d_mesh f32 compute debug textured o = (Ok m, o') /\ is_textured m = textured /\
    (forall k a b c, nth_error (triangles o) k = Some (a, b, c) -> (0 <= a < 2 ^ 32 -> 0 <= b < 2 ^ 32 -> 0 <= c < 2 ^ 32 ->
       nth_error (indices m) (3 * k) = Some a /\ nth_error (indices m) (3 * k + 1) = Some b /\
       nth_error (indices m) (3 * k + 2) = Some c)%Z) /\
    num_indices m = (3 * List.length (triangles o))%nat /\ num_vertices m = List.length (o_vertices o) /\
    c_vertices m = map (each f32) (o_vertices o) /\ c_normals m = map (each f32) (vertex_normals o') /\
    triangles o' = triangles o /\ o_vertices o' = o_vertices o /\
    (List.length (vertex_normals o) = List.length (o_vertices o) -> o' = o) /\
    (List.length (vertex_normals o) <> List.length (o_vertices o) -> vertex_normals o' = compute o).
Proof.
  intros f32 compute debug textured o K. unfold from_open3d_mesh.
  set (o' := if negb _ then O3d (triangles o) (o_vertices o) (compute o) else o).
  assert (L : List.length (vertex_normals o') = List.length (o_vertices o)).
  { subst o'. destruct (Nat.eqb_spec (List.length (vertex_normals o)) (List.length (o_vertices o))); cbn; [assumption|apply K]. }
  assert (F : forall ts k a b c, nth_error ts k = Some (a, b, c) -> (0 <= a < 2 ^ 32 -> 0 <= b < 2 ^ 32 -> 0 <= c < 2 ^ 32 ->
       nth_error (flatten ts) (3 * k) = Some a /\ nth_error (flatten ts) (3 * k + 1) = Some b /\
       nth_error (flatten ts) (3 * k + 2) = Some c)%Z).
  { induction ts as [|[[x y] z] ts IH]; intros [|k] a b c H A B C; try discriminate.
    - injection H as -> -> ->. cbn [flatten flat_map app Nat.mul Nat.add nth_error]. unfold to_uint32.
      rewrite !Z.mod_small by assumption. repeat split; reflexivity.
    - replace (3 * S k)%nat with (3 + 3 * k)%nat by lia. cbn [flatten flat_map app Nat.add nth_error].
      apply IH; assumption. }
  assert (FL : forall ts, List.length (flatten ts) = (3 * List.length ts)%nat).
  { induction ts as [|[[x y] z] ts IH]; [reflexivity|]. cbn [flatten flat_map app List.length]. unfold flatten in IH. lia. }
  assert (O : triangles o' = triangles o /\ o_vertices o' = o_vertices o /\
    (List.length (vertex_normals o) = List.length (o_vertices o) -> o' = o) /\
    (List.length (vertex_normals o) <> List.length (o_vertices o) -> vertex_normals o' = compute o)).
  { subst o'. destruct (Nat.eqb_spec (List.length (vertex_normals o)) (List.length (o_vertices o))) as [E|E]; cbn [negb].
    - repeat split. intros N. contradiction.
    - repeat split. intros N. contradiction. }
  exists (CMesh (flatten (triangles o)) (map (each f32) (o_vertices o)) (map (each f32) (vertex_normals o'))
            (if textured then Gltf.Model.mat (Gltf.Model.new_textured (Mesh.Model.Mesh [] [] []) [] Gltf.Model.default_texture Gltf.Model.default_texture)
             else Gltf.Model.Material "" [])
            (if textured then Some ([], Gltf.Model.default_texture, Gltf.Model.default_texture) else None)), o'.
  split.
  - f_equal. unfold TexturedMesh_init, Mesh_init, new_textured, new_mesh. rewrite !transposed_rows.
    cbn [np_transpose astype rows_of nrow ncol default_uv]. rewrite L, Nat.eqb_refl. cbn [negb Nat.leb].
    assert (S : Nat.eqb (List.length (map (each f32) (o_vertices o))) (List.length (map (each f32) (vertex_normals o'))) = true)
      by (rewrite !map_length, L; apply Nat.eqb_refl).
    destruct textured; rewrite !cpp_assert_true; first [exact S|reflexivity].
  - split; [destruct textured; reflexivity|]. split; [exact (F (triangles o))|]. split; [apply FL|].
    split; [apply map_length|]. split; [reflexivity|]. split; [reflexivity|]. exact O.
Qed.

(** Face normals and estimated normals move with the mesh: computing them for the
    moved vertices is rotating the ones computed before, errors included. *)
Theorem C94_normals_move : forall r t i ps, rotation r ->
  let moved := map (fun p => vadd (mvec r p) t) ps in
  calculate_face_normals i (array_of_vector3fs moved) =
    (let* a := calculate_face_normals i (array_of_vector3fs ps) in
     Ok (array_of_vector3fs (map (mvec r) (vector3fs_of_array a)))) /\
  estimate_normals i (array_of_vector3fs moved) =
    (let* a := estimate_normals i (array_of_vector3fs ps) in
     Ok (array_of_vector3fs (map (mvec r) (vector3fs_of_array a)))).
Proof.
  intros r t i ps H moved. unfold calculate_face_normals, estimate_normals, uint32s_of_array. rewrite !back3.
  subst moved. rewrite face_normals_moved, estimate_moved by exact H. split.
  - destruct (Mesh.Model.CalculateFaceNormals i ps); cbn [bind]; [|reflexivity]. rewrite back3. reflexivity.
  - destruct (Mesh.Model.EstimateNormals i ps); cbn [bind]; [|reflexivity]. rewrite back3. reflexivity.
Qed.

(** Points given as rows are points the indices do not find. *)
Theorem C94_normals_rows : forall i j k rest v, nrow v <> 3%nat ->
  estimate_normals (i :: j :: k :: rest) v = Err Undefined /\
  calculate_face_normals (i :: j :: k :: rest) v = Err Undefined.
Proof.
  intros i j k rest v V. unfold estimate_normals, calculate_face_normals, Mesh.Model.EstimateNormals, Mesh.Model.CalculateFaceNormals.
  rewrite none3 by exact V. unfold uint32s_of_array. cbn [Mesh.Model.iterate].
  assert (E : Mesh.Model.at_ (@nil vec) i = Err Undefined).
  { unfold Mesh.Model.at_. destruct (i <? 0)%Z; [reflexivity|]. destruct (Z.to_nat i); reflexivity. }
  rewrite E. split; reflexivity.
Qed.

(** * Cases *)
Definition corner : arr := Arr 3 3 (fun i j => if Nat.eqb i j then 2 else 0)%R.
Definition up : arr := Arr 3 3 (fun i j => if Nat.eqb i 2 then 1 else 0)%R.
Example C94_example : exists m m', Mesh_init true [0; 1; 2]%Z corner up = Ok m /\ proper m /\
  transform exact true (Geom.Model.Pose (Geom.Model.Rz (PI / 2)) (V 10 0 0)) m = Ok m' /\
  indices m' = [0; 1; 2]%Z /\ column (vertices m') 0 = V 10 2 0 /\ column (vertices m') 1 = V 8 0 0 /\
  column (normals m') 1 = V 0 0 1.
Proof.
  destruct (C94_roundtrip true [0; 1; 2]%Z corner up eq_refl eq_refl eq_refl) as (m & E & _ & I & (VR & VC & V) & (NR & NC & N) & _ & K & P).
  destruct (C94_transform exact true (Geom.Model.Pose (Geom.Model.Rz (PI / 2)) (Vec.V 10 0 0)) m P) as (m' & E' & _ & (_ & S & _) & C).
  exists m, m'. split; [exact E|]. split; [exact P|]. split; [exact E'|]. split; [congruence|].
  assert (H : forall j, (j < 3)%nat -> column (vertices m) j = column corner j /\ column (normals m) j = column up j).
  { intros j J. unfold column. rewrite !V, !N; [split; reflexivity|..]; rewrite ?VR, ?VC, ?NR, ?NC; cbn; lia. }
  rewrite K in C. cbn [corner ncol] in C.
  rewrite (proj1 (C 0%nat ltac:(lia))), (proj1 (C 1%nat ltac:(lia))), (proj2 (C 1%nat ltac:(lia))).
  rewrite (proj1 (H 0%nat ltac:(lia))), (proj1 (H 1%nat ltac:(lia))), (proj2 (H 1%nat ltac:(lia))).
  unfold exact. rewrite !each_id. unfold pR, pt, column. cbn [Geom.Model.pR Geom.Model.pt corner up entry Nat.eqb].
  unfold Geom.Model.Rz, Geom.Model.FromScalars. rewrite cos_PI2, sin_PI2.
  repeat split; apply vec_eq; simpl; ring.
Qed.

Example C94_open3d_example : exists m o', from_open3d_mesh exact (fun o => o_vertices o) false false
    (O3d [(0, 1, 2)]%Z [V 1 0 0; V 0 1 0; V 0 0 1] []) = (Ok m, o') /\
  indices m = [0; 1; 2]%Z /\ c_vertices m = [V 1 0 0; V 0 1 0; V 0 0 1] /\ c_normals m = c_vertices m /\
  vertex_normals o' = [V 1 0 0; V 0 1 0; V 0 0 1].
Proof. do 2 eexists. split; [reflexivity|]. repeat split; reflexivity. Qed.

Print Assumptions C94_roundtrip.
Print Assumptions C94_textured_roundtrip.
Print Assumptions C94_raises.
Print Assumptions C94_rows_dropped.
Print Assumptions C94_uv_dropped.
Print Assumptions C94_rows_refuted.
Print Assumptions C94_three_rows_refuted.
Print Assumptions C94_rotate.
Print Assumptions C94_transform.
Print Assumptions C94_move_raises.
Print Assumptions C94_identity.
Print Assumptions C94_compose.
Print Assumptions C94_inverse.
Print Assumptions C94_rigid.
Print Assumptions C94_rotate_is_transform.
Print Assumptions C94_material_refuted.
Print Assumptions C94_from_mesh.
Print Assumptions C94_open3d.
Print Assumptions C94_normals_move.
Print Assumptions C94_normals_rows.
