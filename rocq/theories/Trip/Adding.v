(** Adding one mesh, and many. *)
From Coq Require Import List Bool ZArith QArith Ascii String Sorted Lia.
From Verif.Base Require Import Py.
From Verif.Mesh Require Model.
From Verif.Gltf Require Model Spec Proofs.
From Verif.Uri Require Import Model.
From Verif.Doc Require Import Model Facts.
From Verif.Doc Require Import Spec.
From Verif.Text Require Import Spec.
From Verif.Text Require Files.
From Verif.Trip Require Import Model Spec Floats Building.
Import ListNotations.
Local Open Scope Z_scope.

Ltac fields := cbn [pushed with_data with_scene with_looks ensure accessors animations buffers views materials meshes nodes textures images skins samplers cameras scenes lights extensions default_scene
  extensions_used extensions_required m_asset m_extras].

Lemma vec3_words : forall l, Forall vec3_ok l -> Forall Gltf.Spec.is_vec3 l.
Proof. intros l F. eapply Forall_impl; [|exact F]. intros [[x y] z] V. unfold vec3_ok in V. cbn [coordinates3] in V. rewrite !Forall_cons_iff in V. cbn. tauto. Qed.
Lemma vec2_words : forall l, Forall vec2_ok l -> Forall Gltf.Spec.is_vec2 l.
Proof. intros l F. eapply Forall_impl; [|exact F]. intros [x y] V. unfold vec2_ok in V. cbn [coordinates2] in V. rewrite !Forall_cons_iff in V. cbn. tauto. Qed.
Lemma snoc : forall A (P : A -> Prop) l x, Forall P l -> P x -> Forall P (l ++ [x]).
Proof. intros A P l x F X. apply Forall_app. split; [exact F|constructor; [exact X|constructor]]. Qed.

Definition arrays (t : tmesh) : Z :=
  4 * len (Mesh.Model.indices (geo t)) + 12 * len (Mesh.Model.vertices (geo t)) + 12 * len (Mesh.Model.normals (geo t)).
Lemma prim_step : forall a n x g t, building a n x g -> storable t -> a + 3 < 2 ^ 31 -> n + 1 < 2 ^ 31 -> data_size g + arrays t <= 2 ^ 53 ->
  exists g' mt i nn pp, addPrimitiveMesh g t = Ok g' /\ building (a + 3) (n + 1) x g' /\ data_size g' = data_size g + arrays t /\
    meshes g' = meshes g ++ [Mesh "" [Primitive [("NORMAL"%string, nn); ("POSITION"%string, pp)] mt i 4 [] VNull] [] [] [] VNull] /\
    mt = n /\ 0 <= i < 2 ^ 31 /\ int nn /\ int pp /\ materials g' = materials g ++ [mat t] /\ buffers g' <> [].
Proof.
  intros a n x g t B S A N D. destruct S as [SI [VN SV] [NN SN] SM _].
  assert (EN : exists data ns, buffers (ensure g) = [Buffer "" data "" VNull] /\ scenes (ensure g) = [Scene "" ns [] VNull] /\ Forall int ns /\ len ns = n /\ len data = data_size g).
  { unfold data_size. destruct (b_buf _ _ _ _ B) as [(B1 & B2 & ->)|(data & ns & B1 & B2 & B3 & B4)]; fields; rewrite B1, B2; do 2 eexists; (split; [reflexivity|]; split; [reflexivity|]; split; [|split]); try eassumption; constructor. }
  destruct EN as (data & ns & EB & ES & EI & EL & ED).
  destruct (uint_fine _ SI) as (lo1 & hi1 & B1 & F1). destruct (vec3_fine _ SV) as (lo2 & hi2 & B2 & F2). destruct (vec3_fine _ SN) as (lo3 & hi3 & B3 & F3).
  assert (S1 := Gltf.Proofs.flat_size _ _ _ _ Gltf.Proofs.uint_faithful SI). assert (S2 := Gltf.Proofs.flat_size _ _ _ _ Gltf.Proofs.vec3_faithful (vec3_words _ SV)).
  assert (S3 := Gltf.Proofs.flat_size _ _ _ _ Gltf.Proofs.vec3_faithful (vec3_words _ SN)). cbn [Gltf.Model.width_of Gltf.Model.uint_layout Gltf.Model.vec3_layout] in S1, S2, S3.
  assert (L1 := len_pos _ (Mesh.Model.indices (geo t))). assert (L2 := len_pos _ (Mesh.Model.vertices (geo t))). assert (L3 := len_pos _ (Mesh.Model.normals (geo t))). assert (L4 := len_pos _ data).
  unfold arrays in D |- *. unfold addPrimitiveMesh. erewrite push_eq; [|exact EB|discriminate|exact B1]. cbn [bind].
  erewrite push_eq; [|reflexivity|intros _; exact VN|exact B2]. cbn [bind]. erewrite push_eq; [|reflexivity|intros _; exact NN|exact B3]. cbn [bind].
  destruct B as [BA BN BX BB B_A B_V B_M B_N B_T B_I B_S B_MA B_R]. destruct BA as [BA1 BA2]. destruct BN as (BN1 & BN2 & BN3).
  assert (P1 := len_pos _ (accessors g)). assert (P2 := len_pos _ (materials g)). unfold int.
  do 5 eexists. split; [reflexivity|]. split; [|split; [|split; [|split; [|split; [|split; [|split; [|split]]]]]]]; fields.
  2:{ unfold data_size at 1. fields. cbn [bu_data]. rewrite !len_app, S1, S2, S3. unfold Gltf.Model.word in *. lia. }
  2:{ cbn. reflexivity. }
  7:{ discriminate. } 6:{ reflexivity. }
  2:{ lia. } 2:{ lia. } 2:{ rewrite !len_app. cbn. lia. } 2:{ rewrite !len_app. cbn. lia. }
  constructor; fields.
  - rewrite !len_app. cbn. lia.
  - rewrite !len_app. cbn. lia.
  - exact BX.
  - right. fold (ensure g). cbn [ensure with_scene with_data scenes] in ES. rewrite ES. cbn [add_node sc_name sc_nodes sc_extensions sc_extras]. do 2 eexists. split; [reflexivity|]. split; [reflexivity|].
    split; [apply snoc; [exact EI|unfold int; assert (Q := len_pos _ (nodes g)); lia]|]. rewrite len_app, EL. cbn. lia.
  - apply snoc; [apply snoc; [apply snoc; [exact B_A|]|]|]; do 6 eexists; (split; [reflexivity|]; split; [rewrite ?len_app; cbn; lia|]; split; [cbn; tauto|]; split; [unfold Gltf.Model.word in *; lia|]; split; [cbn; tauto|assumption]).
  - apply snoc; [apply snoc; [apply snoc; [exact B_V|]|]|]; do 4 eexists; (split; [reflexivity|]; split; [|split; [|split; cbn; tauto]]); rewrite ?len_app, ?S1, ?S2, ?S3; cbn; unfold Gltf.Model.word in *; lia.
  - apply snoc; [exact B_M|]. eexists. split; [reflexivity|]. do 3 eexists. split; [reflexivity|]. split; [|split; [lia|rewrite ?len_app; cbn; lia]]. do 2 eexists. split; [|split; [|left; reflexivity]]; unfold int; rewrite ?len_app; cbn; lia.
  - apply snoc; [exact B_N|]. eexists. split; [reflexivity|lia].
  - exact B_T.
  - exact B_I.
  - exact B_S.
  - apply snoc; [exact B_MA|exact SM].
  - destruct B_R as (R1 & R2 & R3 & R4 & R5 & R6 & R7 & R8 & R9 & R10). repeat (split; [assumption|]). right. reflexivity.
Qed.

Lemma push_step : forall a n x g uv, building a n x g -> buffers g <> [] -> Forall vec2_ok uv -> a + 1 < 2 ^ 31 -> data_size g + 8 * len uv <= 2 ^ 53 ->
  exists g', pushData Gltf.Model.vec2_layout vec2_bounds false Gltf.Model.ARRAY g uv = Ok (g', len (accessors g)) /\ building (a + 1) n x g' /\
    data_size g' = data_size g + 8 * len uv /\ meshes g' = meshes g /\ materials g' = materials g /\ buffers g' <> [].
Proof.
  intros a n x g uv B NB F A D. destruct (b_buf _ _ _ _ B) as [(C & _)|(data & ns & EB & ES & EI & EL)]; [contradiction|].
  assert (ED : data_size g = len data) by (unfold data_size; rewrite EB; reflexivity).
  destruct (vec2_fine _ F) as (lo & hi & BO & FI). assert (S := Gltf.Proofs.flat_size _ _ _ _ Gltf.Proofs.vec2_faithful (vec2_words _ F)). cbn [Gltf.Model.width_of Gltf.Model.vec2_layout] in S.
  assert (L1 := len_pos _ uv). assert (L4 := len_pos _ data). erewrite push_eq; [|exact EB|discriminate|exact BO].
  destruct B as [BA BN BX BB B_A B_V B_M B_N B_T B_I B_S B_MA B_R]. destruct BA as [BA1 BA2]. assert (P1 := len_pos _ (accessors g)).
  eexists. split; [reflexivity|]. split; [|split; [|split; [reflexivity|split; [reflexivity|discriminate]]]].
  2:{ unfold data_size at 1. fields. cbn [bu_data]. rewrite len_app, S, ED. lia. }
  constructor; fields; try assumption.
  - rewrite !len_app. cbn. lia.
  - right. do 2 eexists. split; [reflexivity|]. split; [exact ES|]. split; [exact EI|exact EL].
  - apply snoc; [exact B_A|]. do 6 eexists. split; [reflexivity|]. split; [lia|]. split; [cbn; tauto|]. split; [lia|]. split; [cbn; tauto|assumption].
  - apply snoc; [exact B_V|]. do 4 eexists. split; [reflexivity|]. split; [|split; [|split; cbn; tauto]]; cbn; lia.
Qed.

Lemma texture_parameter_ok : forall id, 0 <= id < 2 ^ 31 -> parameter_ok (texture_parameter id) /\ of_parameter finite15 utf8_string (texture_parameter id).
Proof.
  intros id I. split.
  - apply ok_json; [repeat constructor|]. intros q [E|[]]. injection E as <-. rewrite trunc_int. unfold int. lia.
  - split; [apply Files.ascii_utf8; reflexivity|]. split; [constructor|]. split; [|discriminate]. cbn [texture_parameter json_double_value].
    constructor; [|constructor]. split; [apply Files.ascii_utf8; reflexivity|]. apply finite15_int. lia.
Qed.
Lemma put_Forall : forall A (P : string * A -> Prop) k v l, Forall P l -> P (k, v) -> Forall P (put k v l).
Proof.
  intros A P k v l F X. induction F as [|[y w] l Y F IH]; cbn [put]; [constructor; [exact X|constructor]|].
  destruct (String.compare k y); constructor; try assumption. constructor; assumption.
Qed.
Lemma put_keys : forall A k (v : A) l, ordered l -> get k l <> None -> map fst (put k v l) = map fst l.
Proof.
  intros A k v l O. induction O as [|[x w] l O IH F]; intros G; [contradiction|]. cbn [get] in G. cbn [put map fst snd].
  destruct (String.compare k x) eqn:C.
  - apply String.compare_eq_iff in C. subst x. reflexivity.
  - exfalso. destruct (String.eqb_spec x k) as [->|N]; [rewrite (compare_refl k) in C; discriminate|]. apply G. clear -F C.
    induction F as [|[y u] l Y F IH]; [reflexivity|]. cbn [get]. destruct (String.eqb_spec y k) as [->|N]; [|exact IH]. cbn [fst] in Y.
    rewrite String.compare_antisym, Y in C. discriminate.
  - destruct (String.eqb_spec x k) as [->|N]; [rewrite (compare_refl k) in C; discriminate|]. cbn [map fst]. f_equal. apply IH, G.
Qed.
Lemma fine_values : forall key mt id, material_ok mt /\ of_material mt -> get key (ma_values mt) <> None -> utf8_string key -> 0 <= id < 2 ^ 31 ->
  let mt' := with_values mt (put key (texture_parameter id) (ma_values mt)) in material_ok mt' /\ of_material mt'.
Proof.
  intros key mt id [(M1 & (M2 & M3) & M4 & M5 & M6 & M7) (O1 & O2 & O3 & O4 & O5)] G U I mt'. destruct (texture_parameter_ok id I) as [P1 P2]. unfold mt', with_values.
  split.
  - unfold material_ok. cbn [ma_name ma_values ma_additional ma_extensions ma_extras]. split; [right; left; destruct (ma_values mt) as [|[y w] l]; cbn [put]; [discriminate|destruct (String.compare key y); discriminate]|].
    split; [split; [apply ordered_put, M2|apply put_Forall; assumption]|]. repeat (split; [assumption|]). assumption.
  - unfold of_material. cbn [ma_name ma_values ma_additional ma_extensions ma_extras]. split; [assumption|]. split; [apply put_Forall; [exact O2|split; assumption]|]. repeat (split; [assumption|]). assumption.
Qed.

Definition a_texture (mt : material) (key : string) : Prop :=
  get key (ma_values mt) = None \/ exists id, get key (ma_values mt) = Some (texture_parameter id).
Definition became (t : tmesh) (mt : material) : Prop :=
  renumbered (mat t) mt /\ (tex t <> None -> a_texture mt "baseColorTexture" /\ a_texture mt "metallicRoughnessTexture").
Lemma map_step : forall a n x g mt key t, building a n x g -> material_ok mt /\ of_material mt -> is_picture t -> lists_texture mt key t -> utf8_string key -> x + 1 < 2 ^ 31 ->
  key = "baseColorTexture"%string \/ key = "metallicRoughnessTexture"%string ->
  exists g' mt', add_map key t (g, mt) = Ok (g', mt') /\ building a n (x + 1) g' /\ (material_ok mt' /\ of_material mt') /\ renumbered mt mt' /\
    (forall k, k <> key -> get k (ma_values mt') = get k (ma_values mt)) /\
    data_size g' = data_size g /\ meshes g' = meshes g /\ materials g' = materials g /\ buffers g' = buffers g /\ samplers g' = samplers g /\ a_texture mt' key.
Proof.
  intros a n x g mt key t B M IM LT U X K. unfold add_map. destruct B as [BA BN [BX1 BX2] BB B_A B_V B_M B_N B_T B_I B_S B_MA B_R].
  destruct (Gltf.Model.empty t) eqn:EM.
  - exists g, mt. split; [reflexivity|]. split; [constructor; try assumption; split; [exact BX1|lia]|]. split; [exact M|]. split; [repeat split|]. split; [reflexivity|]. do 5 (split; [reflexivity|]).
    left. destruct (get key (ma_values mt)) eqn:GE; [|reflexivity]. exfalso. apply Gltf.Proofs.empty_iff in EM. apply LT in EM; [exact EM|congruence].
  - assert (ND : Gltf.Model.data t <> []) by (intro C; apply Gltf.Proofs.empty_iff in C; congruence). assert (G := proj2 LT ND). destruct (get key (ma_values mt)) as [p|] eqn:GE; [|contradiction].
    assert (P := len_pos _ (images g)). unfold addTexture. do 2 eexists. split; [reflexivity|].
    assert (GN : get key (ma_values mt) <> None) by congruence.
    split; [|split; [apply fine_values; [exact M|exact GN|exact U|lia]|split; [|split; [|split; [reflexivity|split; [reflexivity|split; [reflexivity|split; [reflexivity|split; [reflexivity|]]]]]]]]].
    + constructor; fields; try assumption.
      * rewrite !len_app. cbn. lia.
      * apply snoc; [exact B_T|]. eexists. split; [reflexivity|lia].
      * intros k i E. destruct (Nat.lt_ge_cases k (List.length (images g))) as [L|L].
        -- rewrite nth_error_app1 in E by exact L. apply B_I, E.
        -- rewrite nth_error_app2 in E by exact L. destruct (k - List.length (images g))%nat as [|j] eqn:EK; [|destruct j; discriminate E]. injection E as <-.
           exists t. split; [exact IM|]. split; [exact ND|]. replace k with (List.length (images g)) by lia. destruct IM as [(I1 & I2 & I3 & _) _]. rewrite firstn_all2 by (unfold Mesh.Model.size in I3; lia). reflexivity.
    + unfold renumbered, with_values. cbn [ma_name ma_values ma_additional ma_extensions ma_extras]. repeat (split; [reflexivity|]).
      destruct M as [(_ & (O & _) & _) _]. split; [apply put_keys; assumption|]. intros k N1 N2. rewrite get_put. destruct (String.eqb_spec key k); [destruct K; congruence|reflexivity].
    + intros k N. cbn [with_values ma_values]. rewrite get_put. destruct (String.eqb_spec key k); [congruence|reflexivity].
    + right. eexists. cbn [with_values ma_values]. rewrite get_put, String.eqb_refl. reflexivity.
Qed.

Lemma building_more : forall a n x g a' x', building a n x g -> a <= a' -> x <= x' -> building a' n x' g.
Proof. intros a n x g a' x' [[B1 B2] B3 [B4 B5] ? ? ? ? ? ? ? ? ? ?] A X. constructor; try assumption; split; (assumption || lia). Qed.
Definition mats (g : model) : list (list Z) := map (fun e => map pr_material (me_primitives e)) (meshes g).

Lemma tex_step : forall a n x g t uv color rough, building a n x g -> storable t -> tex t = Some (uv, color, rough) -> a + 4 < 2 ^ 31 -> n + 1 < 2 ^ 31 -> x + 2 < 2 ^ 31 ->
  data_size g + bytes t <= 2 ^ 53 ->
  exists g' mt, addTexturedPrimitiveMesh g t uv color rough = Ok g' /\ building (a + 4) (n + 1) (x + 2) g' /\ data_size g' = data_size g + bytes t /\
    materials g' = materials g ++ [mt] /\ became t mt /\ mats g' = mats g ++ [[n]] /\ buffers g' <> [] /\
    Gltf.Model.addTexturedPrimitiveMesh (seen g) (seen_mesh t) uv color rough = Ok (seen g').
Proof.
  intros a n x g t uv color rough B ST T A N X D. assert (TX := st_texture _ ST). rewrite T in TX. destruct TX as (TU & TC & TR & LC & LR). unfold bytes in D |- *. rewrite T in D |- *. fold (arrays t) in D |- *.
  assert (LU := len_pos _ uv). assert (SM := st_material _ ST). assert (NP : 0 <= n) by (destruct (b_n _ _ _ _ B) as [<- _]; apply len_pos).
  destruct (prim_step a n x g t B ST) as (g1 & mt & i & nn & pp & E1 & B1 & D1 & M1 & -> & I1 & N1 & P1 & MA1 & BU1); [lia|lia|lia|].
  destruct (push_step _ _ _ g1 uv B1 BU1 TU) as (g2 & E2 & B2 & D2 & M2 & MA2 & BU2); [lia|lia|].
  unfold addTexturedPrimitiveMesh. rewrite E1. cbn [bind]. rewrite E2. cbn [bind]. rewrite M2, M1, last_last. cbn [me_primitives bind pr_attributes].
  rewrite removelast_last. cbn [me_name removelast app me_weights me_targets me_extensions me_extras pr_material pr_indices pr_mode pr_targets pr_extras].
  change (put "TEXCOORD_0" (len (accessors g1)) [("NORMAL"%string, nn); ("POSITION"%string, pp)]) with [("NORMAL"%string, nn); ("POSITION"%string, pp); ("TEXCOORD_0"%string, len (accessors g1))].
  set (e' := Mesh "" _ [] [] [] VNull). set (g3 := with_scene g2 _ _ _ _).
  assert (B3 : building (a + 3 + 1) (n + 1) x g3).
  { assert (LA := len_pos _ (accessors g1)). assert (LB := proj1 (b_acc _ _ _ _ B1)). destruct B2 as [? (BN1 & BN2 & BN3) ? ? ? ? BM ? ? ? ? ? ?]. unfold g3. constructor; fields; try assumption.
    - split; [exact BN1|]. split; [|exact BN3]. rewrite M2, M1, len_app in BN2. rewrite len_app. exact BN2.
    - rewrite M2, M1 in BM. apply Forall_app in BM. destruct BM as [BM _]. apply snoc; [exact BM|]. eexists. split; [reflexivity|]. do 3 eexists. split; [reflexivity|].
      split; [|split; [|exact I1]]. exists nn, pp. split; [exact N1|]. split; [exact P1|]. right. exists (len (accessors g1)). split; [unfold int; lia|reflexivity]. lia. }
  assert (S3 : Gltf.Model.pushData Gltf.Model.vec2_layout false Gltf.Model.ARRAY (seen g1) uv = Ok (seen g2, len (accessors g1))) by (apply push_seen with (1 := E2)).
  destruct (map_step _ _ _ g3 (mat t) "baseColorTexture"%string color B3 SM TC LC) as (g4 & m4 & E4 & B4 & K4 & R4 & O4 & D4 & M4 & MA4 & BU4 & SA4 & TT4); [apply Files.ascii_utf8; reflexivity|lia|left; reflexivity|].
  assert (LR' : lists_texture m4 "metallicRoughnessTexture" rough) by (unfold lists_texture; rewrite O4 by discriminate; exact LR).
  destruct (map_step _ _ _ g4 m4 "metallicRoughnessTexture"%string rough B4 K4 TR LR') as (g5 & m5 & E5 & B5 & K5 & R5 & O5 & D5 & M5 & MA5 & BU5 & SA5 & TT5); [apply Files.ascii_utf8; reflexivity|lia|right; reflexivity|].
  assert (Q4 : ordered (ma_values (mat t))) by (destruct SM as [(_ & (? & _) & _) _]; assumption).
  assert (Q5 : ordered (ma_values m4)) by (destruct K4 as [(_ & (? & _) & _) _]; assumption).
  assert (S4 := map_seen _ _ _ _ _ _ Q4 E4). assert (S5 := map_seen _ _ _ _ _ _ Q5 E5).
  rewrite E4. cbn [bind]. rewrite E5. cbn [bind]. do 2 eexists. split; [reflexivity|].
  assert (MA : materials g5 = materials g ++ [mat t]) by (rewrite MA5, MA4; unfold g3; fields; rewrite MA2; exact MA1).
  split; [|split; [|split; [|split; [|split; [|split]]]]].
  - replace (a + 4) with (a + 3 + 1) by lia. replace (x + 2) with (x + 1 + 1) by lia. destruct B5 as [? (BN1 & BN2 & BN3) ? ? ? ? ? ? ? ? BS BM ?]. constructor; fields; try assumption.
    + split; [|split; assumption]. rewrite MA in *. rewrite removelast_last. rewrite len_app in *. exact BN1.
    + destruct (samplers g5); [constructor; [reflexivity|constructor]|exact BS].
    + rewrite MA in *. rewrite removelast_last. apply Forall_app in BM. apply snoc; [apply BM|exact K5].
  - change (data_size (with_looks g5 _ _ _ _)) with (data_size g5). rewrite D5, D4. change (data_size g3) with (data_size g2). lia.
  - fields. rewrite MA, removelast_last. reflexivity.
  - split; [|intros _; split; [|exact TT5]; unfold a_texture; rewrite O5 by discriminate; exact TT4].
    destruct R4 as (A1 & A2 & A3 & A4 & A5 & A6), R5 as (C1 & C2 & C3 & C4 & C5 & C6). unfold renumbered. rewrite C1, C2, C3, C4, C5. do 5 (split; [assumption|]). intros k N1' N2'. rewrite C6 by assumption. apply A6; assumption.
  - unfold mats. fields. rewrite M5, M4. unfold g3. fields. rewrite map_app. reflexivity.
  - fields. rewrite BU5, BU4. exact BU2.
  - unfold Gltf.Model.addTexturedPrimitiveMesh. rewrite (prim_seen _ _ _ E1). cbn [bind]. rewrite S3. cbn [bind].
    assert (SM2 : Gltf.Model.meshes (seen g2) = map (fun e => map primitive_of (me_primitives e)) (meshes g) ++ [[Gltf.Model.Primitive [("POSITION"%string, pp); ("NORMAL"%string, nn)] i n 4]]).
    { cbn [seen Gltf.Model.meshes]. rewrite M2, M1, map_app. reflexivity. }
    rewrite SM2, last_last. unfold Gltf.Model.set_last at 1. rewrite removelast_last. cbn [Gltf.Model.attributes Gltf.Model.p_indices Gltf.Model.p_material Gltf.Model.p_mode].
    match goal with |- context [Gltf.Model.add_map "baseColorTexture" color (?G, _)] => assert (EG : G = seen g3) end.
    { unfold g3, seen, with_scene. cbn [Gltf.Model.buffers Gltf.Model.views Gltf.Model.accessors Gltf.Model.meshes Gltf.Model.nodes Gltf.Model.scenes Gltf.Model.defaultScene Gltf.Model.materials Gltf.Model.images Gltf.Model.textures Gltf.Model.samplers].
      fields. rewrite (map_app _ (meshes g)). reflexivity. }
    rewrite EG. cbn [seen_mesh Gltf.Model.mat]. rewrite S4. cbn [bind]. rewrite S5. cbn [bind]. f_equal. unfold seen, with_looks, Gltf.Model.set_last.
    cbn [Gltf.Model.buffers Gltf.Model.views Gltf.Model.accessors Gltf.Model.meshes Gltf.Model.nodes Gltf.Model.scenes Gltf.Model.defaultScene Gltf.Model.materials Gltf.Model.images Gltf.Model.textures Gltf.Model.samplers].
    fields. rewrite MA, removelast_last, !map_app; cbn [map]; rewrite removelast_last. destruct (samplers g5); reflexivity.
Qed.

Lemma add_step : forall a n x g t, building a n x g -> storable t -> a + 4 < 2 ^ 31 -> n + 1 < 2 ^ 31 -> x + 2 < 2 ^ 31 -> data_size g + bytes t <= 2 ^ 53 ->
  exists g' mt, add_mesh g t = Ok g' /\ building (a + 4) (n + 1) (x + 2) g' /\ data_size g' = data_size g + bytes t /\
    materials g' = materials g ++ [mt] /\ became t mt /\ mats g' = mats g ++ [[n]] /\ buffers g' <> [] /\
    Gltf.Model.add_mesh (seen g) (seen_mesh t) = Ok (seen g').
Proof.
  intros a n x g t B ST A N X D. unfold add_mesh, Gltf.Model.add_mesh. cbn [seen_mesh Gltf.Model.tex]. destruct (tex t) as [[[uv color] rough]|] eqn:T; [apply (tex_step a n x); assumption|].
  unfold bytes in D |- *. rewrite T in D |- *. fold (arrays t) in D |- *.
  destruct (prim_step a n x g t B ST) as (g1 & mt & i & nn & pp & E1 & B1 & D1 & M1 & -> & I1 & N1 & P1 & MA1 & BU1); [lia|lia|lia|].
  exists g1, (mat t). split; [exact E1|]. split; [eapply building_more; [exact B1|lia|lia]|]. split; [lia|]. split; [exact MA1|]. split; [split; [repeat split|congruence]|].
  split; [unfold mats; rewrite M1, map_app; reflexivity|]. split; [exact BU1|]. apply prim_seen, E1.
Qed.

(** * All of them *)
Lemma bytes_pos : forall t, 0 <= bytes t.
Proof.
  intros t. unfold bytes. assert (L1 := len_pos _ (Mesh.Model.indices (geo t))). assert (L2 := len_pos _ (Mesh.Model.vertices (geo t))). assert (L3 := len_pos _ (Mesh.Model.normals (geo t))).
  destruct (tex t) as [[[uv ?] ?]|]; [assert (L4 := len_pos _ uv)|]; lia.
Qed.
Lemma all_bytes_pos : forall ts, 0 <= all_bytes ts.
Proof. induction ts as [|t ts IH]; cbn [all_bytes fold_right]; [lia|]. assert (B := bytes_pos t). unfold all_bytes in IH. lia. Qed.
Lemma add_steps : forall ts a n x g, building a n x g -> Forall storable ts -> a + 4 * len ts < 2 ^ 31 -> n + len ts < 2 ^ 31 -> x + 2 * len ts < 2 ^ 31 -> data_size g + all_bytes ts <= 2 ^ 53 ->
  exists g' mts, foldM add_mesh g ts = Ok g' /\ building (a + 4 * len ts) (n + len ts) (x + 2 * len ts) g' /\ data_size g' = data_size g + all_bytes ts /\
    materials g' = materials g ++ mts /\ Forall2 became ts mts /\
    mats g' = mats g ++ map (fun k => [n + Z.of_nat k]) (seq 0 (List.length ts)) /\ (ts = [] \/ buffers g' <> []) /\
    foldM Gltf.Model.add_mesh (seen g) (map seen_mesh ts) = Ok (seen g').
Proof.
  induction ts as [|t ts IH]; intros a n x g B F A N X D.
  - exists g, []. cbn [foldM map len List.length seq]. change (len (@nil tmesh)) with 0. rewrite !Z.add_0_r, !app_nil_r. split; [reflexivity|]. split; [exact B|]. split; [cbn; lia|]. split; [reflexivity|]. split; [constructor|]. split; [reflexivity|]. split; [left; reflexivity|reflexivity].
  - inversion F as [|? ? F1 F2]; subst. assert (L : len (t :: ts) = 1 + len ts) by (unfold Mesh.Model.size; cbn [List.length]; lia). assert (LP := len_pos _ ts). rewrite L in *. cbn [all_bytes fold_right] in D. fold (all_bytes ts) in D. assert (BP := all_bytes_pos ts).
    destruct (add_step a n x g t B F1) as (g1 & mt & E1 & B1 & D1 & M1 & R1 & MM1 & BU1 & S1); [lia|lia|lia|lia|].
    destruct (IH _ _ _ g1 B1 F2) as (g' & mts & E2 & B2 & D2 & M2 & R2 & MM2 & BU2 & S2); [lia|lia|lia|lia|].
    exists g', (mt :: mts). cbn [foldM map]. rewrite E1, S1. cbn [bind]. split; [exact E2|].
    split; [replace (a + 4 * (1 + len ts)) with (a + 4 + 4 * len ts) by lia; replace (n + (1 + len ts)) with (n + 1 + len ts) by lia; replace (x + 2 * (1 + len ts)) with (x + 2 + 2 * len ts) by lia; exact B2|].
    split; [cbn [all_bytes fold_right]; fold (all_bytes ts); lia|]. split; [rewrite M2, M1, <- app_assoc; reflexivity|]. split; [constructor; assumption|].
    split; [|split; [|exact S2]].
    + rewrite MM2, MM1, <- app_assoc. cbn [List.length seq map app]. f_equal. cbn [Z.of_nat]. rewrite Z.add_0_r. f_equal. rewrite <- seq_shift, map_map. apply map_ext. intros k. f_equal. lia.
    + right. destruct BU2 as [->|BU2]; [injection E2 as <-; exact BU1|exact BU2].
Qed.
