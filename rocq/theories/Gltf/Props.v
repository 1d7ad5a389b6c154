(** C40, C41, C65 and C66: glTF models. *)
From Coq Require Import List Bool ZArith QArith String Lia.
From Verif.Base Require Import Py PyFacts.
From Verif.Mesh Require Import Model.
From Verif.Gltf Require Import Model Spec Proofs.
Import ListNotations.
Local Open Scope string_scope.
Local Open Scope list_scope.
Local Open Scope Z_scope.

(** * C40 *)

(** Adding a mesh to any model: the new primitive extracts to it, and whatever could
    be extracted before still can, unchanged. *)
Theorem C40_add : forall g m, storable m ->
  exists g' m', add_mesh g m = Ok g' /\
    List.length (primitives g') = S (List.length (primitives g)) /\
    extract_mesh g' (List.length (primitives g)) = Ok m' /\ same_content m m' /\
    forall k m0, extract_mesh g k = Ok m0 -> extract_mesh g' k = Ok m0.
Proof.
  intros g m S. destruct (add_ok g m S) as (g' & m' & E & L & K & X & C). exists g', m'. do 4 (split; [assumption|]).
  intros k m0. apply extract_mesh_keeps, K.
Qed.

(** Every sequence of additions to an empty model. *)
Theorem C40_roundtrip : forall ms, Forall storable ms ->
  exists g ms', foldM add_mesh empty_model ms = Ok g /\ primitive_meshes g = Ok ms' /\ Forall2 same_content ms ms' /\
    forall k m, nth_error ms k = Some m -> exists m', extract_primitive_mesh g k = Ok m' /\ same_content m m'.
Proof.
  intros ms S. destruct (add_all ms empty_model [] S eq_refl) as (g & ms' & E & P & F). exists g, ms'. cbn [app] in P. do 3 (split; [assumption|]).
  intros k m Q. unfold extract_primitive_mesh. rewrite P. cbn [bind]. clear -F Q. revert k Q. induction F as [|x y l l' C F IH]; intros [|k] Q; try discriminate Q; cbn [nth_error] in *.
  - injection Q as <-. eauto.
  - apply IH, Q.
Qed.

(** Continuing from a model whose meshes can be extracted. *)
Theorem C40_roundtrip_from : forall ms g old, Forall storable ms -> primitive_meshes g = Ok old ->
  exists g' ms', foldM add_mesh g ms = Ok g' /\ primitive_meshes g' = Ok (old ++ ms') /\ Forall2 same_content ms ms'.
Proof. intros. apply add_all; assumption. Qed.

(** A mesh as the constructor makes it can be stored if it has a color texture. *)
Theorem C40_new_storable : forall (m : mesh vec3 vec3) uv color rough,
  Forall is_word (indices m) -> Forall is_vec3 (vertices m) -> vertices m <> [] -> Forall is_vec3 (normals m) -> normals m <> [] ->
  Forall is_vec2 uv -> is_image color -> is_image rough -> data color <> [] ->
  storable (new_textured m uv color rough) /\ storable (new_mesh m).
Proof.
  intros m uv color rough A B C D E F G H I. split; [|do 5 (split; [assumption|]); exact Logic.I]. do 5 (split; [assumption|]). cbn [new_textured tex mat]. do 3 (split; [assumption|]).
  unfold textured_material. split; split; cbn [values app dget String.eqb Ascii.eqb Bool.eqb].
  - intros _. exact I.
  - intros _. eexists. reflexivity.
  - intros (p & Q) C1. apply empty_iff in C1. rewrite C1 in Q. discriminate Q.
  - intro NE. destruct (empty rough) eqn:Q; [apply empty_iff in Q; contradiction|]. eexists. reflexivity.
Qed.

(** A mesh without vertices cannot be added: the first vertex is read anyway. *)
Theorem C40_no_vertices : forall g m, vertices (geo m) = [] -> add_mesh g m = Err Undefined.
Proof.
  intros g m E. assert (A : addPrimitiveMesh g m = Err Undefined).
  { unfold addPrimitiveMesh. destruct (pushData uint_layout false ELEMENT_ARRAY (ensure g) (indices (geo m))) as [[g1 i]|e] eqn:Q.
    - cbn [bind]. rewrite E. reflexivity.
    - unfold pushData in Q. cbn [andb] in Q. unfold reallyAddToBuffer, ensure in Q. cbn [buffers] in Q. destruct (buffers g); discriminate Q. }
  unfold add_mesh, addTexturedPrimitiveMesh. rewrite A. destruct (tex m) as [[[? ?] ?]|]; reflexivity.
Qed.

Definition tri : mesh vec3 vec3 := Mesh [0; 1; 2] [(0, 0, 0); (1065353216, 0, 0); (0, 1065353216, 0)] [(0, 0, 1); (0, 0, 1); (0, 0, 1)].
Definition pixel (c : Z) : mat3b := Mat3b 1 1 [c; c; c].
Definition red_tri : pmesh := new_textured tri [(0, 0); (1, 0); (0, 1)] (pixel 200) no_image.
Definition bare_tri : pmesh := new_textured tri [(0, 0); (1, 0); (0, 1)] no_image no_image.

Lemma red_storable : storable red_tri.
Proof.
  apply (C40_new_storable tri [(0, 0); (1, 0); (0, 1)] (pixel 200) no_image); try discriminate.
  - cbn. repeat (apply Forall_cons; [unfold is_word; lia|]). apply Forall_nil.
  - cbn. repeat (apply Forall_cons; [unfold is_vec3, is_word; lia|]). apply Forall_nil.
  - cbn. repeat (apply Forall_cons; [unfold is_vec3, is_word; lia|]). apply Forall_nil.
  - repeat (apply Forall_cons; [unfold is_vec2, is_word; lia|]). apply Forall_nil.
  - split; [discriminate|]. split; [discriminate|]. split; [reflexivity|discriminate].
  - split; [discriminate|]. split; [discriminate|]. split; reflexivity.
Qed.

(** A textured mesh without a base color image still lists texture 0 in its
    material; once the model has an image that is what extracting it shows. *)
Theorem C40_stale_texture_refuted : exists m other g g' m',
  add_mesh empty_model m = Ok g /\ add_mesh g other = Ok g' /\ storable other /\
  tex m = Some ([(0, 0); (1, 0); (0, 1)], no_image, no_image) /\
  extract_mesh g 0 = Err InvalidArgument /\
  extract_mesh g' 0 = Ok m' /\ tex m' = Some ([(0, 0); (1, 0); (0, 1)], pixel 200, no_image).
Proof.
  exists bare_tri, red_tri. eexists. eexists. eexists. split; [vm_compute; reflexivity|]. split; [vm_compute; reflexivity|].
  split; [|split; [reflexivity|split; [vm_compute; reflexivity|split; [vm_compute; reflexivity|reflexivity]]]].
  exact red_storable.
Qed.

(** A copied mesh loses its material and then cannot be added. *)
Theorem C40_copy_refuted : exists m g, storable m /\ add_mesh empty_model m = Ok g /\ tex (copy_mesh m) = tex m /\
  add_mesh empty_model (copy_mesh m) = Err RuntimeError.
Proof.
  exists red_tri. eexists. split; [|split; [vm_compute; reflexivity|split; [vm_compute; reflexivity|vm_compute; reflexivity]]].
  exact red_storable.
Qed.

Example C40_two : exists g m0 m1, foldM add_mesh empty_model [new_mesh tri; red_tri] = Ok g /\
  primitive_meshes g = Ok [m0; m1] /\ m0 = new_mesh tri /\ geo m1 = tri /\ tex m1 = tex red_tri /\
  map (fun b => size b) (buffers g) = [192].
Proof. do 3 eexists. do 5 (split; [vm_compute; reflexivity|]). vm_compute. reflexivity. Qed.

(** * C41 *)

(** Updating the material of a mesh: what it extracts to afterwards. *)
Theorem C41_update : forall file decode g k r gr b path dir m img,
  extract_mesh g k = Ok m ->
  (path <> "" -> exists bytes w h px, file (dir ++ "/" ++ path)%string = Some bytes /\ bytes <> [] /\
     decode bytes = (w, h, 3, px) /\ size px = w * h * 3 /\ img = Mat3b h w px) ->
  exists g' m', updateMaterial file decode g k (r, gr, b) path dir = Ok g' /\
    extract_mesh g' k = Ok m' /\ geo m' = geo m /\
    (path = "" -> tex m' = tex m) /\
    (path <> "" -> tex m' = match tex m with Some (uv, _, rough) => Some (uv, img, rough) | None => None end) /\
    (path <> "" -> extract_map g' "baseColorTexture" (mat m') = Ok img) /\
    (~ r == 0 -> ~ gr == 0 -> ~ b == 0 -> sget "baseColorFactor" (values (mat m')) = Some (Param [r; gr; b; 1%Q] 0%Q []))%Q /\
    (r == 0 \/ gr == 0 \/ b == 0 -> sget "baseColorFactor" (values (mat m')) = sget "baseColorFactor" (values (mat m)))%Q /\
    (path = "" -> sget "baseColorTexture" (values (mat m')) = sget "baseColorTexture" (values (mat m))) /\
    (forall key, key <> "baseColorFactor" -> key <> "baseColorTexture" -> sget key (values (mat m')) = sget key (values (mat m))) /\
    List.length (primitives g') = List.length (primitives g) /\
    forall j m0, j <> k -> extract_mesh g j = Ok m0 -> extract_mesh g' j = Ok m0.
Proof.
  intros file decode g k r gr b path dir m img EX FI.
  assert (EX' := EX). unfold extract_mesh in EX'. destruct (getPrimitiveMesh g k) as [p|] eqn:GP; [|discriminate EX']. cbn [bind] in EX'.
  destruct (extractPrimitiveMesh g k) as [[gm mt]|] eqn:EG; [|discriminate EX']. cbn [bind] in EX'.
  assert (MP := proj1 (getPrimitive_Ok _ _ _) GP). destruct (proj1 (extract_geo g k p gm mt GP) EG) as (RG & MA).
  assert (UP : exists g', updateMaterial file decode g k (r, gr, b) path dir = Ok g').
  { unfold updateMaterial. rewrite MP. assert (MA' := MA). unfold material_at in MA'. destruct ((p_material p <? 0) || (size (materials g) <=? p_material p)); [discriminate MA'|].
    rewrite MA'. cbn [bind]. destruct (String.eqb_spec path "") as [|NP]; [cbn [bind]; eauto|].
    destruct (FI NP) as (bytes & w & h & px & F1 & F2 & F3 & _). unfold loadTexture. rewrite F1. destruct bytes as [|x l]; [contradiction|]. rewrite F3. cbn [bind]. eexists. reflexivity. }
  destruct UP as (g' & UP). destruct (update_shape _ _ _ _ _ _ _ _ _ _ UP) as (p' & mt' & vals & MP' & MA' & X & PI & PT & EPS & EMA & CASE).
  assert (p' = p) by congruence. subst p'. assert (mt' = mt) by congruence. subst mt'.
  assert (KL : (k < List.length (primitives g))%nat) by (apply nth_error_Some; congruence).
  set (mtn := Material (material_name (size (materials g))) vals) in *.
  set (pn := Primitive (attributes p) (p_indices p) (size (materials g)) (p_mode p)) in *.
  assert (GP' : getPrimitiveMesh g' k = Ok pn) by (apply getPrimitive_Ok; rewrite EPS; apply set_nth_same; exact KL).
  assert (EG' : extractPrimitiveMesh g' k = Ok (gm, mtn)).
  { apply (extract_geo g' k pn gm mtn GP'). split; [apply (read_geo_ext _ _ p gm X RG)|]. cbn [pn p_material]. unfold material_at. rewrite EMA, size_app. change (size [_]) with 1. assert (SM := size_pos _ (materials g)).
    destruct (Z.ltb_spec (size (materials g)) 0); [lia|]. destruct (Z.leb_spec (size (materials g) + 1) (size (materials g))); [lia|]. cbn [orb]. apply at_last. }
  destruct (update_keeps _ _ _ _ _ _ _ _ _ _ UP) as (LEN & KEEP).
  assert (FACT : (~ r == 0 -> ~ gr == 0 -> ~ b == 0 -> sget "baseColorFactor" vals = Some (Param [r; gr; b; 1%Q] 0%Q []))%Q /\
    (r == 0 \/ gr == 0 \/ b == 0 -> sget "baseColorFactor" vals = sget "baseColorFactor" (values mt))%Q /\
    (path = "" -> sget "baseColorTexture" vals = sget "baseColorTexture" (values mt)) /\
    (forall key, key <> "baseColorFactor" -> key <> "baseColorTexture" -> sget key vals = sget key (values mt)) /\
    (path <> "" -> extract_map g' "baseColorTexture" mtn = Ok img)).
  { assert (TF := tint_factor r gr b mt). destruct CASE as [(EP & EV)|(NP & g1 & t & EL & EI & ET & EV)].
    - rewrite EV. split; [apply TF|]. split; [apply TF|]. split; [intros _; apply tint_other; discriminate|]. split; [intros; apply tint_other; assumption|]. contradiction.
    - rewrite EV. rewrite !dget_dset_other by (try apply str_eqb_spec; discriminate). split; [apply TF|]. split; [apply TF|]. split; [contradiction|]. split.
      + intros key D1 D2. rewrite dget_dset_other by (try apply str_eqb_spec; congruence). apply tint_other, D1.
      + intros _. unfold extract_map. cbn [mtn values]. rewrite EV, dget_dset_same by apply str_eqb_spec. cbn [index_param json atE dget String.eqb Ascii.eqb Bool.eqb bind].
        destruct (FI NP) as (bytes & w & h & px & F1 & F2 & F3 & F4 & F5). unfold loadTexture in EL. rewrite F1 in EL. destruct bytes as [|x l]; [contradiction|]. rewrite F3 in EL. injection EL as <- <-.
        cbn [images textures] in EI, ET. unfold extractTexture. rewrite ET, EI, !size_app. change (size [_]) with 1. assert (ST := size_pos _ (textures g)). assert (SI := size_pos _ (images g)).
        destruct (Z.ltb_spec (size (textures g)) 0); [lia|]. destruct (Z.leb_spec (size (textures g) + 1) (size (textures g))); [lia|]. cbn [orb].
        rewrite at_last. cbn [bind source]. change (size [_]) with 1. destruct (Z.leb_spec (size (images g) + 1) (size (images g))); [lia|]. rewrite at_last. cbn [bind].
        unfold cvImageFromImage. cbn [component pixels width height Z.eqb Pos.eqb negb andb]. rewrite F4, Z.eqb_refl, F5. reflexivity. }
  destruct FACT as (FA & FB & FC & FD & FE).
  assert (ROUGH : extract_map g' "metallicRoughnessTexture" mtn = extract_map g' "metallicRoughnessTexture" mt) by (unfold extract_map; cbn [mtn values]; rewrite FD by discriminate; reflexivity).
  assert (COL : path = "" -> extract_map g' "baseColorTexture" mtn = extract_map g' "baseColorTexture" mt) by (intro EP; unfold extract_map; cbn [mtn values]; rewrite (FC EP); reflexivity).
  destruct (sget "TEXCOORD_0" (attributes p)) as [u|] eqn:TC.
  - step EX'. step EX'. step EX'. injection EX' as <-. cbn [geo mat tex].
    exists g', (PMesh gm mtn (Some (a, (if String.eqb path "" then a0 else img), a1))). split; [exact UP|]. split; [|split; [reflexivity|]].
    + unfold extract_mesh. rewrite GP'. cbn [bind]. rewrite EG'. cbn [bind pn attributes]. rewrite TC.
      rewrite (getVector_ext _ vec2_layout _ _ _ _ ltac:(cbn; lia) X H). cbn [bind].
      destruct (String.eqb_spec path "") as [EP|NP].
      * rewrite (COL EP), (extract_map_ext _ _ _ _ _ PI PT H0). cbn [bind]. rewrite ROUGH, (extract_map_ext _ _ _ _ _ PI PT H1). reflexivity.
      * rewrite (FE NP). cbn [bind]. rewrite ROUGH, (extract_map_ext _ _ _ _ _ PI PT H1). reflexivity.
    + cbn [tex mat]. split; [intros ->; reflexivity|]. split; [intro NP; destruct (String.eqb_spec path "") as [EP|]; [contradiction|reflexivity]|].
      split; [exact FE|]. split; [exact FA|]. split; [exact FB|]. split; [exact FC|]. split; [exact FD|]. split; [exact LEN|].
      intros j m0 D. apply extract_mesh_keeps, KEEP, D.
  - injection EX' as <-. cbn [geo mat tex]. exists g', (PMesh gm mtn None). split; [exact UP|]. split; [|split; [reflexivity|]].
    + unfold extract_mesh. rewrite GP'. cbn [bind]. rewrite EG'. cbn [bind pn attributes]. rewrite TC. reflexivity.
    + cbn [tex mat]. split; [reflexivity|]. split; [reflexivity|].
      split; [exact FE|]. split; [exact FA|]. split; [exact FB|]. split; [exact FC|]. split; [exact FD|]. split; [exact LEN|].
      intros j m0 D. apply extract_mesh_keeps, KEEP, D.
Qed.

(** The two failures. *)
Theorem C41_errors : forall file decode g k color path dir,
  ((List.length (primitives g) <= k)%nat -> updateMaterial file decode g k color path dir = Err InvalidArgument) /\
  (forall m, extract_mesh g k = Ok m -> path <> "" ->
     file (dir ++ "/" ++ path)%string = None \/ file (dir ++ "/" ++ path)%string = Some [] ->
     updateMaterial file decode g k color path dir = Err RuntimeError).
Proof.
  intros file decode g k [[r gr] b] path dir. split.
  - intro L. unfold updateMaterial. rewrite (proj2 (nth_error_None _ _) L). reflexivity.
  - intros m EX NP FI. unfold extract_mesh in EX. destruct (getPrimitiveMesh g k) as [p|] eqn:GP; [|discriminate EX]. cbn [bind] in EX.
    destruct (extractPrimitiveMesh g k) as [[gm mt]|] eqn:EG; [|discriminate EX].
    destruct (proj1 (extract_geo g k p gm mt GP) EG) as (_ & MA). unfold updateMaterial. rewrite (proj1 (getPrimitive_Ok _ _ _) GP). unfold material_at in MA.
    destruct ((p_material p <? 0) || (size (materials g) <=? p_material p)); [discriminate MA|]. rewrite MA. cbn [bind].
    destruct (String.eqb_spec path "") as [|_]; [contradiction|]. unfold loadTexture. destruct FI as [-> | ->]; reflexivity.
Qed.

(** Meshes for which the list has None, or which are beyond its end, stay as they were. *)
Theorem C41_update_materials : forall file decode g dir l g',
  update_materials file decode g dir l = Ok g' ->
  List.length (primitives g') = List.length (primitives g) /\
  forall k m, nth_error l k = None \/ nth_error l k = Some None -> extract_mesh g k = Ok m -> extract_mesh g' k = Ok m.
Proof.
  intros file decode g dir l g' E. destruct (updates_keep _ _ _ _ _ _ _ E) as (L & K). split; [exact L|]. intros k m C. apply extract_mesh_keeps, K. right. rewrite Nat.sub_0_r. exact C.
Qed.

(** Any color but black should be applied; pure red is ignored. *)
Theorem C41_color_refuted : exists g k color, ~ (let '(r, gr, b) := color in (r == 0 /\ gr == 0 /\ b == 0)%Q) /\
  forall file decode dir, exists g' m m', updateMaterial file decode g k color "" dir = Ok g' /\
    extract_mesh g k = Ok m /\ extract_mesh g' k = Ok m' /\ values (mat m') = values (mat m).
Proof.
  destruct (C40_add empty_model red_tri red_storable) as (g & m & _ & _ & EX & _). change (List.length (primitives empty_model)) with 0%nat in EX.
  exists g, 0%nat, (1, 0, 0)%Q. split; [intros (C & _); discriminate C|]. intros file decode dir.
  destruct (C41_update file decode g 0 1 0 0 "" dir m no_image EX ltac:(congruence)) as (g' & m' & U & X & _).
  exists g', m, m'. split; [exact U|]. split; [exact EX|]. split; [exact X|].
  destruct (update_shape _ _ _ _ _ _ _ _ _ _ U) as (p & mt & vals & EP & MA & XD & _ & _ & EPS & EMA & [(_ & EV)|(C & _)]); [|contradiction].
  unfold tint in EV. cbn [Qeq_bool Qnum Qden Z.mul Pos.mul Zeq_bool Z.compare Pos.compare Pos.compare_cont negb andb] in EV.
  assert (GP := proj2 (getPrimitive_Ok _ _ _) EP).
  assert (GP' : getPrimitiveMesh g' 0 = Ok (Primitive (attributes p) (p_indices p) (size (materials g)) (p_mode p))).
  { apply getPrimitive_Ok. rewrite EPS. apply set_nth_same. apply nth_error_Some. congruence. }
  assert (V1 : mat m = mt).
  { unfold extract_mesh in EX. rewrite GP in EX. cbn [bind] in EX. step EX. destruct a as [m0 mt0]. destruct (proj1 (extract_geo _ _ _ _ _ GP) H) as (_ & MA0). assert (mt0 = mt) by congruence. subst mt0.
    destruct (sget "TEXCOORD_0" (attributes p)); [step EX; step EX; step EX|]; injection EX as <-; reflexivity. }
  assert (V2 : values (mat m') = vals).
  { unfold extract_mesh in X. rewrite GP' in X. cbn [bind] in X. step X. destruct a as [m0 mt0]. destruct (proj1 (extract_geo _ _ _ _ _ GP') H) as (_ & MA0).
    cbn [p_material] in MA0. unfold material_at in MA0. rewrite EMA, at_last in MA0. destruct ((size (materials g) <? 0) || (_ <=? size (materials g))); [discriminate MA0|]. injection MA0 as <-.
    destruct (sget "TEXCOORD_0" _); [step X; step X; step X|]; injection X as <-; reflexivity. }
  rewrite V1, V2. exact EV.
Qed.

Example C41_grey : exists g g' m', add_mesh empty_model red_tri = Ok g /\
  updateMaterial (fun _ => Some [7]) (fun _ => (1, 1, 3, [5; 6; 7])) g 0 (1 # 2, 1 # 2, 1 # 2)%Q "t.png" "dir" = Ok g' /\
  extract_mesh g' 0 = Ok m' /\ tex m' = Some ([(0, 0); (1, 0); (0, 1)], Mat3b 1 1 [5; 6; 7], no_image) /\
  map fst (values (mat m')) = ["baseColorTexture"; "baseColorFactor"] /\ name (mat m') = "material_1".
Proof. do 3 eexists. do 5 (split; [vm_compute; reflexivity|]). vm_compute. reflexivity. Qed.

(** * C65 *)

(** Images with distinct names are all written, each under its name. *)
Theorem C65_save : forall g, NoDup (map uri (images g)) -> Forall savable (images g) ->
  exists fs, saveImages g = Ok fs /\ map fst fs = map uri (images g) /\
    forall i, In i (images g) -> exists pic, cvImageFromImage i = Ok pic /\ sget (uri i) fs = Some pic.
Proof. exact save_all. Qed.

(** A model built by adding meshes always has them distinct: every texture of every
    mesh is among the files. *)
Theorem C65_built : forall ms, Forall storable ms ->
  exists g fs, foldM add_mesh empty_model ms = Ok g /\ saveImages g = Ok fs /\ NoDup (map fst fs) /\
    forall m uv color rough, In m ms -> tex m = Some (uv, color, rough) ->
      (data color <> [] -> exists nm, sget nm fs = Some color) /\
      (data rough <> [] -> exists nm, sget nm fs = Some rough).
Proof.
  intros ms ST. destruct (C40_roundtrip ms ST) as (g & ms' & E & P & F & K).
  assert (N : named g) by (eapply adds_named; [exact ST| |exact E]; intros [|k] i Q; discriminate Q).
  destruct (save_all g (named_distinct g N)) as (fs & S1 & S2 & S3).
  { apply Forall_forall. intros i I. destruct (In_nth_error _ _ I) as (k & Q). apply (N _ _ Q). }
  exists g, fs. split; [exact E|]. split; [exact S1|]. split; [rewrite S2; apply named_distinct, N|].
  assert (SAVED : forall key mt t, extract_map g key mt = Ok t -> data t <> [] -> exists nm, sget nm fs = Some t).
  { intros key mt t X NE. destruct (extract_map_image _ _ _ _ X NE) as (i & I & C). destruct (S3 _ I) as (pic & C' & G). exists (uri i). congruence. }
  intros m uv color rough I T. destruct (In_nth_error _ _ I) as (k & Q). destruct (K k m Q) as (m' & X & C).
  unfold extract_primitive_mesh in X. rewrite P in X. cbn [bind] in X. destruct (nth_error ms' k) as [x|] eqn:Q'; [|discriminate X]. injection X as ->.
  unfold primitive_meshes in P. destruct (mapM_nth _ _ _ _ _ P) as (L & NT). assert (Lk : (k < List.length (seq 0 (List.length (primitives g))))%nat) by (rewrite <- L; apply nth_error_Some; congruence).
  rewrite seq_length in Lk. assert (SK : nth_error (seq 0 (List.length (primitives g))) k = Some k).
  { rewrite (nth_error_nth' _ 0%nat) by (rewrite seq_length; exact Lk). rewrite seq_nth by exact Lk. reflexivity. }
  destruct (NT _ _ SK) as (y & Y1 & Y2). assert (y = m') by congruence. subst y.
  destruct C as (_ & CT & _). rewrite T in CT. unfold extract_mesh in Y2. step Y2. step Y2. destruct a0 as [gm mt]. destruct (sget "TEXCOORD_0" (attributes a)).
  - step Y2. step Y2. step Y2. injection Y2 as <-. cbn [tex] in CT. injection CT as -> -> ->. split; eapply SAVED; eassumption.
  - injection Y2 as <-. discriminate CT.
Qed.

(** Adding to a loaded model can reuse the name of an image it already has; saving
    then loses that image. *)
Theorem C65_collision_refuted : exists g m g' fs i,
  NoDup (map uri (images g)) /\ Forall savable (images g) /\ storable m /\ add_mesh g m = Ok g' /\
  In i (images g') /\ saveImages g' = Ok fs /\ List.length (images g') = 2%nat /\ List.length fs = 1%nat /\
  ~ exists nm pic, cvImageFromImage i = Ok pic /\ sget nm fs = Some pic.
Proof.
  exists (GModel [] [] [] [] [] [] 0 [] [Image "1.png" 1 1 3 [9; 9; 9]] [Texture 0 0] [tt]), red_tri. eexists. eexists. exists (Image "1.png" 1 1 3 [9; 9; 9]).
  split; [constructor; [intros []|constructor]|]. split.
  { constructor; [|constructor]. split; [discriminate|]. split; [discriminate|]. eexists. reflexivity. }
  split; [exact red_storable|]. split; [vm_compute; reflexivity|]. split; [left; reflexivity|]. split; [vm_compute; reflexivity|].
  split; [reflexivity|]. split; [reflexivity|]. intros (nm & pic & C & G). vm_compute in C. injection C as <-. cbn [dget] in G.
  destruct (String.eqb nm "1.png"); discriminate G.
Qed.

Example C65_two : exists g fs, foldM add_mesh empty_model [red_tri; new_mesh tri; red_tri] = Ok g /\ saveImages g = Ok fs /\ fs = [("0.png", pixel 200); ("1.png", pixel 200)].
Proof. do 2 eexists. do 2 (split; [vm_compute; reflexivity|]). reflexivity. Qed.

(** * C66 *)

Lemma map_eqb_spec : forall A (eqb : A -> A -> bool) (va vb : list (string * A)), NoDup (map fst va) -> NoDup (map fst vb) ->
  (map_eqb eqb va vb = true <-> (forall key, In key (map fst va) <-> In key (map fst vb)) /\ forall key p q, sget key va = Some p -> sget key vb = Some q -> eqb p q = true).
Proof.
  intros A eqb va vb NA NB. unfold map_eqb. rewrite andb_true_iff, Z.eqb_eq, forallb_forall. split.
  - intros (S & F).
    assert (I : incl (map fst va) (map fst vb)).
    { intros key I. apply in_map_iff in I. destruct I as ((k & p) & <- & I). specialize (F _ I). cbn in F. destruct (sget k vb) as [q|] eqn:Q; [|discriminate F].
      apply dget_In in Q; [|apply str_eqb_spec]. apply (in_map fst) in Q. exact Q. }
    split.
    + intro key. split; [apply I|]. apply (NoDup_length_incl NA); [rewrite !map_length; unfold size in S; lia|exact I].
    + intros key p q P Q. apply dget_In in P; [|apply str_eqb_spec]. specialize (F _ P). cbn in F. rewrite Q in F. exact F.
  - intros (K & V). split.
    + unfold size. rewrite <- (map_length fst va), <- (map_length fst vb). f_equal. apply Nat.le_antisymm; apply NoDup_incl_length; auto; intros x; apply K.
    + intros (k & p) I. cbn. assert (J := proj1 (K k) (in_map fst _ _ I)).
      destruct (sget k vb) as [q|] eqn:Q; [|apply dget_None in Q; [contradiction|apply str_eqb_spec]].
      apply (V k); [|exact Q]. clear -NA I. induction va as [|(k', p') va IH]; [destruct I|]. cbn [map fst] in NA. inversion NA as [|? ? N1 N2]; subst. cbn [dget].
      destruct I as [E|I]; [injection E as -> ->; rewrite String.eqb_refl; reflexivity|].
      destruct (String.eqb_spec k k') as [->|_]; [exfalso; apply N1; apply (in_map fst) in I; exact I|]. apply IH; assumption.
Qed.
Lemma map_eqb_same : forall va vb : list (string * Z), NoDup (map fst va) -> NoDup (map fst vb) -> (map_eqb Z.eqb va vb = true <-> forall f, sget f va = sget f vb).
Proof.
  intros va vb NA NB. rewrite (map_eqb_spec _ _ _ _ NA NB). split.
  - intros (K & V) f. destruct (sget f va) as [p|] eqn:P, (sget f vb) as [q|] eqn:Q; [f_equal; apply Z.eqb_eq; eapply V; eassumption| | |reflexivity].
    + apply dget_None in Q; [|apply str_eqb_spec]. apply dget_In in P; [|apply str_eqb_spec]. exfalso. apply Q, K. apply (in_map fst) in P. exact P.
    + apply dget_None in P; [|apply str_eqb_spec]. apply dget_In in Q; [|apply str_eqb_spec]. exfalso. apply P, K. apply (in_map fst) in Q. exact Q.
  - intro H. assert (K : forall (v w : list (string * Z)), (forall f, sget f v = sget f w) -> forall key, In key (map fst v) -> In key (map fst w)).
    { intros v w G key I. destruct (sget key w) as [q|] eqn:Q; [apply dget_In in Q; [|apply str_eqb_spec]; apply (in_map fst) in Q; exact Q|]. rewrite <- G in Q. apply dget_None in Q; [contradiction|apply str_eqb_spec]. }
    split; [intro key; split; apply K; [exact H|intro f; symmetry; apply H]|]. intros key p q P Q. rewrite H in P. apply Z.eqb_eq. congruence.
Qed.

(** What hasSameMaterial compares: the names, the keys, and the texture indices (and
    texture coordinate sets) under them. *)
Theorem C66_same_material : forall a b,
  NoDup (map fst (values (mat a))) -> NoDup (map fst (values (mat b))) ->
  (forall key p, In (key, p) (values (mat a) ++ values (mat b)) -> NoDup (map fst (json p))) ->
  (hasSameMaterial a b = true <->
   name (mat a) = name (mat b) /\ (forall key, In key (map fst (values (mat a))) <-> In key (map fst (values (mat b)))) /\
   forall key p q, sget key (values (mat a)) = Some p -> sget key (values (mat b)) = Some q -> forall f, sget f (json p) = sget f (json q)).
Proof.
  intros a b NA NB NJ. unfold hasSameMaterial. rewrite andb_true_iff, String.eqb_eq, (map_eqb_spec _ _ _ _ NA NB).
  assert (D : forall key p q, sget key (values (mat a)) = Some p -> sget key (values (mat b)) = Some q -> (parametersEqual p q = true <-> forall f, sget f (json p) = sget f (json q))).
  { intros key p q P Q. apply dget_In in P; [|apply str_eqb_spec]. apply dget_In in Q; [|apply str_eqb_spec]. apply map_eqb_same; eapply NJ, in_or_app; [left; exact P|right; exact Q]. }
  split.
  - intros ((K & V) & N). split; [exact N|]. split; [exact K|]. intros key p q P Q. apply (D key p q P Q). apply (V key); assumption.
  - intros (N & K & V). split; [split; [exact K|]|exact N]. intros key p q P Q. apply (D key p q P Q). apply (V key); assumption.
Qed.

(** So meshes of different color have the same material. *)
Theorem C66_color_refuted : exists a b, hasSameMaterial a b = true /\
  sget "baseColorFactor" (values (mat a)) = Some (Param [1; 0; 0; 1]%Q 0%Q []) /\
  sget "baseColorFactor" (values (mat b)) = Some (Param [0; 0; 1; 1]%Q 0%Q []).
Proof.
  exists (PMesh tri (Material "" [("baseColorFactor", Param [1; 0; 0; 1]%Q 0%Q [])]) None),
         (PMesh tri (Material "" [("baseColorFactor", Param [0; 0; 1; 1]%Q 0%Q [])]) None). repeat split.
Qed.

(** When a mesh is dual-textured: the textures of its material are the first and the
    second. *)
Theorem C66_dual_iff : forall m, hasDualTextureMaterial m = Ok true <->
  exists c r, sget "baseColorTexture" (values (mat m)) = Some c /\ sget "index" (json c) = Some 0 /\
    sget "metallicRoughnessTexture" (values (mat m)) = Some r /\ sget "index" (json r) = Some 1.
Proof.
  intro m. unfold hasDualTextureMaterial, atE. destruct (sget "baseColorTexture" (values (mat m))) as [c|]; [|split; [discriminate|intros (c & r & H & _); discriminate H]].
  destruct (sget "index" (json c)) as [i|] eqn:I; cbn [bind]; [|split; [discriminate|intros (c' & r & H & J & _); injection H as <-; congruence]].
  destruct (Z.eqb_spec i 0) as [->|N]; cbn [negb]; [|split; [discriminate|intros (c' & r & H & J & _); injection H as <-; congruence]].
  destruct (sget "metallicRoughnessTexture" (values (mat m))) as [r|]; [|split; [discriminate|intros (c' & r & _ & _ & H & _); discriminate H]].
  destruct (sget "index" (json r)) as [j|] eqn:J; cbn [bind]; [|split; [discriminate|intros (c' & r' & _ & _ & H & G); injection H as <-; congruence]].
  split; [intro H; injection H as H; apply Z.eqb_eq in H; subst j; exists c, r; repeat split; assumption|].
  intros (c' & r' & _ & _ & H & G). injection H as <-. rewrite J in G. injection G as ->. reflexivity.
Qed.

(** A new mesh with both textures is dual-textured, with one it is not. *)
Theorem C66_dual_new : forall m uv color rough,
  hasDualTextureMaterial (new_textured m uv color rough) = Ok (negb (empty rough)).
Proof. intros m uv color rough. unfold hasDualTextureMaterial, new_textured, textured_material. cbn [mat values app]. destruct (empty rough); reflexivity. Qed.

(** Once extracted from a model holding another texture before it, it no longer is. *)
Theorem C66_dual_refuted : exists m g m', storable m /\ hasDualTextureMaterial m = Ok true /\
  foldM add_mesh empty_model [red_tri; m] = Ok g /\ extract_primitive_mesh g 1 = Ok m' /\ same_content m m' /\
  hasDualTextureMaterial m' = Ok false.
Proof.
  assert (S2 : storable (new_textured tri [(0, 0); (1, 0); (0, 1)] (pixel 200) (pixel 7))).
  { destruct red_storable as (A & B & C & D & E & F & G & H & _). apply C40_new_storable; try assumption; [|discriminate]. split; [discriminate|]. split; [discriminate|]. split; [reflexivity|discriminate]. }
  exists (new_textured tri [(0, 0); (1, 0); (0, 1)] (pixel 200) (pixel 7)). eexists. eexists. split; [exact S2|]. split; [reflexivity|].
  split; [vm_compute; reflexivity|]. split; [vm_compute; reflexivity|]. split; [|reflexivity].
  split; [reflexivity|]. split; [reflexivity|]. split; [reflexivity|]. intros key D1 D2. cbn [mat new_textured textured_material values app empty pixel data dget].
  apply String.eqb_neq in D1, D2. rewrite D1, D2. reflexivity.
Qed.

(** from_mesh promises no metallic roughness texture; there always is one, black. *)
Theorem C66_from_mesh_refuted : forall m c, exists uv color,
  tex (from_mesh m c) = Some (uv, color, Mat3b 3 4 (repeat 0 36)) /\ uv = map (fun _ => (0, 0)) (vertices m) /\
  (let '(r, g, b) := c in color = Mat3b 2 2 [r; g; b; r; g; b; r; g; b; r; g; b]) /\
  hasDualTextureMaterial (from_mesh m c) = Ok true.
Proof.
  intros m [[r g] b]. do 2 eexists. split; [reflexivity|]. split; [reflexivity|]. split; reflexivity.
Qed.

Print Assumptions C40_add.
Print Assumptions C40_roundtrip.
Print Assumptions C40_roundtrip_from.
Print Assumptions C40_new_storable.
Print Assumptions C40_no_vertices.
Print Assumptions C40_stale_texture_refuted.
Print Assumptions C40_copy_refuted.
Print Assumptions C41_update.
Print Assumptions C41_errors.
Print Assumptions C41_update_materials.
Print Assumptions C41_color_refuted.
Print Assumptions C65_save.
Print Assumptions C65_built.
Print Assumptions C65_collision_refuted.
Print Assumptions C66_same_material.
Print Assumptions C66_color_refuted.
Print Assumptions C66_dual_iff.
Print Assumptions C66_dual_new.
Print Assumptions C66_dual_refuted.
Print Assumptions C66_from_mesh_refuted.
