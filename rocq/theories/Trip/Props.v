(** C101: meshes that are added to a model, saved as .gltf with .bin and .png files, and
    loaded. *)
From Coq Require Import List Bool ZArith QArith Ascii String Sorted Lia.
From Verif.Base Require Import Py.
From Verif.Mesh Require Model.
From Verif.Gltf Require Model Spec Proofs Props.
From Verif.Uri Require Import Model.
From Verif.Uri Require Spec Paths Props.
From Verif.Doc Require Import Model Facts.
From Verif.Doc Require Import Spec.
From Verif.Text Require Import Spec.
From Verif.Text Require Model Files Decimals Range.
From Verif.Trip Require Import Model Spec Floats Building Adding Fits Reading Saving Bounds Arrays.
Import ListNotations.
Local Open Scope Z_scope.

Lemma storable_seen : forall t, storable t -> Gltf.Spec.storable (seen_mesh t).
Proof.
  intros t [SI [VN SV] [NN SN] _ ST]. unfold Gltf.Spec.storable. cbn [seen_mesh Gltf.Model.geo Gltf.Model.tex Gltf.Model.mat]. split; [exact SI|]. split; [apply vec3_words, SV|]. split; [exact VN|]. split; [apply vec3_words, SN|]. split; [exact NN|].
  destruct (tex t) as [[[uv color] rough]|]; [|exact ST]. destruct ST as (U & C & R & LC & LR). split; [apply vec2_words, U|]. split; [apply C|]. split; [apply R|].
  assert (L : forall key i, lists_texture (mat t) key i -> Gltf.Spec.lists_texture (material_of (mat t)) key i).
  { intros key i H. unfold lists_texture in H. unfold Gltf.Spec.lists_texture. rewrite get_seen. destruct (get key (ma_values (mat t))) as [p|].
    - split; [intros _; apply H; discriminate|intros _; eexists; reflexivity].
    - split; [intros [p P]; discriminate P|intros N; apply H in N; contradiction]. }
  split; apply L; assumption.
Qed.
Lemma all_bytes_positive : forall ts, ts <> [] -> Forall storable ts -> 0 < all_bytes ts.
Proof.
  intros [|t ts] N F; [contradiction|]. inversion F as [|? ? S _]; subst. destruct S as [_ [VN _] _ _ _]. cbn [all_bytes fold_right]. assert (P := all_bytes_pos ts). fold (all_bytes ts).
  unfold bytes. assert (L1 := len_pos _ (Mesh.Model.indices (geo t))). assert (L3 := len_pos _ (Mesh.Model.normals (geo t))).
  assert (0 < len (Mesh.Model.vertices (geo t))) by (destruct (Mesh.Model.vertices (geo t)); [contradiction|]; unfold Mesh.Model.size; cbn [List.length]; lia).
  destruct (tex t) as [[[uv ?] ?]|]; [assert (L4 := len_pos _ uv)|]; lia.
Qed.

(** What is stored comes back: geometry and pictures bit by bit, materials with doubles of
    15 digits; other files stay. *)
Theorem C101_roundtrip : forall isdir expand encode decode f32 fs d root ts,
  Uri.Spec.expands expand -> Uri.Spec.folder d -> Forall Uri.Spec.plain d -> Uri.Spec.simple root -> Forall Uri.Spec.plain root -> isdir d = true ->
  png_ok encode decode -> ts <> [] -> Forall storable ts -> 4 * len ts < 2 ^ 31 -> all_bytes ts <= 2 ^ 53 ->
  let filename := Uri.Spec.in_folder d (root ++ lit ".gltf") in
  exists g fs' g' ts' f, foldM add_mesh new_model ts = Ok g /\ save_as_gltf isdir encode fs g d root = Ok (fs', filename) /\
    load_from_gltf expand decode f32 fs' filename = Ok g' /\ primitive_meshes g' = Ok ts' /\
    Forall2 (same_content f) ts ts' /\ (forall q, through15 q (f q)) /\
    forall p, p <> filename -> p <> Uri.Spec.in_folder d (root ++ lit ".bin") ->
      (forall k, (k < 2 * List.length ts)%nat -> p <> Uri.Spec.in_folder d (picture_name k)) -> fs' p = fs p.
Proof.
  intros isdir expand encode decode f32 fs d root ts X FO PD SR PR ID PN NE ST L4 BY filename. assert (LP := len_pos _ ts).
  assert (L1 : 0 < len ts) by (destruct ts; [contradiction|]; unfold Mesh.Model.size; cbn [List.length]; lia).
  destruct (add_steps ts 0 0 0 new_model building_new ST) as (g & mts & E & B & D & M & W & MM & BU & S); [lia|lia|lia|change (data_size new_model) with 0; lia|].
  change (data_size new_model) with 0 in D. rewrite Z.add_0_l in D. assert (P0 := all_bytes_positive ts NE ST). cbn [new_model materials app] in M.
  assert (STS : Forall Gltf.Spec.storable (map seen_mesh ts)) by (apply Forall_map; eapply Forall_impl; [|exact ST]; exact storable_seen).
  destruct (Gltf.Props.C40_roundtrip _ STS) as (h & ms' & EH & PM & F & _). change Gltf.Model.empty_model with (seen new_model) in EH. rewrite S in EH. injection EH as <-.
  destruct (saved_loaded isdir expand encode decode f32 fs d root _ _ _ g X FO PD SR PR ID PN B) as (fs' & SV & LD & _ & O); [lia|lia|]. fold filename in SV, LD, O.
  assert (MM' : mats g = map (fun k => [Z.of_nat k]) (seq 0 (List.length ts))) by exact MM. rewrite <- M in W.
  destruct (meshes_after Decimals.f15 f32 (string_of_list_ascii (root ++ lit ".bin")) _ _ _ g ts ms' B PM F W MM') as (ts' & PT & FT).
  do 5 eexists. split; [exact E|]. split; [exact SV|]. split; [exact LD|]. split; [exact PT|]. split; [exact FT|]. split; [exact Decimals.f15_ok|].
  intros p N1 N2 N3. apply O; [exact N1|exact N2|]. intros k K. apply N3. assert (I := proj2 (b_x _ _ _ _ B)). unfold Mesh.Model.size in I. lia.
Qed.

(** The bounds of POSITION that are stored are the smallest and the largest coordinates,
    if these are between -2^31 and 2^31. *)
Theorem C101_bounds : forall g t g', add_mesh g t = Ok g' -> Forall (fun v => Forall moderate (coordinates3 v)) (Mesh.Model.vertices (geo t)) ->
  exists ac, described g' "POSITION" ac /\ ac_count ac = len (Mesh.Model.vertices (geo t)) /\ List.length (ac_min ac) = 3%nat /\ List.length (ac_max ac) = 3%nat /\
    forall k, (k < 3)%nat -> extremes (column k (Mesh.Model.vertices (geo t))) (nth k (ac_min ac) 0%Q) (nth k (ac_max ac) 0%Q).
Proof.
  intros g t g' E M.
  assert (N : Mesh.Model.vertices (geo t) <> []).
  { intros C. assert (Z : exists g1, addPrimitiveMesh g t = Ok g1).
    { unfold add_mesh in E. destruct (tex t) as [[[uv color] rough]|]; [|exists g'; exact E]. unfold addTexturedPrimitiveMesh in E. step E g1 E1. exists g1. reflexivity. }
    destruct Z as (g1 & Z). unfold addPrimitiveMesh in Z. step Z p E0. destruct p as [g2 i]. step Z p E1. unfold pushData in E1. rewrite C in E1. discriminate E1. }
  destruct (add_described g t g' E) as (ac & lo & hi & DE & B & L & H & C). destruct (vec3_extremes _ N M) as (lo' & hi' & B' & L1 & L2 & X). rewrite B in B'. injection B' as <- <-.
  exists ac. split; [exact DE|]. split; [exact C|]. rewrite L, H. split; [exact L1|]. split; [exact L2|]. exact X.
Qed.

(** So are those of the normals, the texture coordinates and the indices. *)
Theorem C101_arrays : forall g t g', add_mesh g t = Ok g' ->
  (Forall (fun v => Forall moderate (coordinates3 v)) (Mesh.Model.normals (geo t)) ->
     exists ac, described g' "NORMAL" ac /\ ac_count ac = len (Mesh.Model.normals (geo t)) /\ List.length (ac_min ac) = 3%nat /\ List.length (ac_max ac) = 3%nat /\
       forall k, (k < 3)%nat -> extremes (column k (Mesh.Model.normals (geo t))) (nth k (ac_min ac) 0%Q) (nth k (ac_max ac) 0%Q)) /\
  (forall uv color rough, tex t = Some (uv, color, rough) -> uv <> [] -> Forall (fun v => Forall moderate (coordinates2 v)) uv ->
     exists ac, described g' "TEXCOORD_0" ac /\ ac_count ac = len uv /\ List.length (ac_min ac) = 2%nat /\ List.length (ac_max ac) = 2%nat /\
       forall k, (k < 2)%nat -> extremes (column2 k uv) (nth k (ac_min ac) 0%Q) (nth k (ac_max ac) 0%Q)) /\
  (Mesh.Model.indices (geo t) <> [] -> Forall (fun i => 0 <= i < 2 ^ 31) (Mesh.Model.indices (geo t)) ->
     exists ac lo hi, indexed g' ac /\ ac_count ac = len (Mesh.Model.indices (geo t)) /\ ac_min ac = [inject_Z lo] /\ ac_max ac = [inject_Z hi] /\ range (Mesh.Model.indices (geo t)) lo hi).
Proof.
  intros g t g' E.
  assert (N : Mesh.Model.normals (geo t) <> []).
  { intros C. assert (Z : exists g1, addPrimitiveMesh g t = Ok g1).
    { unfold add_mesh in E. destruct (tex t) as [[[uv color] rough]|]; [|exists g'; exact E]. unfold addTexturedPrimitiveMesh in E. step E g1 E1. exists g1. reflexivity. }
    destruct Z as (g1 & Z). unfold addPrimitiveMesh in Z. step Z p E0. destruct p as [g2 i]. step Z p E1. destruct p as [g3 v]. step Z p E2. unfold pushData in E2. rewrite C in E2. discriminate E2. }
  destruct (add_arrays g t g' E) as (ai & an & li & hi & ln & hn & DI & BI & LI & HI & CI & DN & BN & LN & HN & CN & U). split; [|split].
  - intros M. destruct (vec3_extremes _ N M) as (lo' & hi' & B' & L1 & L2 & X). rewrite BN in B'. injection B' as <- <-. exists an. rewrite LN, HN. repeat (split; [assumption|]). exact X.
  - intros uv color rough T NU M. destruct (U uv color rough T) as (au & lu & hu & DU & BU & LU & HU & CU). destruct (vec2_extremes _ NU M) as (lo' & hi' & B' & L1 & L2 & X). rewrite BU in B'. injection B' as <- <-.
    exists au. rewrite LU, HU. repeat (split; [assumption|]). exact X.
  - intros NI F. destruct (index_extremes _ NI F) as (lo & h & B & R). exists ai, lo, h. rewrite BI in B. injection B as -> ->. repeat (split; [assumption|]). exact R.
Qed.

(** Meshes as constructed with a color texture can be stored. *)
Theorem C101_constructed : forall (m : Mesh.Model.mesh vec3 vec3) uv color rough,
  Forall Gltf.Spec.is_word (Mesh.Model.indices m) -> Mesh.Model.vertices m <> [] -> Forall vec3_ok (Mesh.Model.vertices m) ->
  Mesh.Model.normals m <> [] -> Forall vec3_ok (Mesh.Model.normals m) -> Forall vec2_ok uv -> is_picture color -> is_picture rough ->
  Gltf.Model.data color <> [] -> storable (textured_mesh m uv color rough).
Proof.
  intros m uv color rough I VN V NN N U C R DC. assert (P0 := texture_parameter_ok 0 ltac:(lia)). assert (P1 := texture_parameter_ok 1 ltac:(lia)).
  assert (K1 : utf8_string "baseColorTexture") by (apply Files.ascii_utf8; reflexivity). assert (K2 : utf8_string "metallicRoughnessTexture") by (apply Files.ascii_utf8; reflexivity).
  assert (K0 : utf8_string "") by (apply Files.ascii_utf8; reflexivity).
  constructor; cbn [textured_mesh geo mat tex]; [exact I|split; assumption|split; assumption| |].
  - split.
    + unfold material_ok. cbn [ma_name ma_values ma_additional ma_extensions ma_extras]. split; [right; left; discriminate|]. split.
      * destruct (Gltf.Model.empty rough); (split; [repeat constructor|]); repeat (apply Forall_cons; [first [apply P0|apply P1]|]); constructor.
      * split; [split; constructor|]. split; [reflexivity|]. split; [apply no_extensions_ok|left; reflexivity].
    + unfold of_material. cbn [ma_name ma_values ma_additional ma_extensions ma_extras]. split; [exact K0|]. split; [|split; [constructor|split; [constructor|exact Logic.I]]].
      destruct (Gltf.Model.empty rough); repeat (apply Forall_cons; [split; [assumption|first [apply P0|apply P1]]|]); constructor.
  - split; [exact U|]. split; [exact C|]. split; [exact R|]. unfold lists_texture. cbn [ma_values get].
    change (String.eqb "baseColorTexture" "baseColorTexture") with true. change (String.eqb "baseColorTexture" "metallicRoughnessTexture") with false. cbv iota. split; [split; [intros _; exact DC|discriminate]|].
    unfold Gltf.Model.empty. destruct (Gltf.Model.data rough); cbn [get]; [split; congruence|]. change (String.eqb "metallicRoughnessTexture" "metallicRoughnessTexture") with true. split; discriminate.
Qed.
(** The folder must exist. *)
Theorem C101_folder : forall isdir encode fs g d root, isdir d = false -> save_as_gltf isdir encode fs g d root = Err ValueError.
Proof. intros isdir encode fs g d root H. unfold save_as_gltf. rewrite H. reflexivity. Qed.

(** * Examples *)

(** A format for pictures. *)
Definition toy_encode (name : text) (i : mat3b) : option (list Z) := Some (Gltf.Model.cols i :: Gltf.Model.rows i :: Gltf.Model.data i).
Definition toy_decode (b : list Z) : option (Z * Z * Z * list Z) := match b with w :: h :: px => Some (w, h, 3, px) | _ => None end.
Example C101_png_example : png_ok toy_encode toy_decode.
Proof. intros name pic _ _. eexists. split; [reflexivity|]. split; [discriminate|reflexivity]. Qed.

Definition one : word := 1065353216.
Definition triangle : Mesh.Model.mesh vec3 vec3 := Mesh.Model.Mesh [0; 1; 2] [(0, 0, 0); (one, 0, 0); (0, one, 2147483648 + one)] [(0, 0, one); (0, 0, one); (0, 0, one)].
Definition red : mat3b := Gltf.Model.Mat3b 1 1 [255; 0; 0].
Definition green : mat3b := Gltf.Model.Mat3b 1 2 [0; 255; 0; 0; 128; 0].
Definition painted (i : mat3b) : tmesh := textured_mesh triangle [(0, 0); (one, 0); (0, one)] i Gltf.Model.no_image.
Definition house : text := lit "/house".
Definition nothing : files := fun _ => None.
Definition trip (fs : files) (root : text) (ts : list tmesh) : res (files * text) :=
  let* g := foldM add_mesh new_model ts in save_as_gltf (fun _ => true) toy_encode fs g house root.
Definition back (fs : files) (path : text) : res (list tmesh) :=
  let* g := load_from_gltf Uri.Props.first_word toy_decode (fun q => q) fs path in primitive_meshes g.

Example C101_roundtrip_example : exists fs path, trip nothing (lit "a") [painted red; painted green] = Ok (fs, path) /\ path = lit "/house/a.gltf" /\
  back fs path = Ok [painted red; TMesh triangle (Material "" [("baseColorTexture"%string, texture_parameter 1)] [] [] VNull) (tex (painted green))] /\
  fs (lit "/house/1.png") = Some [2; 1; 0; 255; 0; 0; 128; 0].
Proof. eexists. eexists. split; [vm_compute; reflexivity|]. split; [vm_compute; reflexivity|]. split; vm_compute; reflexivity. Qed.
Example C101_constructed_example : storable (painted red) /\ storable (painted green).
Proof.
  assert (W : forall w, In w [0; one; 2147483648 + one] -> Gltf.Spec.is_word w /\ not_infinite w).
  { intros w I. unfold Gltf.Spec.is_word, not_infinite. cbn in I. destruct I as [<-|[<-|[<-|[]]]]; unfold one; lia. }
  assert (V : forall x y z, In x [0; one; 2147483648 + one] -> In y [0; one; 2147483648 + one] -> In z [0; one; 2147483648 + one] -> vec3_ok (x, y, z)).
  { intros x y z X Y Z. unfold vec3_ok. cbn [coordinates3]. repeat (apply Forall_cons; [apply W; assumption|]). constructor. }
  assert (U : forall x y, In x [0; one; 2147483648 + one] -> In y [0; one; 2147483648 + one] -> vec2_ok (x, y)).
  { intros x y X Y. unfold vec2_ok. cbn [coordinates2]. repeat (apply Forall_cons; [apply W; assumption|]). constructor. }
  assert (IM : forall i, In i [red; green; Gltf.Model.no_image] -> is_picture i).
  { intros i [<-|[<-|[<-|[]]]]; (split; [split; [cbn; lia|]; split; [cbn; lia|]; split; [reflexivity|]; first [discriminate|reflexivity]|]); (split; [repeat (apply Forall_cons; [lia|]); apply Forall_nil|cbn; lia]). }
  assert (A : forall i, In i [red; green] -> storable (painted i)).
  { intros i I. apply C101_constructed; cbn [triangle Mesh.Model.indices Mesh.Model.vertices Mesh.Model.normals]; try discriminate.
    - repeat (apply Forall_cons; [unfold Gltf.Spec.is_word; lia|]). constructor.
    - repeat (apply Forall_cons; [apply V; cbn; tauto|]). constructor.
    - repeat (apply Forall_cons; [apply V; cbn; tauto|]). constructor.
    - repeat (apply Forall_cons; [apply U; cbn; tauto|]). constructor.
    - apply IM. cbn in I |- *. tauto.
    - apply IM. cbn. tauto.
    - destruct I as [<-|[<-|[]]]; discriminate. }
  split; apply A; cbn; tauto.
Qed.
Example C101_bounds_example : exists g ac, add_mesh new_model (painted red) = Ok g /\ described g "POSITION" ac /\ ac_min ac = [0; 0; -1]%Q /\ ac_max ac = [1; 1; 0]%Q.
Proof.
  eexists. eexists. split; [vm_compute; reflexivity|]. split; [|split; [|]].
  - exists []. do 3 eexists. split; [reflexivity|]. split; [reflexivity|]. split; [reflexivity|]. vm_compute. reflexivity.
  - reflexivity.
  - reflexivity.
Qed.
Example C101_arrays_example : exists g an au ai, add_mesh new_model (painted red) = Ok g /\ described g "NORMAL" an /\ ac_min an = [0; 0; 1]%Q /\ ac_max an = [0; 0; 1]%Q /\
  described g "TEXCOORD_0" au /\ ac_min au = [0; 0]%Q /\ ac_max au = [1; 1]%Q /\ indexed g ai /\ ac_min ai = [0]%Q /\ ac_max ai = [2]%Q.
Proof.
  eexists. eexists. eexists. eexists. split; [vm_compute; reflexivity|]. split; [|split; [|split; [|split; [|split; [|split; [|split; [|split]]]]]]].
  - exists []. do 3 eexists. split; [reflexivity|]. split; [reflexivity|]. split; [reflexivity|]. vm_compute. reflexivity.
  - reflexivity.
  - reflexivity.
  - exists []. do 3 eexists. split; [reflexivity|]. split; [reflexivity|]. split; [reflexivity|]. vm_compute. reflexivity.
  - reflexivity.
  - reflexivity.
  - exists []. do 2 eexists. split; [reflexivity|]. split; [reflexivity|]. vm_compute. reflexivity.
  - reflexivity.
  - reflexivity.
Qed.

(** * What does not work *)

(** Coordinates above 2^31: the bound that is stored is 2^31, though every coordinate is
    2^32. *)
Definition far : word := 1333788672.
Definition far_mesh : tmesh := textured_mesh (Mesh.Model.Mesh [0] [(far, 0, 0)] [(0, 0, one)]) [(0, 0)] red Gltf.Model.no_image.
Theorem C101_far_refuted : exists t g ac, storable t /\ add_mesh new_model t = Ok g /\ described g "POSITION" ac /\
  (forall w, In w (column 0 (Mesh.Model.vertices (geo t))) -> float_value w 4294967296) /\ nth 0 (ac_min ac) 0%Q = 2147483648%Q /\
  ~ extremes (column 0 (Mesh.Model.vertices (geo t))) (nth 0 (ac_min ac) 0%Q) (nth 0 (ac_max ac) 0%Q).
Proof.
  exists far_mesh. eexists. eexists.
  assert (FV : float_value far 4294967296). { exists 0, 159, 0. split; [left; reflexivity|]. split; [lia|]. split; [lia|]. split; reflexivity. }
  split; [|split; [vm_compute; reflexivity|split; [|split; [|split]]]].
  - apply C101_constructed; cbn [Mesh.Model.indices Mesh.Model.vertices Mesh.Model.normals]; try discriminate.
    + repeat (apply Forall_cons; [unfold Gltf.Spec.is_word; lia|]). constructor.
    + apply Forall_cons; [|constructor]. unfold vec3_ok. cbn [coordinates3]. repeat (apply Forall_cons; [unfold Gltf.Spec.is_word, not_infinite, far; lia|]). constructor.
    + apply Forall_cons; [|constructor]. unfold vec3_ok. cbn [coordinates3]. repeat (apply Forall_cons; [unfold Gltf.Spec.is_word, not_infinite, one; lia|]). constructor.
    + apply Forall_cons; [|constructor]. unfold vec2_ok. cbn [coordinates2]. repeat (apply Forall_cons; [unfold Gltf.Spec.is_word, not_infinite, one; lia|]). constructor.
    + split; [split; [cbn; lia|]; split; [cbn; lia|]; split; [reflexivity|discriminate]|]. split; [repeat (apply Forall_cons; [lia|]); apply Forall_nil|cbn; lia].
    + split; [split; [cbn; lia|]; split; [cbn; lia|]; split; [reflexivity|reflexivity]|]. split; [constructor|cbn; lia].
  - exists []. do 3 eexists. split; [reflexivity|]. split; [reflexivity|]. split; [reflexivity|]. vm_compute. reflexivity.
  - intros w [<-|[]]. exact FV.
  - reflexivity.
  - intros ((w & [<-|[]] & V) & _). cbn [ac_min nth] in V. destruct (value_float _ _ FV) as (q & E & Q). destruct (value_float _ _ V) as (q' & E' & Q'). cbn in E, E'. rewrite E in E'. injection E' as <-. rewrite Q' in Q. discriminate Q.
Qed.

(** The pictures of two models in one folder have the same names: the first model comes
    back with the picture of the second. *)
Theorem C101_folder_refuted : exists t t2 fs path fs2 path2 ts', storable t /\ storable t2 /\ trip nothing (lit "a") [t] = Ok (fs, path) /\ trip fs (lit "b") [t2] = Ok (fs2, path2) /\
  path <> path2 /\ back fs path = Ok [t] /\ back fs2 path = Ok ts' /\ map tex ts' = [tex t2] /\ tex t2 <> tex t.
Proof.
  exists (painted red), (painted green). do 5 eexists. split; [apply C101_constructed_example|]. split; [apply C101_constructed_example|].
  split; [vm_compute; reflexivity|]. split; [vm_compute; reflexivity|]. split; [vm_compute; discriminate|]. split; [vm_compute; reflexivity|]. split; [vm_compute; reflexivity|]. split; [vm_compute; reflexivity|discriminate].
Qed.

(** A mesh without texture, as constructed, is saved and cannot be loaded. *)
Theorem C101_plain_refuted : exists fs path, trip nothing (lit "a") [plain_mesh triangle] = Ok (fs, path) /\ (exists b, fs path = Some b /\ b <> []) /\ back fs path = Err IOError.
Proof. do 2 eexists. split; [vm_compute; reflexivity|]. split; [eexists; split; [vm_compute; reflexivity|discriminate]|vm_compute; reflexivity]. Qed.

(** Nor can the model without meshes. *)
Theorem C101_empty_refuted : exists fs path, trip nothing (lit "a") [] = Ok (fs, path) /\ back fs path = Err IOError.
Proof. do 2 eexists. split; [vm_compute; reflexivity|vm_compute; reflexivity]. Qed.

Print Assumptions C101_roundtrip.
Print Assumptions C101_bounds.
Print Assumptions C101_arrays.
Print Assumptions C101_constructed.
Print Assumptions C101_folder.
Print Assumptions C101_far_refuted.
Print Assumptions C101_folder_refuted.
Print Assumptions C101_plain_refuted.
Print Assumptions C101_empty_refuted.
