(** Adding meshes: the model that is built, and that it is the one of Gltf/Model. *)
From Coq Require Import List Bool ZArith QArith Ascii String Sorted Lia.
From Verif.Base Require Import Py.
From Verif.Mesh Require Model.
From Verif.Gltf Require Model Spec Proofs.
From Verif.Uri Require Import Model.
From Verif.Doc Require Import Model Facts.
From Verif.Doc Require Import Spec.
From Verif.Text Require Import Spec.
From Verif.Text Require Files.
From Verif.Trip Require Import Model Spec Floats.
Import ListNotations.
Local Open Scope Z_scope.

Lemma len_app : forall A (a b : list A), len (a ++ b) = len a + len b.
Proof. intros. unfold Mesh.Model.size. rewrite app_length. lia. Qed.
Lemma len_map : forall A B (f : A -> B) l, len (map f l) = len l.
Proof. intros. unfold Mesh.Model.size. rewrite map_length. reflexivity. Qed.
Lemma len_pos : forall A (l : list A), 0 <= len l.
Proof. intros. unfold Mesh.Model.size. lia. Qed.

(** * The parts *)
Definition good_accessor (a : accessor) : Prop :=
  exists vi co n ty lo hi, a = Accessor vi "" 0 false co n ty VNull lo hi /\ 0 <= vi < 2 ^ 31 /\ In co [5125; 5126] /\ 0 <= n <= 2 ^ 53 /\
    In ty [65; 2; 3] /\ Forall finite15 (lo ++ hi).
Definition good_view (v : view) : Prop :=
  exists o n st ta, v = View "" 0 o n st ta VNull /\ 0 <= o <= 2 ^ 53 /\ 0 <= n <= 2 ^ 53 /\ In st [0; 12] /\ In ta [34962; 34963].
Definition good_attributes (l : list (string * Z)) : Prop :=
  exists n p, int n /\ int p /\
    (l = [("NORMAL"%string, n); ("POSITION"%string, p)] \/ exists u, int u /\ l = [("NORMAL"%string, n); ("POSITION"%string, p); ("TEXCOORD_0"%string, u)]).
Definition good_primitive (p : primitive) : Prop :=
  exists l mt i, p = Primitive l mt i 4 [] VNull /\ good_attributes l /\ 0 <= mt < 2 ^ 31 /\ 0 <= i < 2 ^ 31.
Definition good_mesh (e : mesh) : Prop := exists p, e = Mesh "" [p] [] [] [] VNull /\ good_primitive p.
Definition good_node (n : node) : Prop := exists z, n = Node (-1) "" (-1) z [] [] [] [] [] [] [] VNull /\ 0 <= z < 2 ^ 31.
Definition good_texture (t : texture) : Prop := exists k, t = Texture 0 k VNull [] /\ 0 <= k < 2 ^ 31.
Definition good_image (k : nat) (i : image) : Prop :=
  exists pic, is_picture pic /\ Gltf.Model.data pic <> [] /\
    i = Image "" (-1) "" (Gltf.Model.png (Z.of_nat k)) (Some (Gltf.Model.cols pic, Gltf.Model.rows pic, 3, Gltf.Model.data pic)) VNull.

(** At most [a] accessors and [x] pictures, [n] meshes. *)
Record building (a n x : Z) (g : model) : Prop := {
  b_acc : n <= len (accessors g) <= a /\ len (views g) = len (accessors g);
  b_n : len (materials g) = n /\ len (meshes g) = n /\ len (nodes g) = n;
  b_x : len (textures g) = len (images g) /\ len (images g) <= x;
  b_buf : (buffers g = [] /\ scenes g = [] /\ n = 0) \/
    exists data ns, buffers g = [Buffer "" data "" VNull] /\ scenes g = [Scene "" ns [] VNull] /\ Forall int ns /\ len ns = n;
  b_accessors : Forall good_accessor (accessors g);
  b_views : Forall good_view (views g);
  b_meshes : Forall good_mesh (meshes g);
  b_nodes : Forall good_node (nodes g);
  b_textures : Forall good_texture (textures g);
  b_images : forall k i, nth_error (images g) k = Some i -> good_image k i;
  b_samplers : Forall (eq default_sampler) (samplers g);
  b_materials : Forall (fun mt => material_ok mt /\ of_material mt) (materials g);
  b_rest : animations g = [] /\ skins g = [] /\ cameras g = [] /\ lights g = [] /\ extensions g = [] /\ extensions_used g = [] /\
    extensions_required g = [] /\ m_asset g = new_asset /\ m_extras g = VNull /\ (default_scene g = -1 \/ default_scene g = 0) }.

Lemma building_new : building 0 0 0 new_model.
Proof.
  constructor; cbn [new_model accessors views materials meshes nodes textures images buffers scenes samplers animations skins cameras lights extensions extensions_used extensions_required m_asset m_extras default_scene];
    try apply Forall_nil; try (cbn; lia).
  - left. repeat split.
  - intros [|k] i E; discriminate E.
  - repeat (split; [reflexivity|]). left. reflexivity.
Qed.

Definition data_size (g : model) : Z := match buffers g with b :: _ => len (bu_data b) | [] => 0 end.

(** * Data *)
Definition pushed {A} (L : layout A) (target : Z) (g : model) (data : list Z) (vals : list A) (lo hi : list Q) : model :=
  with_data g [Buffer "" (data ++ flat_map (Gltf.Model.bytes_of L) vals) "" VNull]
    (views g ++ [View "" 0 (len data) (len vals * Gltf.Model.width_of L) (Gltf.Model.stride_of L) target VNull])
    (accessors g ++ [Accessor (len (views g)) "" 0 false (Gltf.Model.component_of L) (len vals) (Gltf.Model.type_of L) VNull lo hi]).
Lemma push_eq : forall A (L : layout A) bounds first target g vals data lo hi, buffers g = [Buffer "" data "" VNull] ->
  (first = true -> vals <> []) -> bounds vals = Some (lo, hi) ->
  pushData L bounds first target g vals = Ok (pushed L target g data vals lo hi, len (accessors g)).
Proof.
  intros A L bounds first target g vals data lo hi B F E. unfold pushData. assert (X : first && (len vals =? 0) = false).
  { destruct first; [|reflexivity]. cbn [andb]. apply Z.eqb_neq. destruct vals; [exfalso; apply F; reflexivity|]. unfold Mesh.Model.size. cbn [List.length]. lia. }
  rewrite X, B, E. reflexivity.
Qed.
Lemma push_seen : forall A (L : layout A) bounds first target g vals g' i, pushData L bounds first target g vals = Ok (g', i) ->
  Gltf.Model.pushData L first target (seen g) vals = Ok (seen g', i).
Proof.
  intros A L bounds first target g vals g' i E. unfold pushData in E. unfold Gltf.Model.pushData. destruct (first && (len vals =? 0)); [discriminate E|].
  unfold Gltf.Model.reallyAddToBuffer. cbn [seen Gltf.Model.buffers]. destruct (buffers g) as [|b bs]; [discriminate E|]. destruct (bounds vals) as [[lo hi]|]; [|discriminate E].
  injection E as <- <-. cbn [map bind Gltf.Model.views Gltf.Model.accessors]. unfold seen, with_data. cbn [accessors animations buffers views materials meshes nodes textures images skins samplers cameras scenes lights extensions default_scene].
  cbn [Gltf.Model.buffers Gltf.Model.views Gltf.Model.accessors Gltf.Model.meshes Gltf.Model.nodes Gltf.Model.scenes Gltf.Model.defaultScene Gltf.Model.materials Gltf.Model.images Gltf.Model.textures Gltf.Model.samplers]. rewrite !len_map, !map_app. reflexivity.
Qed.
Lemma ensure_seen : forall g, seen (ensure g) = Gltf.Model.ensure (seen g).
Proof. intros g. unfold ensure, Gltf.Model.ensure, seen, with_scene, with_data. cbn [accessors animations buffers views materials meshes nodes textures images skins samplers cameras scenes lights extensions default_scene Gltf.Model.buffers Gltf.Model.views Gltf.Model.accessors Gltf.Model.meshes Gltf.Model.nodes Gltf.Model.scenes Gltf.Model.materials Gltf.Model.images Gltf.Model.textures Gltf.Model.samplers]. destruct (buffers g), (scenes g); reflexivity. Qed.

Definition seen_mesh (t : tmesh) : Gltf.Model.pmesh := Gltf.Model.PMesh (geo t) (material_of (mat t)) (tex t).
Lemma add_node_seen : forall l n, map sc_nodes (add_node l n) = Gltf.Model.add_node (map sc_nodes l) n.
Proof. intros [|s l] n; reflexivity. Qed.
Ltac step H r E := match type of H with bind ?x _ = Ok _ => destruct x as [r|] eqn:E; [|discriminate H]; cbn [bind] in H end.
Lemma prim_seen : forall g t g', addPrimitiveMesh g t = Ok g' -> Gltf.Model.addPrimitiveMesh (seen g) (seen_mesh t) = Ok (seen g').
Proof.
  intros g t g' E. unfold addPrimitiveMesh in E. unfold Gltf.Model.addPrimitiveMesh. rewrite <- ensure_seen. cbn [seen_mesh Gltf.Model.geo Gltf.Model.mat].
  step E p E0. destruct p as [g1 i]. rewrite (push_seen _ _ _ _ _ _ _ _ _ E0). cbn [bind]. step E p E1. destruct p as [g2 v]. rewrite (push_seen _ _ _ _ _ _ _ _ _ E1). cbn [bind].
  step E p E2. destruct p as [g3 n]. rewrite (push_seen _ _ _ _ _ _ _ _ _ E2). cbn [bind]. injection E as <-. f_equal.
  unfold seen, with_looks, with_scene. cbn [accessors animations buffers views materials meshes nodes textures images skins samplers cameras scenes lights extensions default_scene
    Gltf.Model.buffers Gltf.Model.views Gltf.Model.accessors Gltf.Model.meshes Gltf.Model.nodes Gltf.Model.scenes Gltf.Model.defaultScene Gltf.Model.materials Gltf.Model.images Gltf.Model.textures Gltf.Model.samplers].
  rewrite !len_map, !map_app, add_node_seen. reflexivity.
Qed.

(** * Textures *)
Lemma get_smem : forall A B (f : A -> B) k (l : list (string * A)), smem k (map (fun kp => (fst kp, f (snd kp))) l) = match get k l with Some _ => true | None => false end.
Proof.
  intros A B f k l. unfold dmem. induction l as [|[x v] l IH]; [reflexivity|]. cbn [map fst snd dget get]. rewrite String.eqb_sym. destruct (String.eqb x k); [reflexivity|exact IH].
Qed.
Lemma put_present : forall A B (f : A -> B) k v (l : list (string * A)), ordered l -> get k l <> None ->
  map (fun kp => (fst kp, f (snd kp))) (put k v l) = sset k (f v) (map (fun kp => (fst kp, f (snd kp))) l).
Proof.
  intros A B f k v l O. induction O as [|[x w] l O IH F]; intros G; [contradiction|]. cbn [get] in G. cbn [put map fst snd dset].
  destruct (String.compare k x) eqn:C.
  - apply String.compare_eq_iff in C. subst x. rewrite String.eqb_refl. reflexivity.
  - exfalso. destruct (String.eqb_spec x k) as [->|N]; [rewrite (compare_refl k) in C; discriminate|]. apply G. clear -F C. 
    induction F as [|[y u] l Y F IH]; [reflexivity|]. cbn [get]. destruct (String.eqb_spec y k) as [->|N]; [|exact IH]. cbn [fst] in Y.
    rewrite String.compare_antisym, Y in C. discriminate.
  - destruct (String.eqb_spec x k) as [->|N]; [rewrite (compare_refl k) in C; discriminate|]. destruct (String.eqb_spec k x); [congruence|].
    cbn [map fst snd]. rewrite IH by exact G. reflexivity.
Qed.
Lemma trunc_int : forall z, trunc (inject_Z z) = z.
Proof. intros z. unfold trunc. cbn. apply Z.quot_1_r. Qed.
Lemma texture_seen : forall g i g' id, addTexture g i = (g', id) -> Gltf.Model.addTexture (seen g) i = (seen g', id).
Proof.
  intros g i g' id E. unfold addTexture in E. injection E as <- <-. unfold Gltf.Model.addTexture, seen, with_looks.
  cbn [accessors animations buffers views materials meshes nodes textures images skins samplers cameras scenes lights extensions default_scene
    Gltf.Model.buffers Gltf.Model.views Gltf.Model.accessors Gltf.Model.meshes Gltf.Model.nodes Gltf.Model.scenes Gltf.Model.defaultScene Gltf.Model.materials Gltf.Model.images Gltf.Model.textures Gltf.Model.samplers].
  rewrite !len_map, !map_app. reflexivity.
Qed.
Lemma map_seen : forall key t g mt g' mt', ordered (ma_values mt) -> add_map key t (g, mt) = Ok (g', mt') ->
  Gltf.Model.add_map key t (seen g, material_of mt) = Ok (seen g', material_of mt').
Proof.
  intros key t g mt g' mt' O E. unfold add_map in E. unfold Gltf.Model.add_map. destruct (Gltf.Model.empty t); [injection E as <- <-; reflexivity|].
  cbn [material_of Gltf.Model.values Gltf.Model.name]. rewrite get_smem. destruct (get key (ma_values mt)) as [p|] eqn:G; [|discriminate E].
  destruct (addTexture g t) as [g1 id] eqn:T. rewrite (texture_seen _ _ _ _ T). injection E as <- <-. do 2 f_equal. unfold material_of, with_values. cbn [ma_name ma_values]. f_equal.
  rewrite (put_present _ _ param_of key _ (ma_values mt) O) by congruence. unfold texture_parameter, param_of at 2. cbn [number_array number_value json_double_value or_default map fst snd].
  rewrite trunc_int. reflexivity.
Qed.
