(** The whole document. *)
From Coq Require Import List Bool ZArith QArith Qreduction Ascii String Sorted Lia Lqa.
From Verif.Base Require Import Py.
From Verif.Uri Require Import Model.
From Verif.Uri Require Spec Paths Props.
From Verif.Doc Require Import Model Spec Facts Parts Materials.
Import ListNotations.
Local Open Scope Z_scope.

Lemma find_match : forall A k k' (g : list A -> json) l o,
  find k (match l with [] => o | a :: l' => set k' (g (a :: l')) o end) =
  if String.eqb k' k then orelse (match l with [] => None | a :: l' => Some (g (a :: l')) end) (find k o) else find k o.
Proof. intros A k k' g [|a l] o; [destruct (String.eqb k' k); reflexivity|apply find_set]. Qed.
Lemma map_section : forall l : list json, match l with [] => None | a :: l' => Some (array_of (a :: l')) end = numbers_json l.
Proof. intros [|a l]; reflexivity. Qed.
Definition animations_json (l : list animation) : option json :=
  match l with [] => None | a :: l' => Some (array_of (map s_animation (filter has_channels (a :: l')))) end.
Lemma find_animations : forall k l o,
  find k (match l with [] => o | a :: l' => set "animations" (array_of (map s_animation (filter has_channels (a :: l')))) o end) =
  if String.eqb "animations" k then orelse (animations_json l) (find k o) else find k o.
Proof. intros k l o. exact (find_match _ k "animations" (fun l => array_of (map s_animation (filter has_channels l))) l o). Qed.
Lemma find_materials : forall k l o,
  find k (match l with [] => o | a :: l' => set "materials" (array_of (a :: l')) o end) =
  if String.eqb "materials" k then orelse (numbers_json l) (find k o) else find k o.
Proof. intros k l o. rewrite (find_match _ k "materials" array_of l o), map_section. reflexivity. Qed.
Lemma section_json_eq : forall A (s : A -> json) l, section_json s l = match l with [] => None | a :: l' => Some (array_of (map s (a :: l'))) end.
Proof. intros A s [|a l]; reflexivity. Qed.
Section F.
  Variable f f32 : Q -> Q.
  Notation T := (through_text f).

  Lemma section_array : forall A B (p : json -> res B) (s : A -> json) (after : A -> B) (ok : A -> Prop) l k o,
    (forall x, ok x -> is_object (T (s x)) = true) -> (forall x, ok x -> p (T (s x)) = Ok (after x)) -> Forall ok l ->
    find k o = Some (array_of (map s l)) -> section (T o) k p = Ok (map after l).
  Proof.
    intros A B p s after ok l k o H1 H2 F H. unfold section.
    apply (array_of_case f A B (mapM (fun j => if is_object j then p j else Err IOError)) s l k o); [exact H| |apply map_nil].
    apply (mapM_parts f A B _ s after ok); [|exact F]. intros x K. rewrite H1, H2 by exact K. reflexivity.
  Qed.
  Lemma section_some : forall A B (p : json -> res B) (s : A -> json) (after : A -> B) (ok : A -> Prop) l k o,
    (forall x, ok x -> is_object (T (s x)) = true) -> (forall x, ok x -> p (T (s x)) = Ok (after x)) -> Forall ok l ->
    find k o = section_json s l -> section (T o) k p = Ok (map after l).
  Proof.
    intros A B p s after ok l k o H1 H2 F H. unfold section.
    apply (section_case f A B (mapM (fun j => if is_object j then p j else Err IOError)) s l k o); [exact H| |apply map_nil].
    apply (mapM_parts f A B _ s after ok); [|exact F]. intros x K. rewrite H1, H2 by exact K. reflexivity.
  Qed.
  Lemma strings_of : forall l k o, find k o = section_json JStr l -> strings (T o) k = Ok l.
  Proof.
    intros l k o H. unfold strings. rewrite <- (map_id l) at 1.
    apply (section_case f string string (mapM get_string) JStr l k o); [exact H| |apply map_nil].
    apply (mapM_parts f string string get_string JStr (fun s => s) (fun _ => True)); [reflexivity|]. apply Forall_forall. intros; exact I.
  Qed.
  Lemma has_array : forall A (s : A -> json) l k o, l <> [] -> find k o = Some (array_of (map s l)) -> has_section (T o) k = true.
  Proof. intros A s l k o N H. unfold has_section. rewrite find_text, H. destruct l; [contradiction|reflexivity]. Qed.
  Lemma has_some : forall A (s : A -> json) l k o, l <> [] -> find k o = section_json s l -> has_section (T o) k = true.
  Proof. intros A s l k o N H. unfold has_section. rewrite find_text, H. destruct l; [contradiction|reflexivity]. Qed.

  Lemma materials_text : forall l, Forall material_ok l -> exists js, mapM s_material l = Ok js /\ List.length js = List.length l /\
    mapM (fun j => if is_object j then Ok (ParseMaterial j) else Err IOError) (map T js) = Ok (map (after_material f) l).
  Proof.
    induction 1 as [|m l K F (js & A & L & B)]; [exists []; repeat split; reflexivity|]. destruct (material_text f m K) as (j & S & O & P).
    exists (j :: js). cbn [mapM map]. rewrite S. cbn [bind]. rewrite A. cbn [bind List.length]. rewrite L, O, P. cbn [bind]. rewrite B. repeat split; reflexivity.
  Qed.

  (** Extensions and lights. *)
  Lemma filter_all : forall A (p : A -> bool) l, Forall (fun x => p x = true) l -> filter p l = l.
  Proof. induction 1 as [|x l H F IH]; [reflexivity|]. cbn. rewrite H, IH. reflexivity. Qed.
  Lemma Forall_put : forall A (P : string * A -> Prop) k v l, P (k, v) -> Forall P l -> Forall P (put k v l).
  Proof.
    intros A P k v l H F. induction F as [|[x w] l K F IH]; [repeat constructor; exact H|]. cbn [put].
    destruct (String.compare k x); repeat (constructor; try assumption).
  Qed.
  Lemma json_objects : forall e, extensions_ok e -> Forall (fun kv => is_object (snd kv) = true) (map (fun kv => (fst kv, T (snd kv))) (map (fun kv => (fst kv, json_of (snd kv))) e)) /\
    map (fun kv => (fst kv, as_value (snd kv))) (map (fun kv => (fst kv, T (snd kv))) (map (fun kv => (fst kv, json_of (snd kv))) e)) = after_map f e.
  Proof.
    intros e [_ F]. unfold after_map. induction F as [|[k v] e [S O] F [IH1 IH2]]; [repeat constructor|]. destruct (value_text f v S) as (j & A & B & _ & D). specialize (D O).
    assert (J : json_of v = j) by (unfold json_of; rewrite A; reflexivity). cbn [map fst snd] in *. rewrite J, IH2, B. split; [|reflexivity].
    constructor; [cbn [snd]; rewrite object_text; exact D|exact IH1].
  Qed.
  Lemma khr_value : forall ls, ls <> [] -> as_value (T (set "lights" (array_of (map s_light ls)) JNull)) = VObject [("lights"%string, VArray (map (light_value f) ls))].
  Proof.
    intros ls N. destruct ls as [|l ls]; [contradiction|]. set (L := l :: ls).
    transitivity (match filter (fun kv => negb (is_null (snd kv))) [("lights"%string, as_value (JArr (map T (map s_light L))))] with [] => VNull | vs => VObject vs end).
    { reflexivity. }
    assert (K : as_value (JArr (map T (map s_light L))) = VArray (map (light_value f) L)).
    { cbn [as_value]. replace (map as_value (map T (map s_light L))) with (map (light_value f) L) by (rewrite !map_map; apply map_ext; intros x; symmetry; apply light_value_text).
      rewrite filter_all; [reflexivity|]. rewrite Forall_map. apply Forall_forall. intros x _. reflexivity. }
    rewrite K. reflexivity.
  Qed.
  Definition extensions_after (m : model) : option json :=
    match lights m with
    | [] => extensions_json (extensions m)
    | ls => Some (set "KHR_lights_cmn" (set "lights" (array_of (map s_light ls)) JNull) (match extensions_json (extensions m) with Some e => e | None => JNull end))
    end.
  Lemma extensions_lights : forall m o, extensions_ok (extensions m) -> (lights m = [] -> get "KHR_lights_cmn" (extensions m) = None) ->
    find "extensions" o = extensions_after m -> p_extensions (T o) = after_extensions f m /\ p_lights (T o) = map (after_light f) (lights m).
  Proof.
    intros m o X N H. unfold extensions_after in H. unfold after_extensions. destruct (lights m) as [|l ls] eqn:L.
    - split; [apply p_extensions_of; assumption|]. unfold p_lights. rewrite find_text, H. unfold extensions_json.
      destruct (extensions m) as [|a e] eqn:E; [reflexivity|]. rewrite (extensions_object f) by exact X. rewrite <- E in *.
      assert (G : get "KHR_lights_cmn" (map (fun kv => (fst kv, T (snd kv))) (map (fun kv => (fst kv, json_of (snd kv))) (extensions m))) = None).
      { rewrite !get_map, N by reflexivity. reflexivity. }
      replace (object_of (map (fun kv => (fst kv, json_of (snd kv))) (extensions m))) with (JObj (map (fun kv => (fst kv, json_of (snd kv))) (extensions m))) by (rewrite E; reflexivity).
      cbn [option_map through_text]. rewrite G. reflexivity.
    - rewrite <- L in *. assert (NE : lights m <> []) by (rewrite L; discriminate).
      set (khr := set "lights" (array_of (map s_light (lights m))) JNull) in *.
      assert (H' : find "extensions" (T o) = Some (JObj (put "KHR_lights_cmn" (T khr) (map (fun kv => (fst kv, T (snd kv))) (map (fun kv => (fst kv, json_of (snd kv))) (extensions m)))))).
      { rewrite find_text, H. clear H. rewrite <- (put_map json json T). unfold extensions_json. destruct (extensions m) as [|a e]; [reflexivity|].
        rewrite (extensions_object f) by exact X. reflexivity. }
      destruct (json_objects _ X) as [J1 J2]. split.
      + unfold p_extensions. rewrite H'. rewrite filter_all by (apply Forall_put; [subst khr; rewrite L; reflexivity|exact J1]).
        rewrite (put_map json value as_value), J2. unfold khr. rewrite khr_value by exact NE. reflexivity.
      + unfold p_lights. rewrite H', get_put. keys. subst khr. rewrite L at 1.
        change (map ParseLight (map T (map s_light (l :: ls))) = map (after_light f) (lights m)). rewrite L, !map_map. apply map_ext. apply light_text.
  Qed.

  (** Images. *)
  Lemma ascii_id : forall s, string_of_list_ascii (list_ascii_of_string s) = s.
  Proof. exact string_of_list_ascii_of_string. Qed.
  Lemma load_file : forall expand fs d uri, Uri.Spec.expands expand -> Uri.Spec.folder d -> Forall Uri.Spec.plain d -> uri <> [] -> Forall Uri.Spec.plain uri ->
    LoadExternalFile expand fs uri d None =
    match (match fs (Uri.Spec.in_folder d uri) with Some b => Some b | None => fs (Uri.Spec.in_folder (lit ".") uri) end) with
    | Some (x :: b) => Ok (x :: b)
    | _ => Err IOError
    end.
  Proof.
    intros expand fs d uri X F PD N PU. unfold LoadExternalFile. cbn [FindFile]. rewrite Uri.Paths.join_folder by exact F.
    rewrite (Uri.Spec.expand_plain expand X) by (apply Uri.Paths.in_folder_nonempty || (apply Uri.Paths.in_folder_plain; assumption)).
    destruct uri as [|u uri]; [contradiction|].
    destruct (fs (Uri.Spec.in_folder d (u :: uri))) as [b|] eqn:B.
    - destruct (Uri.Spec.in_folder d (u :: uri)) as [|y p] eqn:Y; [exfalso; apply (Uri.Paths.in_folder_nonempty _ _ Y)|]. rewrite B.
      destruct b; reflexivity.
    - rewrite Uri.Paths.join_folder by (split; discriminate).
      rewrite (Uri.Spec.expand_plain expand X) by (apply Uri.Paths.in_folder_nonempty || (apply Uri.Paths.in_folder_plain; [apply Uri.Paths.plain_dot|assumption])).
      destruct (fs (Uri.Spec.in_folder (lit ".") (u :: uri))) as [b|] eqn:C; [|reflexivity].
      destruct (Uri.Spec.in_folder (lit ".") (u :: uri)) as [|y p] eqn:Y; [exfalso; apply (Uri.Paths.in_folder_nonempty _ _ Y)|]. rewrite C.
      destruct b; reflexivity.
  Qed.
  Lemma image_text : forall expand fs d decode vs bs i px, Uri.Spec.expands expand -> Uri.Spec.folder d -> Forall Uri.Spec.plain d ->
    picture fs d decode i px -> ParseImage expand fs d decode vs bs (T (s_image i)) = Ok (after_image i px).
  Proof.
    intros expand fs d decode vs bs i px X F PD (N & PU & U & P). unfold ParseImage.
    rewrite !find_text. replace (find "bufferView" (s_image i)) with (@None json) by (symmetry; unfold s_image; look).
    assert (FU : find "uri" (s_image i) = Some (JStr (im_uri i))) by (unfold s_image; look).
    rewrite FU. cbn [option_map]. rewrite (p_string_of f _ _ (im_uri i) FU). cbn [required bind]. unfold Uri.Model.ParseImage. rewrite U.
    rewrite load_file by assumption. rewrite (p_name_of f _ _ (im_name i)) by (unfold s_image; look). unfold after_image. cbv zeta in P.
    destruct (match fs (Uri.Spec.in_folder d (list_ascii_of_string (im_uri i))) with Some b => Some b | None => fs (Uri.Spec.in_folder (lit ".") (list_ascii_of_string (im_uri i))) end) as [[|b bytes]|].
    - subst px. cbn [bind]. rewrite ascii_id. reflexivity.
    - destruct P as (w & h & c & data & D & W & H & ->). cbn [bind]. unfold LoadImageData. rewrite D.
      destruct (Z.ltb_spec w 1); [lia|]. destruct (Z.ltb_spec h 1); [lia|]. cbn [orb andb negb Z.ltb Z.compare bind]. rewrite ascii_id. reflexivity.
    - subst px. cbn [bind]. rewrite ascii_id. reflexivity.
  Qed.
  Lemma images_text : forall expand fs d decode vs bs l pxs, Uri.Spec.expands expand -> Uri.Spec.folder d -> Forall Uri.Spec.plain d ->
    Forall2 (picture fs d decode) l pxs ->
    mapM (fun j => if is_object j then ParseImage expand fs d decode vs bs j else Err IOError) (map T (map s_image l)) =
    Ok (map (fun ip => after_image (fst ip) (snd ip)) (combine l pxs)).
  Proof.
    intros expand fs d decode vs bs l pxs X F PD H. induction H as [|i px l pxs P H IH]; [reflexivity|]. cbn [map mapM combine].
    rewrite object_text. replace (is_object (s_image i)) with true by (symmetry; unfold s_image; object).
    rewrite (image_text expand fs d decode vs bs i px) by assumption. cbn [bind fst snd]. rewrite IH. reflexivity.
  Qed.

  (** The buffer. *)
  Lemma buffer_text : forall expand fs d name uri b, (bu_data b <> [] /\ size (Z.of_nat (List.length (bu_data b)))) ->
    load_buffer expand fs (Uri.Spec.in_folder d name) (Z.of_nat (List.length (bu_data b))) uri = Ok (bu_data b) ->
    ParseBuffer expand fs (GetBaseDir (Uri.Spec.in_folder d name)) (T (s_buffer (string_of_list_ascii uri) b)) =
    Ok (after_buffer (string_of_list_ascii uri) b).
  Proof.
    intros expand fs d name uri b (N & S) H. unfold ParseBuffer, s_buffer. cbv zeta.
    rewrite (p_number_int f _ _ (Z.of_nat (List.length (bu_data b)))) by look. cbn [required bind].
    rewrite (p_string_of f "uri" _ (string_of_list_ascii uri)) by look. cbn [or_default]. rewrite to_size_size by exact S. cbn [bind].
    rewrite list_ascii_of_string_of_list_ascii. unfold load_buffer in H. rewrite H. cbn [bind].
    rewrite (p_name_of f _ _ (bu_name b)) by look. reflexivity.
  Qed.

  Ltac step := first [rewrite find_null | rewrite find_extras' | rewrite find_extensions' | rewrite find_index' | rewrite find_section | rewrite find_set
    | rewrite find_materials | rewrite find_animations]; keys.
  Ltac look2 := repeat step; rewrite ?orelse_none; reflexivity.

  (** What is in the document. *)
  Record contents (bin : string) (m : model) (js : list json) (D : json) : Prop := {
    c_object : is_object D = true;
    c_FX : find "extensions" D = extensions_after m;
    c_F1 : find "accessors" D = Some (array_of (map s_accessor (accessors m)));
    c_F2 : find "animations" D = animations_json (animations m);
    c_F3 : find "asset" D = Some (s_asset (m_asset m));
    c_F4 : find "buffers" D = Some (array_of (map (s_buffer bin) (buffers m)));
    c_F5 : find "bufferViews" D = Some (array_of (map s_view (views m)));
    c_F6 : find "extensionsUsed" D = section_json JStr (extensions_used m);
    c_F7 : find "extensionsRequired" D = section_json JStr (extensions_required m);
    c_F8 : find "images" D = section_json s_image (images m);
    c_F9 : find "materials" D = numbers_json js;
    c_F10 : find "meshes" D = section_json s_mesh (meshes m);
    c_F11 : find "nodes" D = section_json s_node (nodes m);
    c_F12 : find "scene" D = index_json' (default_scene m);
    c_F13 : find "scenes" D = section_json s_scene (scenes m);
    c_F14 : find "skins" D = section_json s_skin (skins m);
    c_F15 : find "textures" D = section_json s_texture (textures m);
    c_F16 : find "samplers" D = section_json s_sampler (samplers m);
    c_F17 : find "cameras" D = section_json s_camera (cameras m);
    c_F18 : find "extras" D = extras_json (m_extras m) }.
  Lemma document_contents : forall bin m js, mapM s_material (materials m) = Ok js -> List.length js = List.length (materials m) ->
    exists D, document bin m = Ok D /\ contents bin m js D.
  Proof.
    intros bin m js MJ ML. unfold document.
    assert (MM : forall o, (match materials m with [] => Ok o | a :: l => let* js := mapM s_material (a :: l) in Ok (set "materials" (array_of js) o) end) =
      Ok (match js with [] => o | a :: l => set "materials" (array_of (a :: l)) o end)).
    { intros o. clear -MJ ML. destruct (materials m); [destruct js; [reflexivity|discriminate ML]|]. rewrite MJ. cbn [bind].
      destruct js; [discriminate ML|reflexivity]. }
    cbv zeta. rewrite MM. cbn [bind]. eexists. split; [reflexivity|].
    match goal with |- contents _ _ _ ?o => set (D := o) end.
    assert (FX : find "extensions" D = extensions_after m).
    { subst D. unfold extensions_after. destruct (lights m) as [|l ls]; cbv iota; [look2|].
      rewrite find_extras'. keys. rewrite find_set. keys. do 2 f_equal. repeat step. rewrite orelse_none. reflexivity. }
    match goal with D := s_extras (m_extras m) (match lights m with [] => ?o | _ => _ end) |- _ => set (D0 := o) in D end.
    assert (G : forall k, String.eqb "extensions" k = false -> find k D = if String.eqb "extras" k then orelse (extras_json (m_extras m)) (find k D0) else find k D0).
    { intros k K. subst D. rewrite find_extras'. assert (E : find k (match lights m with [] => D0 | l :: l0 => set "extensions"
        (set "KHR_lights_cmn" (set "lights" (array_of (map s_light (l :: l0))) JNull) (match find "extensions" D0 with Some e => e | None => JNull end)) D0 end) = find k D0).
      { destruct (lights m); [reflexivity|]. rewrite find_set, K. reflexivity. }
      rewrite E. reflexivity. }
    assert (F1 : find "accessors" D = Some (array_of (map s_accessor (accessors m)))) by (rewrite G by reflexivity; keys; unfold D0; look2).
    assert (F2 : find "animations" D = animations_json (animations m)) by (rewrite G by reflexivity; keys; unfold D0; look2).
    assert (F3 : find "asset" D = Some (s_asset (m_asset m))) by (rewrite G by reflexivity; keys; unfold D0; look2).
    assert (F4 : find "buffers" D = Some (array_of (map (s_buffer bin) (buffers m)))) by (rewrite G by reflexivity; keys; unfold D0; look2).
    assert (F5 : find "bufferViews" D = Some (array_of (map s_view (views m)))) by (rewrite G by reflexivity; keys; unfold D0; look2).
    assert (F6 : find "extensionsUsed" D = section_json JStr (extensions_used m)) by (rewrite G by reflexivity; keys; unfold D0; look2).
    assert (F7 : find "extensionsRequired" D = section_json JStr (extensions_required m)) by (rewrite G by reflexivity; keys; unfold D0; look2).
    assert (F8 : find "images" D = section_json s_image (images m)) by (rewrite G by reflexivity; keys; unfold D0; look2).
    assert (F9 : find "materials" D = numbers_json js) by (rewrite G by reflexivity; keys; unfold D0; look2).
    assert (F10 : find "meshes" D = section_json s_mesh (meshes m)) by (rewrite G by reflexivity; keys; unfold D0; look2).
    assert (F11 : find "nodes" D = section_json s_node (nodes m)) by (rewrite G by reflexivity; keys; unfold D0; look2).
    assert (F12 : find "scene" D = index_json' (default_scene m)) by (rewrite G by reflexivity; keys; unfold D0; look2).
    assert (F13 : find "scenes" D = section_json s_scene (scenes m)) by (rewrite G by reflexivity; keys; unfold D0; look2).
    assert (F14 : find "skins" D = section_json s_skin (skins m)) by (rewrite G by reflexivity; keys; unfold D0; look2).
    assert (F15 : find "textures" D = section_json s_texture (textures m)) by (rewrite G by reflexivity; keys; unfold D0; look2).
    assert (F16 : find "samplers" D = section_json s_sampler (samplers m)) by (rewrite G by reflexivity; keys; unfold D0; look2).
    assert (F17 : find "cameras" D = section_json s_camera (cameras m)) by (rewrite G by reflexivity; keys; unfold D0; look2).
    assert (F18 : find "extras" D = extras_json (m_extras m)) by (rewrite G by reflexivity; keys; unfold D0; look2).
    assert (OB : is_object D = true) by (destruct D; try discriminate F1; reflexivity).
    constructor; assumption.
  Qed.

  Lemma whole : forall expand decode fs d root m, Uri.Spec.expands expand -> Uri.Spec.folder d -> Forall Uri.Spec.plain d ->
    Uri.Spec.simple root -> Forall Uri.Spec.plain root -> model_ok m ->
    let filename := Uri.Spec.in_folder d (root ++ lit ".gltf") in
    exists fs' j, save fs filename m = Ok (fs', j) /\
      fs' (Uri.Spec.in_folder d (root ++ lit ".bin")) = Some (List.concat (map bu_data (buffers m))) /\
      (forall p, p <> Uri.Spec.in_folder d (root ++ lit ".bin") -> fs' p = fs p) /\
      forall pxs, Forall2 (picture fs' d decode) (images m) pxs ->
      load expand decode f32 fs' filename (T j) = Ok (after_model f f32 (string_of_list_ascii (root ++ lit ".bin")) pxs m).
  Proof.
    intros expand decode fs d root m X FO PD SI PR M filename.
    destruct M as [[b [B [B1 [B2 B3]]]] [A1 A2] [V1 V2] [N1 N2] [S1 S2] AN MA ME TE IM SK SA CA [EX EL] DS AS ES].
    assert (BG : bu_data b <> [] /\ size (Z.of_nat (List.length (bu_data b)))) by (split; assumption).
    destruct (Uri.Props.C95_names d root (lit "gltf")) as (BD & _ & _ & BN & BP); [exact SI|split; cbn; intuition discriminate|cbn; intuition discriminate|].
    change (root ++ lit "." ++ lit "gltf")%list with (root ++ lit ".gltf")%list in *. fold filename in BD, BN, BP. specialize (BP FO).
    assert (LB := Uri.Props.C95_save_load expand fs d root (bu_data b) X FO PD SI PR B1). unfold SerializeGltfBuffer in LB. fold filename in LB. cbv zeta in LB.
    rewrite BN, BP in LB.
    set (fs' := write fs (Uri.Spec.in_folder d (root ++ lit ".bin")) (bu_data b)) in *.
    set (bin := string_of_list_ascii (root ++ lit ".bin")).
    destruct (materials_text _ MA) as (js & MJ & ML & MP).
    unfold save. rewrite BN. fold bin. destruct (document_contents bin m js MJ ML) as (D & DD & C). rewrite DD.
    cbn [bind]. eexists. eexists. split; [reflexivity|].
    assert (W : write_buffers fs filename (buffers m) = fs') by (unfold write_buffers; rewrite B, BP; reflexivity).
    split; [|split].
    { rewrite W. unfold fs', write. rewrite Uri.Paths.text_eqb_refl, B. cbn. rewrite app_nil_r. reflexivity. }
    { intros p NP. rewrite W. unfold fs', write. destruct (Uri.Model.text_eqb p (Uri.Spec.in_folder d (root ++ lit ".bin"))) eqn:Q; [|reflexivity].
      exfalso. rewrite Uri.Paths.text_eqb_neq in Q by exact NP. discriminate. }
    intros pxs PX. rewrite W in *.
    destruct C as [OB FX F1 F2 F3 F4 F5 F6 F7 F8 F9 F10 F11 F12 F13 F14 F15 F16 F17 F18].
    unfold load, LoadFromString. rewrite BD, object_text, OB. cbn [negb forallb].
    rewrite (has_some _ _ _ _ _ S1 F13), (has_some _ _ _ _ _ N1 F11), (has_array _ _ _ _ _ A1 F1), (has_array _ _ _ _ _ V1 F5).
    rewrite (has_array _ (s_buffer bin) (buffers m) _ _) by (exact F4 || (rewrite B; discriminate)). cbn [andb negb].
    rewrite (asset_text f _ _ AS F3), (strings_of _ _ _ F6), (strings_of _ _ _ F7). cbn [bind].
    assert (BT : section (T D) "buffers" (ParseBuffer expand fs' d) = Ok (map (after_buffer bin) (buffers m))).
    { apply (section_array _ _ _ (s_buffer bin) (after_buffer bin) (fun x => x = b)); [| | |exact F4].
      - intros x _. rewrite object_text. unfold s_buffer. cbv zeta. object.
      - intros x ->. rewrite <- BD at 1. apply buffer_text; [exact BG|exact LB].
      - rewrite B. repeat constructor. }
    rewrite BT. cbn [bind].
    rewrite (section_array _ _ _ s_view after_view view_ok (views m) _ _ (fun x _ => view_object f x) (view_text f) V2 F5). cbn [bind].
    rewrite (section_array _ _ _ s_accessor (after_accessor f) accessor_ok (accessors m) _ _ (fun x _ => accessor_object f x) (accessor_text f) A2 F1). cbn [bind].
    rewrite (section_some _ _ _ s_mesh (after_mesh f) mesh_ok (meshes m) _ _ (fun x _ => mesh_object f x) (mesh_text f) ME F10). cbn [bind].
    rewrite (section_some _ _ _ s_node (after_node f) node_ok (nodes m) _ _ (fun x _ => node_object f x) (node_text f) N2 F11). cbn [bind].
    rewrite (section_some _ _ _ s_scene (after_scene f) scene_ok (scenes m) _ _ (fun x K => scene_object f x (proj1 K)) (scene_text f) S2 F13). cbn [bind].
    assert (DT : (match find "scene" (T D) with Some j => match number_of j with Some _ => get_int j | None => Ok (-1) end | None => Ok (-1) end) =
      Ok (Z.max (-1) (default_scene m))).
    { rewrite find_text, F12. unfold index_json'. destruct (Z.ltb_spec (-1) (default_scene m)); cbn.
      - rewrite wrap_int by exact DS. rewrite Z.max_r by lia. reflexivity.
      - rewrite Z.max_l by lia. reflexivity. }
    rewrite DT. cbn [bind].
    assert (MT : section (T D) "materials" (fun o => Ok (ParseMaterial o)) = Ok (map (after_material f) (materials m))).
    { unfold section. rewrite find_text, F9. destruct js as [|a l]; [destruct (materials m); [reflexivity|discriminate ML]|]. exact MP. }
    rewrite MT. cbn [bind].
    assert (IT : forall vs bs, section (T D) "images" (ParseImage expand fs' d decode vs bs) = Ok (map (fun ip => after_image (fst ip) (snd ip)) (combine (images m) pxs))).
    { intros vs bs. unfold section. apply (section_case f _ _ (mapM (fun j => if is_object j then ParseImage expand fs' d decode vs bs j else Err IOError)) s_image (images m)); [exact F8| |].
      - apply images_text; assumption.
      - intros ->. reflexivity. }
    rewrite IT. cbn [bind].
    rewrite (section_some _ _ _ s_texture (after_texture f) texture_ok (textures m) _ _ (fun x _ => texture_object f x) (texture_text f) TE F15). cbn [bind].
    assert (AT : section (T D) "animations" ParseAnimation = Ok (map (after_animation f) (filter moving (animations m)))).
    { assert (AF : Forall animation_ok (filter has_channels (animations m))).
      { apply Forall_forall. intros x I. apply filter_In in I. rewrite Forall_forall in AN. apply AN, I. }
      unfold animations_json in F2. destruct (animations m) as [|a l].
      - unfold section. rewrite find_text, F2. reflexivity.
      - exact (section_array _ _ _ s_animation (after_animation f) animation_ok _ _ _ (fun x _ => animation_object f x) (animation_text f) AF F2). }
    rewrite AT. cbn [bind].
    rewrite (section_some _ _ _ s_skin (fun x => x) skin_ok (skins m) _ _ (fun x _ => skin_object f x) (skin_text f) SK F14). cbn [bind].
    rewrite (section_some _ _ _ s_sampler (after_sampler f) sampler_ok (samplers m) _ _ (fun x _ => sampler_object f x) (sampler_text f) SA F16). cbn [bind].
    rewrite (section_some _ _ _ s_camera (after_camera f f32) camera_ok (cameras m) _ _ (fun x _ => camera_object f x) (camera_text f f32) CA F17). cbn [bind].
    destruct (extensions_lights m D EX EL FX) as [E1 E2]. rewrite E1, E2, (p_extras_of f _ _ ES F18), map_id. reflexivity.
  Qed.
End F.
