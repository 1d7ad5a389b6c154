(** C99: documents of other programs: what a glTF 2.0 document means is what is loaded;
    incomplete documents are refused; what is lost, and where the loader and the
    specification of glTF differ. *)
From Coq Require Import List Bool ZArith QArith Ascii String Lia.
From Verif.Base Require Import Py.
From Verif.Round Require Import Spec.
From Verif.Uri Require Import Model.
From Verif.Uri Require Spec Paths Props.
From Verif.Doc Require Import Model.
From Verif.Doc Require Import Spec Facts.
From Verif.Json Require Model.
From Verif.Text Require Spec Model Parser Props.
From Verif.Foreign Require Import Spec Read Whole Refused.
Import ListNotations.
Local Open Scope Z_scope.
Local Open Scope string_scope.

(** * What a document means is what is loaded *)
Theorem C99_means : forall expand decode f32 fs d name j m, Uri.Spec.expands expand -> Uri.Spec.folder d -> Forall Uri.Spec.plain d -> Uri.Spec.simple name ->
  means fs d decode f32 j m -> load expand decode f32 fs (Uri.Spec.in_folder d name) j = Ok m.
Proof.
  intros expand decode f32 fs d name j m X FO PD SI M. unfold load. rewrite Uri.Paths.base_dir by exact SI. apply document_read; assumption.
Qed.
Lemma members_long : forall s l, Text.Spec.members_text s l -> (3 <= List.length s)%nat.
Proof. intros s l H. destruct H; cbn; repeat (rewrite app_length; cbn [List.length]); lia. Qed.
Lemma document_long : forall t j k v, Text.Spec.document t j -> member j k v -> (4 <= List.length t)%nat.
Proof.
  intros t j k v D (l & -> & L). inversion D as [bom w s j w' tail B W V W' T]; subst. rewrite !app_length. enough (4 <= List.length s)%nat by lia.
  inversion V as [| | |? ? N| | | | |s' l' o M O]; subst; [inversion N|discriminate L|]. apply members_long in M. cbn. repeat (rewrite app_length; cbn [List.length]). lia.
Qed.
(** The same for the bytes of a file. *)
Theorem C99_file : forall expand decode f32 fs d name bytes j m, Uri.Spec.expands expand -> Uri.Spec.folder d -> Forall Uri.Spec.plain d -> Uri.Spec.simple name ->
  fs (Uri.Spec.in_folder d name) = Some bytes -> Text.Spec.document (map Json.Model.char bytes) j -> means fs d decode f32 j m ->
  Text.Model.load_file expand decode f32 fs (Uri.Spec.in_folder d name) = Ok m.
Proof.
  intros expand decode f32 fs d name bytes j m X FO PD SI B D M. unfold Text.Model.load_file, Text.Model.LoadText. rewrite B.
  destruct (m_scenes _ _ _ _ _ _ M) as (v & MV & _). assert (L := document_long _ _ _ _ D MV).
  destruct (Z.ltb_spec (Z.of_nat (List.length (map Json.Model.char bytes))) 4); [lia|]. apply Text.Parser.parse_exact in D. rewrite D. cbn [bind]. apply C99_means; assumption.
Qed.
(** A document means one model at most. *)
Theorem C99_unique : forall fs d decode f32 j m m', Uri.Spec.folder d -> Forall Uri.Spec.plain d -> means fs d decode f32 j m -> means fs d decode f32 j m' -> m = m'.
Proof.
  intros fs d decode f32 j m m' FO PD M M'. assert (E := document_read _ fs d decode f32 j m Uri.Props.C95_expands_example FO PD M).
  rewrite (document_read _ fs d decode f32 j m' Uri.Props.C95_expands_example FO PD M') in E. injection E as <-. reflexivity.
Qed.

(** * Incomplete documents are refused *)
Theorem C99_refused : forall expand decode f32 fs filename j m, incomplete j -> load expand decode f32 fs filename j <> Ok m.
Proof. intros expand decode f32 fs filename j m I. apply refused, I. Qed.
Theorem C99_file_refused : forall expand decode f32 fs filename bytes j m, fs filename = Some bytes -> Text.Spec.document (map Json.Model.char bytes) j -> incomplete j ->
  Text.Model.load_file expand decode f32 fs filename <> Ok m.
Proof.
  intros expand decode f32 fs filename bytes j m B D I H. unfold Text.Model.load_file, Text.Model.LoadText in H. rewrite B in H. apply Text.Parser.parse_exact in D. rewrite D in H.
  destruct (_ <? 4)%Z; [discriminate|]. apply (C99_refused _ _ _ _ _ _ _ I H).
Qed.

(** * Whatever is loaded *)
Lemma mapM_all : forall A B (f : A -> res B) (P : B -> Prop), (forall a b, f a = Ok b -> P b) -> forall l bs, mapM f l = Ok bs -> Forall P bs.
Proof.
  intros A B f P H l. induction l as [|a l IH]; intros bs E; cbn [mapM] in E; [injection E as <-; constructor|]. apply bind_ok in E. destruct E as (b & F & E). apply bind_ok in E. destruct E as (bs' & M & E). injection E as <-.
  constructor; [apply (H a b F)|apply (IH bs' M)].
Qed.
Lemma section_all : forall A v k (p : json -> res A) (P : A -> Prop) l, (forall o a, p o = Ok a -> P a) -> section v k p = Ok l -> Forall P l.
Proof.
  intros A v k p P l H E. unfold section in E. destruct (find k v) as [[| | | | |js|]|]; try (injection E as <-; constructor).
  apply (mapM_all _ _ _ P) in E; [exact E|]. intros a b F. destruct (is_object a); [apply (H a b F)|discriminate].
Qed.
Lemma size_range : forall q n, to_size q = Ok n -> 0 <= n < 2 ^ 64.
Proof. intros q n H. unfold to_size in H. destruct (Z.leb_spec 0 (trunc q)), (Z.ltb_spec (trunc q) 18446744073709551616); try discriminate. injection H as <-. lia. Qed.
Lemma p_size_range : forall o k n, p_size o k 0 = Ok n -> 0 <= n < 2 ^ 64.
Proof. intros o k n H. unfold p_size in H. destruct (p_number o k); [apply (size_range _ _ H)|injection H as <-; lia]. Qed.
Ltac back H := match type of H with bind _ _ = Ok _ => apply bind_ok in H; let a := fresh "a" in let E := fresh "E" in destruct H as (a & E & H) end.
Definition sane_accessor (a : accessor) : Prop :=
  5120 <= ac_component a <= 5130 /\ In (ac_type a) (map snd types) /\ 0 <= ac_count a < 2 ^ 64 /\ 0 <= ac_offset a < 2 ^ 64.
Definition sane_view (v : view) : Prop :=
  (exists k, vi_stride v = 4 * k /\ 0 <= k <= 63) /\ In (vi_target v) [0; 34962; 34963] /\ 0 <= vi_offset v < 2 ^ 64 /\ 0 <= vi_length v < 2 ^ 64.
Definition sane_image (i : image) : Prop :=
  match im_data i with Some (w, h, _, _) => 1 <= w /\ 1 <= h | None => True end /\ (im_view i <> -1 -> 0 <= im_view i /\ im_data i <> None).
Theorem C99_sane : forall expand decode f32 fs filename j m, load expand decode f32 fs filename j = Ok m ->
  Forall sane_accessor (accessors m) /\ Forall sane_view (views m) /\ Forall sane_image (images m) /\
  Forall (fun c => In (ca_type c) ["perspective"; "orthographic"]) (cameras m).
Proof.
  intros expand decode f32 fs filename j m H. unfold load, LoadFromString in H. destruct (negb (is_object j)); [discriminate|]. destruct (negb _); [discriminate|].
  cbv zeta in H. repeat back H. injection H as <-. cbn [accessors views images cameras]. split; [|split; [|split]].
  - refine (section_all _ _ _ _ _ _ _ E3). clear. intros o x P. unfold ParseAccessor in P. repeat back P.
    destruct (Z.leb_spec 5120 a7), (Z.leb_spec a7 5130); try discriminate. cbn [andb] in P. injection P as <-. unfold sane_accessor. cbn [ac_component ac_type ac_count ac_offset]. split; [lia|].
    split; [|split; [apply (size_range _ _ E4)|apply (p_size_range _ _ _ E6)]].
    unfold required in E3. destruct (type_of a2) eqn:T; [|discriminate]. injection E3 as <-. apply type_in in T. apply (in_map snd) in T. exact T.
  - refine (section_all _ _ _ _ _ _ _ E2). clear. intros o x P. unfold ParseBufferView in P. repeat back P.
    destruct (Z.ltb_spec 252 a1); [discriminate|]. cbn [orb] in P. destruct (Z.eqb_spec (a1 mod 4) 0) as [M|]; [|discriminate]. cbn [negb] in P. repeat back P. injection P as <-. unfold sane_view. cbn [vi_stride vi_target vi_offset vi_length].
    assert (R := p_size_range _ _ _ E1). split; [exists (a1 / 4); split; [apply Z.div_exact in M; lia|split; [apply Z.div_pos; lia|apply Z.div_le_upper_bound; lia]]|].
    split; [|split; [apply (p_size_range _ _ _ E4)|apply (size_range _ _ E5)]].
    destruct (Z.eqb_spec a2 34962) as [->|]; [cbn; tauto|]. destruct (Z.eqb_spec a2 34963) as [->|]; cbn; tauto.
  - refine (section_all _ _ _ _ _ _ _ E9). clear.
    assert (L : forall w0 h0 b w h c x, LoadImageData decode w0 h0 b = Ok (w, h, c, x) -> 1 <= w /\ 1 <= h).
    { intros w0 h0 b w h c x H. unfold LoadImageData in H. destruct (decode b) as [[[[w' h'] c'] x']|]; [|discriminate].
      destruct (Z.ltb_spec w' 1); [discriminate|]. destruct (Z.ltb_spec h' 1); [discriminate|]. cbn [orb] in H. destruct (_ || _)%bool; [discriminate|]. injection H as <- <- <- <-. split; assumption. }
    intros o i P. unfold ParseImage in P. destruct (find "bufferView" o) as [v|]; destruct (find "uri" o) as [u|]; try discriminate.
    + repeat back P. destruct (Z.eqb_spec a (-1)) as [->|]; [injection P as <-; split; [exact Logic.I|intros X; contradiction X; reflexivity]|].
      destruct (Z.ltb_spec a 0); [discriminate|]. destruct (nth_error _ _); [|discriminate]. destruct (_ <? 0)%Z; [discriminate|]. destruct (nth_error _ _); [|discriminate]. destruct (_ <=? _)%Z; [|discriminate].
      back P. injection P as <-. destruct a4 as [[[w h] c] x]. split; [cbn; apply (L _ _ _ _ _ _ _ E2)|]. cbn. intros _. split; [lia|discriminate].
    + repeat back P. destruct a0 as [[mime kept] data]. destruct data as [b|]; [back P|]; injection P as <-; (split; [|cbn; intros X; contradiction X; reflexivity]); [|exact Logic.I].
      destruct a0 as [[[w h] c] x]. cbn. apply (L _ _ _ _ _ _ _ E1).
  - refine (section_all _ _ _ _ _ _ _ E14). clear. intros o c P. unfold ParseCamera in P. repeat back P. destruct a0 as [p r]. injection P as <-. cbn [ca_type In].
    destruct (String.eqb_spec a "orthographic") as [->|]; [tauto|]. destruct (String.eqb_spec a "perspective") as [->|]; [tauto|]. discriminate.
Qed.

(** * What is lost: the copyright, the weights of nodes, the extras of views, buffers and images *)
Theorem C99_lost : forall expand decode f32 fs filename j m, load expand decode f32 fs filename j = Ok m ->
  at_copyright (m_asset m) = "" /\ Forall (fun n => no_weights n = []) (nodes m) /\ Forall (fun v => vi_extras v = VNull) (views m) /\
  Forall (fun b => bu_extras b = VNull) (buffers m) /\ Forall (fun i => im_extras i = VNull) (images m).
Proof.
  intros expand decode f32 fs filename j m H. unfold load, LoadFromString in H. destruct (negb (is_object j)); [discriminate|]. destruct (negb _); [discriminate|].
  cbv zeta in H. repeat back H. injection H as <-. cbn [m_asset nodes views buffers images]. split; [|split; [|split; [|split]]].
  - destruct (find "asset" j) as [[]|]; reflexivity.
  - refine (section_all _ _ _ _ _ _ _ E5). clear. intros o n P. unfold ParseNode in P. repeat back P. destruct (p_numbers o "matrix"). repeat back P. injection P as <-. reflexivity.
  - refine (section_all _ _ _ _ _ _ _ E2). clear. intros o v P. unfold ParseBufferView in P. repeat back P. destruct (_ || _)%bool; [discriminate|]. repeat back P. injection P as <-. reflexivity.
  - refine (section_all _ _ _ _ _ _ _ E1). clear. intros o b P. unfold ParseBuffer in P. repeat back P. injection P as <-. reflexivity.
  - refine (section_all _ _ _ _ _ _ _ E9). clear. intros o i P. unfold ParseImage in P. destruct (find "bufferView" o); destruct (find "uri" o); try discriminate; repeat back P.
    + destruct (a =? -1)%Z; [injection P as <-; reflexivity|]. destruct (a <? 0)%Z; [discriminate|]. destruct (nth_error _ _); [|discriminate]. destruct (_ <? 0)%Z; [discriminate|]. destruct (nth_error _ _); [|discriminate]. destruct (_ <=? _)%Z; [|discriminate].
      back P. injection P as <-. reflexivity.
    + destruct a0 as [[mime kept] [b|]]; [back P|]; injection P as <-; reflexivity.
Qed.

(** * Valid documents that are refused *)
Definition document_of (l : list (string * json)) : json :=
  JObj ([("accessors", JArr []); ("bufferViews", JArr []); ("buffers", JArr []); ("nodes", JArr []); ("scenes", JArr [])] ++ l)%list.
Definition with_section (k : string) (o : json) : json :=
  match document_of [] with JObj l => JObj (put k (JArr [o]) l) | j => j end.
Definition zero (k : string) : string * json := (k, JInt 0).
(** Only "asset" is required by glTF; a scene may have no nodes, an accessor no view (it
    is all zeros), a buffer no URI; interpolation is LINEAR by default. *)
Definition optional : list json :=
  [JObj [("asset", JObj [("version", JStr "2.0")])];
   with_section "scenes" (JObj []);
   with_section "accessors" (JObj [("componentType", JInt 5126); ("count", JInt 3); ("type", JStr "SCALAR")]);
   with_section "buffers" (JObj [("byteLength", JInt 4)]);
   with_section "animations" (JObj [("channels", JArr []); ("samplers", JArr [JObj [zero "input"; zero "output"]])])].
Lemma no_uri : forall expand fs d n, Uri.Model.ParseBuffer expand false fs d n [] = Err IOError.
Proof. intros expand fs d n. unfold Uri.Model.ParseBuffer. cbn [IsDataURI]. change (IsDataURI []) with false. unfold LoadExternalFile. destruct (FindFile _ _ _ _); reflexivity. Qed.
Theorem C99_optional_refuted : forall expand decode f32 fs filename j m, In j optional -> load expand decode f32 fs filename j <> Ok m.
Proof.
  intros expand decode f32 fs filename j m I. cbn [optional In] in I. destruct I as [<-|[<-|[<-|[<-|[<-|[]]]]]]; try (cbv; discriminate).
  unfold load, LoadFromString. change (negb _) with false at 1. change (negb (forallb _ _)) with false. cbv zeta. intros H. step H. step H. step H. revert E1.
  change (section _ "buffers" _) with (mapM (fun o => if is_object o then ParseBuffer expand fs (GetBaseDir filename) o else Err IOError) [JObj [("byteLength", JInt 4)]]).
  cbn [mapM is_object]. unfold ParseBuffer. change (p_number _ "byteLength") with (Some (to_double 4)). cbn [required bind]. change (to_size (to_double 4)) with (Ok 4). cbn [bind].
  change (list_ascii_of_string _) with (@nil ascii). rewrite no_uri. discriminate.
Qed.

(** A channel without a node is left out. *)
Theorem C99_channel_refuted : exists j, forall expand decode f32 fs filename, exists m a, load expand decode f32 fs filename j = Ok m /\
  animations m = [a] /\ an_channels a = [] /\
  exists x, member j "animations" (JArr [x]) /\ exists c, member x "channels" (JArr [c]) /\ member c "target" (JObj [("path", JStr "scale")]).
Proof.
  exists (with_section "animations" (JObj [("channels", JArr [JObj [zero "sampler"; ("target", JObj [("path", JStr "scale")])]]); ("samplers", JArr [])])).
  intros expand decode f32 fs filename. eexists. eexists. split; [cbv; reflexivity|]. split; [reflexivity|]. split; [reflexivity|].
  eexists. split; [eexists; split; [reflexivity|cbv; reflexivity]|]. eexists. split; eexists; (split; [reflexivity|cbv; reflexivity]).
Qed.

(** * Documents that are not valid and are loaded *)

(** No asset and a component type that does not exist; an accessor of a view that does
    not exist; a scene of a node that does not exist. *)
Theorem C99_invalid_refuted : exists j, forall expand decode f32 fs filename, exists m a s, load expand decode f32 fs filename j = Ok m /\
  no_member j "asset" /\ accessors m = [a] /\ ac_component a = 5127 /\ ac_view a = 7 /\ views m = [] /\
  scenes m = [s] /\ sc_nodes s = [3] /\ nodes m = [].
Proof.
  exists (JObj [("accessors", JArr [JObj [("bufferView", JInt 7); ("componentType", JInt 5127); ("count", JInt 1); ("type", JStr "SCALAR")]]); ("bufferViews", JArr []); ("buffers", JArr []);
    ("nodes", JArr []); ("scenes", JArr [JObj [("nodes", JArr [JInt 3])]])]).
  intros expand decode f32 fs filename. eexists. eexists. eexists. split; [cbv; reflexivity|]. split; [eexists; split; [reflexivity|cbv; reflexivity]|]. repeat split.
Qed.

(** * A document *)
Definition foreign : text := lit ("{""asset"":{""version"":""2.0"",""copyright"":""me""},""scene"":0,""scenes"":[{""nodes"":[0]}],
 ""nodes"":[{""mesh"":0,""translation"":[1,2.5,0],""camera"":0}],
 ""meshes"":[{""primitives"":[{""attributes"":{""POSITION"":0},""material"":0}]}],
 ""accessors"":[{""bufferView"":0,""componentType"":5121,""count"":3.0,""type"":""SCALAR"",""max"":[1]}],
 ""buffers"":[{""byteLength"":4,""uri"":""data:application/octet-stream;base64,AQIDBA==""},{""byteLength"":2,""uri"":""a.bin""}],
 ""bufferViews"":[{""buffer"":0,""byteLength"":3},{""buffer"":0,""byteOffset"":1,""byteLength"":2}],
 ""images"":[{""bufferView"":1,""mimeType"":""image/png""},{""uri"":""gone.png""}],""samplers"":[{}],""textures"":[{""source"":0}],
 ""materials"":[{""pbrMetallicRoughness"":{""baseColorTexture"":{""index"":0},""metallicFactor"":0.5}}],
 ""cameras"":[{""type"":""perspective"",""perspective"":{""yfov"":1,""znear"":0.25}}],""skins"":[{""joints"":[0]}],""extras"":{""a"":[1,true]}}").
Definition foreign_files : files := fun p => if text_eqb p (lit "/d/f.gltf") then Some (map Uri.Model.code foreign) else if text_eqb p (lit "/d/a.bin") then Some [7; 8] else None.
Definition a_decoder (b : list Z) : option (Z * Z * Z * list Z) := match b with [] => None | _ => Some (2, 1, 3, b) end.
Definition foreign_model : model :=
  Eval vm_compute in match Text.Model.load_file Uri.Props.first_word a_decoder (fun q => q) foreign_files (lit "/d/f.gltf") with Ok m => m | Err _ => Model [] [] [] [] [] [] [] [] [] [] [] [] [] [] [] 0 [] [] new_asset VNull end.
Definition foreign_json : json := Eval vm_compute in match Text.Model.parse foreign with Ok j => j | Err _ => JNull end.
Ltac mem := eexists; split; [reflexivity|cbv; reflexivity].
Ltac go := match goal with
  | |- opt _ _ _ _ _ => first [left; split; [mem|reflexivity]|right; go]
  | |- req _ _ _ _ => eexists; split; [mem|cbv beta; go]
  | |- index _ _ => split; [go|cbv; split; [discriminate|reflexivity]]
  | |- count _ _ => split; [go|cbv; split; first [discriminate|reflexivity]]
  | |- one_of _ _ _ => split; [go|cbv; tauto]
  | |- whole _ _ => first [left; reflexivity|right; eexists; split; reflexivity]
  | |- number _ _ => apply number_of_number; reflexivity
  | |- list_of _ _ _ => eexists; split; [reflexivity|go]
  | |- map_of _ _ _ => eexists; split; [reflexivity|go]
  | |- Forall2 _ _ _ => constructor; [go|go] || constructor
  | |- any _ _ => left; go
  | |- keeps _ _ => constructor; go
  | |- a_sampler _ _ => unfold a_sampler; go
  | |- a_texture _ _ => unfold a_texture; go
  | |- a_view _ _ => unfold a_view; go
  | |- an_accessor _ _ => unfold an_accessor; go
  | |- a_primitive _ _ => unfold a_primitive; go
  | |- a_mesh _ _ => unfold a_mesh; go
  | |- a_node _ _ => unfold a_node; go
  | |- a_scene _ _ => unfold a_scene; go
  | |- a_skin _ _ => unfold a_skin; go
  | |- a_camera _ _ _ => unfold a_camera; go
  | |- a_perspective _ _ _ => unfold a_perspective; go
  | |- a_float _ _ _ => eexists; split; [go|reflexivity]
  | |- a_material _ _ => unfold a_material; go
  | |- an_asset _ _ => unfold an_asset; go
  | |- some_lights _ _ => unfold some_lights; go
  | |- extras _ _ => unfold extras; go
  | |- has_extensions _ _ => unfold has_extensions; go
  | |- numbers_in _ _ => first [apply in_nil|apply in_number; go|apply in_other; go]
  | |- a_parameter _ _ => first [apply par_number; go|apply par_array; go|apply par_string|apply par_bool|apply par_object; go]
  | |- parameters_in _ _ _ => first [apply pars_nil|apply pars_skip; [left; cbv; tauto|go]|apply pars_take; [cbv; intuition discriminate|go|go]]
  | |- int _ => cbv; split; [discriminate|reflexivity]
  | |- (_ <= _)%Z => discriminate
  | |- _ <> _ => discriminate
  | |- _ /\ _ => split; [go|go]
  | |- _ \/ _ => first [left; go|right; go]
  | |- no_member _ _ => mem
  | |- exists s, _ = JStr s /\ _ => eexists; split; [reflexivity|cbv; tauto]
  | |- exists l, _ = JObj l /\ _ => eexists; split; [reflexivity|go]
  | |- _ => reflexivity
  end.
Ltac plains := repeat (apply Forall_cons; [unfold Uri.Spec.plain; cbv zeta; match goal with |- context [Uri.Model.code ?c] => let z := eval vm_compute in (Uri.Model.code c) in change (Uri.Model.code c) with z end; lia|]); apply Forall_nil.
Lemma foreign_buffers : req foreign_json "buffers" (list_of (a_buffer foreign_files (lit "/d"))) (buffers foreign_model).
Proof.
  eexists. split; [mem|]. eexists. split; [reflexivity|]. constructor; [|constructor; [|constructor]].
  - split; [go|]. split; [go|]. split; [discriminate|]. split; [go|]. split; [reflexivity|]. left. exists [], (lit "data:application/octet-stream;base64,"), None.
    split; [cbv; tauto|]. split; [repeat constructor; cbv; intuition discriminate|]. split; [reflexivity|reflexivity].
  - split; [go|]. split; [go|]. split; [discriminate|]. split; [go|]. split; [reflexivity|]. right. split; [|reflexivity]. split; [discriminate|]. plains.
Qed.
Lemma foreign_images : opt foreign_json "images" (list_of (an_image foreign_files (lit "/d") a_decoder (views foreign_model) (buffers foreign_model))) [] (images foreign_model).
Proof.
  right. eexists. split; [mem|]. eexists. split; [reflexivity|]. constructor; [|constructor; [|constructor]].
  - split; [go|]. split; [reflexivity|]. left. exists [2; 3], 2, 1, 3, [2; 3], 0, 0. split; [go|]. split; [go|]. split; [go|]. split; [reflexivity|]. split; [|go].
    eexists. eexists. exists [1], [4]. split; [reflexivity|]. split; [discriminate|]. repeat split.
  - split; [go|]. split; [reflexivity|]. right. right. exists "gone.png". split; [go|]. split; [go|]. split; [reflexivity|]. split; [split; [discriminate|plains]|]. repeat split.
Qed.
Example C99_example : Text.Spec.document foreign foreign_json /\ means foreign_files (lit "/d") a_decoder (fun q => q) foreign_json foreign_model /\
  Text.Model.load_file Uri.Props.first_word a_decoder (fun q => q) foreign_files (lit "/d/f.gltf") = Ok foreign_model /\
  map sa_min (samplers foreign_model) = [9986] /\ map im_data (images foreign_model) = [Some (2, 1, 3, [2; 3]); None] /\ map bu_data (buffers foreign_model) = [[1; 2; 3; 4]; [7; 8]].
Proof.
  split; [apply Text.Parser.parse_exact; vm_compute; reflexivity|]. split; [|split; [vm_compute; reflexivity|repeat split]].
  split; [go|go|go|exact foreign_buffers|go|go|go|exact foreign_images|go|go|go|go|go|go|go|go|go|go|go|go].
Qed.
Example C99_refused_example : incomplete (with_section "skins" (JObj [("joints", JArr [JInt 0; JStr "1"])])).
Proof.
  eapply (no_numbers _ "skins" "joints"); [cbv; tauto|mem|left; reflexivity|]. intros j qs (l & E & L) (js & -> & F). injection E as <-. cbv in L. injection L as <-.
  inversion F as [|? ? ? ? _ F2]. inversion F2 as [|? ? ? ? N _]. destruct N as [N|(z & N & _)]; discriminate N.
Qed.

Print Assumptions C99_means.
Print Assumptions C99_file.
Print Assumptions C99_unique.
Print Assumptions C99_refused.
Print Assumptions C99_file_refused.
Print Assumptions C99_sane.
Print Assumptions C99_lost.
Print Assumptions C99_optional_refuted.
Print Assumptions C99_channel_refuted.
Print Assumptions C99_invalid_refuted.
