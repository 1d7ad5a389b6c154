(** The parts, and the whole document. *)
From Coq Require Import List Bool ZArith QArith Ascii String Lia.
From Verif.Base Require Import Py.
From Verif.Uri Require Import Model.
From Verif.Uri Require Spec Paths Props.
From Verif.Doc Require Import Model.
From Verif.Doc Require Import Spec Facts.
From Verif.Text Require Spec.
From Verif.Foreign Require Import Spec Read.
Import ListNotations.
Local Open Scope Z_scope.
Local Open Scope string_scope.

Lemma one_of_int : forall l, forallb in_int l = true -> forall j z, one_of l j z -> whole j z /\ int z.
Proof.
  intros l F j z [W I]. split; [exact W|]. rewrite forallb_forall in F. specialize (F z I). unfold in_int in F. apply andb_prop in F. destruct F as [A B].
  apply Z.leb_le in A. apply Z.ltb_lt in B. unfold int. lia.
Qed.
Lemma count_size : forall j z, count j z -> whole j z /\ size z.
Proof. intros j z H. exact H. Qed.
Ltac pint H := match type of H with
  | opt _ _ (one_of ?l) _ _ => rewrite (p_int_opt _ _ _ _ _ (one_of_int l eq_refl) H)
  | opt _ _ index _ _ => rewrite (p_int_opt _ _ _ _ _ index_int H)
  end; cbn [bind].

Lemma sampler_read : forall o s, a_sampler o s -> is_object o = true /\ ParseSampler o = Ok s.
Proof.
  intros o s (N & MI & MA & WS & WT & E). split; [apply (opt_object _ _ _ _ _ _ N)|]. unfold ParseSampler.
  pint MI. pint MA.
  pint WS. pint WT.
  rewrite (p_string_opt o _ _ _ N), (extras_of o _ E). destruct s; reflexivity.
Qed.
Lemma texture_read : forall o t, a_texture o t -> is_object o = true /\ ParseTexture o = Ok t.
Proof.
  intros o t (S & I & E & X). split; [apply (opt_object _ _ _ _ _ _ S)|]. unfold ParseTexture.
  pint S. pint I.
  rewrite (extras_of o _ E), (extensions_of o _ X). destruct t; reflexivity.
Qed.
Lemma view_read : forall o v, a_view o v -> is_object o = true /\ ParseBufferView o = Ok v.
Proof.
  intros o v (N & B & F & L & S & T & E). split; [apply (opt_object _ _ _ _ _ _ N)|]. unfold ParseBufferView.
  destruct (p_int_req o _ _ _ index_int B) as (b & -> & TB). destruct (p_size_req o _ _ _ count_size L) as (l & -> & TL). cbn [required bind].
  assert (RS : vi_stride v = 0 \/ 4 <= vi_stride v <= 252 /\ exists k, vi_stride v = 4 * k) by (destruct S as [[_ S]|(j & _ & _ & S)]; [left; exact S|right; exact S]).
  assert (ZS : forall j z, (whole j z /\ 4 <= z <= 252 /\ exists k, z = 4 * k) -> whole j z /\ size z) by (intros j z (W & R & _); split; [exact W|unfold size; lia]).
  rewrite (p_size_opt _ _ _ _ _ ZS S). cbn [bind].
  destruct (Z.ltb_spec 252 (vi_stride v)); [exfalso; lia|].
  assert (M : vi_stride v mod 4 = 0) by (destruct RS as [->|(_ & k & ->)]; [reflexivity|rewrite Z.mul_comm; apply Z.mod_mul; lia]).
  rewrite M. cbn [orb negb Z.eqb].
  assert (RT : In (vi_target v) [0; 34962; 34963]) by (destruct T as [[_ T]|(j & _ & _ & T)]; [left; symmetry; exact T|right; exact T]).
  pint T. rewrite TB. cbn [bind]. rewrite (p_size_opt o _ _ _ _ count_size F). cbn [bind]. rewrite TL. cbn [bind].
  rewrite (p_string_opt o _ _ _ N). destruct v as [vn vb vo vl vs vt ve]. cbn in *. subst ve. destruct RT as [<-|[<-|[<-|[]]]]; reflexivity.
Qed.
Lemma type_read : forall s t, In (s, t) types -> type_of s = Some t.
Proof. intros s t I. cbn in I. repeat (destruct I as [I|I]; [injection I as <- <-; reflexivity|]). destruct I. Qed.
Lemma accessor_read : forall o a, an_accessor o a -> is_object o = true /\ ParseAccessor o = Ok a.
Proof.
  intros o a (N & V & F & C & NO & CO & T & MA & MI & E). split; [apply (opt_object _ _ _ _ _ _ N)|]. unfold ParseAccessor.
  destruct (p_int_req o _ _ _ index_int V) as (v & -> & TV). cbn [required bind].
  assert (RC : 5120 <= ac_component a <= 5130) by (destruct C as (j & _ & _ & I); cbn in I; lia).
  destruct (p_int_req o _ _ _ (one_of_int [5120; 5121; 5122; 5123; 5125; 5126] eq_refl) C) as (c & -> & TC). cbn [required bind]. destruct (p_size_req o _ _ _ count_size CO) as (n & -> & TN). cbn [required bind].
  destruct T as (j & TJ & s & -> & I). apply find_member in TJ. unfold p_string at 1. rewrite TJ. cbn [required bind]. rewrite (type_read s _ I). cbn [required bind].
  rewrite TN. cbn [bind]. rewrite TV. cbn [bind]. rewrite (p_size_opt o _ _ _ _ count_size F). cbn [bind]. rewrite TC. cbn [bind].
  destruct (Z.leb_spec 5120 (ac_component a)); [|lia]. destruct (Z.leb_spec (ac_component a) 5130); [|lia]. cbn [andb].
  rewrite (p_string_opt o _ _ _ N), (p_bool_opt o _ _ _ NO), (extras_of o _ E), (p_numbers_opt o _ _ MA), (p_numbers_opt o _ _ MI). destruct a; reflexivity.
Qed.
Lemma primitive_read : forall o p, a_primitive o p -> is_object o = true /\ ParsePrimitive o = Ok p.
Proof.
  intros o p (A & I & M & MO & T & E). split; [apply (req_object _ _ _ _ _ A)|]. unfold ParsePrimitive.
  pint M. pint MO. pint I.
  rewrite (p_string_int_req o _ _ A). cbn [bind]. rewrite (p_targets_opt o _ T). cbn [bind]. rewrite (extras_of o _ E). destruct p; reflexivity.
Qed.
Lemma mesh_read : forall o m, a_mesh o m -> is_object o = true /\ ParseMesh o = Ok m.
Proof.
  intros o m (N & P & W & T & X & E). split; [apply (opt_object _ _ _ _ _ _ N)|]. unfold ParseMesh.
  destruct P as (j & M & js & -> & F). apply find_member in M. rewrite M, (proj1 (parsed_list _ _ _ _ _ primitive_read F)). cbn [bind]. rewrite (p_targets_opt o _ T). cbn [bind].
  rewrite (p_string_opt o _ _ _ N), (p_numbers_opt o _ _ W), (extensions_of o _ X), (extras_of o _ E). destruct m; reflexivity.
Qed.
Lemma node_read : forall o n, a_node o n -> is_object o = true /\ ParseNode o = Ok n.
Proof.
  intros o n (N & C & S & M & CH & TR & W & X & E). split; [apply (opt_object _ _ _ _ _ _ N)|]. unfold ParseNode.
  pint S.
  assert (TRS : exists b, p_numbers o "matrix" = (no_matrix n, b) /\ (forall (F : list Q -> list Q -> list Q -> res node),
    F (if b then [] else fst (p_numbers o "rotation")) (if b then [] else fst (p_numbers o "scale")) (if b then [] else fst (p_numbers o "translation")) = F (no_rotation n) (no_scale n) (no_translation n))).
  { destruct TR as [(MA & R & SC & T)|(MA & ME & R & SC & T)].
    - exists true. split; [apply p_numbers_req, MA|]. intros F. rewrite R, SC, T. reflexivity.
    - exists false. split; [unfold p_numbers; rewrite (proj1 (find_none o _ MA)), ME; reflexivity|]. intros F.
      rewrite (p_numbers_opt o _ _ R), (p_numbers_opt o _ _ SC), (p_numbers_opt o _ _ T). reflexivity. }
  destruct TRS as (b & -> & TRS). cbv zeta. pint C. pint M.
  rewrite (p_children_opt o _ _ CH). cbn [bind]. rewrite (p_string_opt o _ _ _ N), (extensions_of o _ X), (extras_of o _ E).
  rewrite (TRS (fun r s t => Ok (Node (no_camera n) (no_name n) (no_skin n) (no_mesh n) (no_children n) r s t (no_matrix n) [] (no_extensions n) (no_extras n)))).
  destruct n. cbn in *. subst. reflexivity.
Qed.
Lemma scene_read : forall o s, a_scene o s -> is_object o = true /\ ParseScene o = Ok s.
Proof.
  intros o s (N & I & X & E). split; [apply (opt_object _ _ _ _ _ _ N)|]. unfold ParseScene. destruct (p_indices_req o _ _ I) as (qs & -> & T). cbn [negb]. rewrite T. cbn [bind].
  rewrite (p_string_opt o _ _ _ N), (extensions_of o _ X), (extras_of o _ E). destruct s; reflexivity.
Qed.
Lemma skin_read : forall o s, a_skin o s -> is_object o = true /\ ParseSkin o = Ok s.
Proof.
  intros o s (N & I & S & M). split; [apply (opt_object _ _ _ _ _ _ N)|]. unfold ParseSkin. destruct (p_indices_req o _ _ I) as (qs & -> & T). cbn [negb].
  pint S. rewrite T. cbn [bind]. pint M. rewrite (p_string_opt o _ _ _ N). destruct s; reflexivity.
Qed.
Lemma float_req : forall f32 o k x, req o k (a_float f32) x -> exists q, p_number o k = Some q /\ f32 q = x.
Proof. intros f32 o k x (j & M & q & N & ->). apply find_member in M. exists q. unfold p_number. rewrite M. split; [apply number_number, N|reflexivity]. Qed.
Lemma float_opt : forall f32 o k x, opt o k (a_float f32) (f32 0%Q) x -> f32 (or_default 0%Q (p_number o k)) = x.
Proof.
  intros f32 o k x [[N ->]|R]; [unfold p_number; rewrite (proj1 (find_none o k N)); reflexivity|]. destruct (float_req f32 o k x R) as (q & -> & <-). reflexivity.
Qed.
Lemma camera_read : forall f32 o c, a_camera f32 o c -> is_object o = true /\ ParseCamera f32 o = Ok c.
Proof.
  intros f32 o c (N & T & P & X & E). split; [apply (opt_object _ _ _ _ _ _ N)|]. unfold ParseCamera. rewrite (p_string_req o _ _ T). cbn [required bind].
  destruct P as [(TY & (j & M & P) & O)|(TY & (j & M & P) & O)]; rewrite TY; cbn [String.eqb Ascii.eqb Bool.eqb]; apply find_member in M; rewrite M.
  - destruct P as (A & Y & F & Z & PX & PE). assert (JO := req_object _ _ _ _ _ Y). destruct j as [| | | | | |l]; try discriminate JO. unfold ParsePerspectiveCamera.
    destruct (float_req f32 _ _ _ Y) as (y & -> & HY). destruct (float_req f32 _ _ _ Z) as (z & -> & HZ). cbn [required bind].
    rewrite (float_opt f32 _ _ _ A), (float_opt f32 _ _ _ F), HY, HZ, (extensions_of _ _ PX), (extras_of _ _ PE), (p_string_opt o _ _ _ N), (extensions_of o _ X), (extras_of o _ E).
    destruct c as [ct cn [] co cx ce]. cbn in *. subst. reflexivity.
  - destruct P as (A & Y & F & Z & PX & PE). assert (JO := req_object _ _ _ _ _ Y). destruct j as [| | | | | |l]; try discriminate JO. unfold ParseOrthographicCamera.
    destruct (float_req f32 _ _ _ A) as (a & -> & HA). destruct (float_req f32 _ _ _ Y) as (y & -> & HY). destruct (float_req f32 _ _ _ F) as (g & -> & HG). destruct (float_req f32 _ _ _ Z) as (z & -> & HZ). cbn [required bind].
    rewrite HA, HG, HY, HZ, (extensions_of _ _ PX), (extras_of _ _ PE), (p_string_opt o _ _ _ N), (extensions_of o _ X), (extras_of o _ E).
    destruct c as [ct cn cp [] cx ce]. cbn in *. subst. reflexivity.
Qed.
Lemma channel_read : forall o c, a_channel o c -> is_object o = true /\ ParseAnimationChannel o = Ok c.
Proof.
  intros o c (S & (j & M & N & P) & E). split; [apply (req_object _ _ _ _ _ S)|]. unfold ParseAnimationChannel.
  destruct (p_int_req o _ _ _ index_int S) as (s & -> & TS). cbn [required bind]. apply find_member in M. rewrite M. assert (JO := req_object _ _ _ _ _ N). destruct j as [| | | | | |l]; try discriminate JO.
  destruct (p_int_req _ _ _ _ index_int N) as (n & -> & TN). cbn [required bind]. rewrite (p_string_req _ _ _ P). cbn [required bind]. rewrite TS. cbn [bind]. rewrite TN. cbn [bind fst snd].
  rewrite (extras_of o _ E). destruct c; reflexivity.
Qed.
Lemma asampler_read : forall o s, an_asampler o s -> is_object o = true /\ ParseAnimationSampler o = Ok s.
Proof.
  intros o s (I & N & U & E). split; [apply (req_object _ _ _ _ _ I)|]. unfold ParseAnimationSampler.
  destruct (p_int_req o _ _ _ index_int I) as (i & -> & TI). cbn [required bind]. rewrite (p_string_req _ _ _ N). cbn [required bind]. destruct (p_int_req o _ _ _ index_int U) as (u & -> & TU). cbn [required bind].
  rewrite TI. cbn [bind]. rewrite TU. cbn [bind]. rewrite (extras_of o _ E). destruct s; reflexivity.
Qed.
Lemma animation_read : forall o a, an_animation o a -> is_object o = true /\ ParseAnimation o = Ok a.
Proof.
  intros o a (N & (jc & MC & cs & -> & C) & (js & MS & ss & -> & S) & E). split; [apply (opt_object _ _ _ _ _ _ N)|]. unfold ParseAnimation.
  apply find_member in MC. apply find_member in MS. rewrite MC, (proj1 (parsed_list _ _ _ _ _ channel_read C)). cbn [bind]. rewrite MS, (proj2 (parsed_list _ _ _ _ _ asampler_read S)). cbn [bind].
  rewrite (p_string_opt o _ _ _ N), (extras_of o _ E). destruct a; reflexivity.
Qed.
Lemma numbers_in_read : forall l m, numbers_in l m -> doubles_of l = m.
Proof.
  intros l m H. induction H as [|k j q l m N H IH|k j l m N H IH]; [reflexivity| |]; cbn [doubles_of].
  - rewrite (number_number j q N), IH. reflexivity.
  - destruct (number_of j) as [q|] eqn:Q; [exfalso; apply (N q), number_of_number, Q|exact IH].
Qed.
Lemma parameter_read : forall j p, a_parameter j p -> p_parameter j = Some p.
Proof.
  intros j p H. destruct H as [j q N|j qs (js & -> & F)|s|b|l m N]; cbn [p_parameter]; try reflexivity.
  - assert (E := number_number j q N). destruct N as [->|(z & -> & _)]; cbn [p_parameter]; rewrite E; reflexivity.
  - rewrite (numbers_list js qs F). reflexivity.
  - rewrite (numbers_in_read l m N). reflexivity.
Qed.
Lemma parameters_read : forall l m, parameters_in [] l m -> parameters l = m.
Proof.
  intros l m H. induction H as [|k j l m [[]| ->] H IH|k j p l m _ P H IH]; [reflexivity|exact IH|]. cbn [parameters]. rewrite (parameter_read j p P), IH. reflexivity.
Qed.
Lemma additional_read : forall l m, parameters_in ["pbrMetallicRoughness"; "extensions"; "extras"] l m ->
  parameters (filter (fun kv => negb (own_key (fst kv))) l) = m.
Proof.
  assert (K : forall k, own_key k = true <-> In k ["pbrMetallicRoughness"; "extensions"; "extras"]).
  { intros k. unfold own_key. rewrite !orb_true_iff, !String.eqb_eq. cbn. intuition congruence. }
  intros l m H. induction H as [|k j l m S H IH|k j p l m N P H IH]; [reflexivity| |]; cbn [filter fst].
  - destruct (own_key k) eqn:E; cbn [negb]; [exact IH|]. destruct S as [S| ->]; [apply K in S; congruence|]. exact IH.
  - destruct (own_key k) eqn:E; [exfalso; apply N, K, E|]. cbn [negb parameters]. rewrite (parameter_read j p P), IH. reflexivity.
Qed.
Lemma material_read : forall o m, a_material o m -> is_object o = true /\ Ok (ParseMaterial o) = Ok m.
Proof.
  intros o m (N & V & (l & L & A) & X & E). split; [apply (opt_object _ _ _ _ _ _ N)|]. unfold ParseMaterial.
  assert (VE : match find "pbrMetallicRoughness" o with Some (JObj l) => parameters l | _ => [] end = ma_values m).
  { destruct V as [[NM ->]|(j & M & x & -> & P)]; [rewrite (proj1 (find_none o _ NM)); reflexivity|]. apply find_member in M. rewrite M. apply parameters_read, P. }
  rewrite VE, (p_string_opt o _ _ _ N), (extensions_of o _ X), (extras_of o _ E), L. cbn [members]. rewrite (additional_read l _ A). destruct m; reflexivity.
Qed.

(** * Buffers and images *)
Section Files.
  Variables (expand : text -> text) (fs : files) (d : text) (decode : list Z -> option (Z * Z * Z * list Z)).
  Hypothesis X : Uri.Spec.expands expand.
  Hypothesis FO : Uri.Spec.folder d.
  Hypothesis PD : Forall Uri.Spec.plain d.
  Lemma plain_no_data : forall uri, Forall Uri.Spec.plain uri -> IsDataURI uri = false.
  Proof.
    assert (H : forall h uri, In ":"%char h -> Forall Uri.Spec.plain uri -> after h uri = None).
    { intros h. induction h as [|c h IH]; intros uri I P; [destruct I|]. destruct uri as [|x uri]; [reflexivity|]. cbn [after]. inversion P as [|? ? PX PU]; subst.
      destruct (Ascii.eqb_spec c x) as [E|]; [|reflexivity]. subst x. destruct I as [->|I]; [unfold Uri.Spec.plain in PX; vm_compute in PX; exfalso; intuition discriminate|]. apply IH; assumption. }
    intros uri P. unfold IsDataURI. cbn [headers existsb fst]. repeat rewrite H by (exact P || (cbn; tauto)). reflexivity.
  Qed.
  Lemma external_read : forall uri n, a_name uri ->
    LoadExternalFile expand fs uri d n = match on_disk fs d uri with
    | Some (x :: b) => match n with Some n => if (Z.of_nat (List.length (x :: b)) =? n)%Z then Ok (x :: b) else Err IOError | None => Ok (x :: b) end
    | _ => Err IOError end.
  Proof.
    intros uri n [N PU]. unfold on_disk, LoadExternalFile. cbn [FindFile]. rewrite Uri.Paths.join_folder by exact FO.
    rewrite (Uri.Spec.expand_plain expand X) by (apply Uri.Paths.in_folder_nonempty || (apply Uri.Paths.in_folder_plain; assumption)).
    destruct uri as [|u uri]; [contradiction|].
    destruct (fs (Uri.Spec.in_folder d (u :: uri))) as [b|] eqn:B.
    - destruct (Uri.Spec.in_folder d (u :: uri)) as [|y p] eqn:Y; [exfalso; apply (Uri.Paths.in_folder_nonempty _ _ Y)|]. rewrite B.
      destruct b; reflexivity.
    - rewrite Uri.Paths.join_folder by (split; discriminate).
      rewrite (Uri.Spec.expand_plain expand X) by (apply Uri.Paths.in_folder_nonempty || (apply Uri.Paths.in_folder_plain; [apply Uri.Paths.plain_dot|assumption])).
      destruct (fs (Uri.Spec.in_folder (lit ".") (u :: uri))) as [b|] eqn:B2; [|reflexivity].
      destruct (Uri.Spec.in_folder (lit ".") (u :: uri)) as [|y p] eqn:Y; [exfalso; apply (Uri.Paths.in_folder_nonempty _ _ Y)|]. rewrite B2.
      destruct b; reflexivity.
  Qed.
  Lemma buffer_read : forall o b, a_buffer fs d o b -> is_object o = true /\ ParseBuffer expand fs d o = Ok b.
  Proof.
    intros o b (N & L & NE & U & E & D). split; [apply (opt_object _ _ _ _ _ _ N)|]. unfold ParseBuffer. destruct (p_size_req o _ _ _ count_size L) as (q & -> & T). cbn [required bind].
    rewrite (p_string_req o _ _ U), T. cbn [or_default bind].
    assert (P : Uri.Model.ParseBuffer expand false fs d (Z.of_nat (List.length (bu_data b))) (list_ascii_of_string (bu_uri b)) = Ok (bu_data b)).
    { cbv zeta in D. destruct D as [(mime & h & m & H & B & -> & _)|[A D]].
      - rewrite (proj1 (Uri.Props.C95_data_uri expand fs d h m (bu_data b) H B NE)), Z.eqb_refl. reflexivity.
      - unfold Uri.Model.ParseBuffer. rewrite plain_no_data by apply A. rewrite external_read by exact A. rewrite D. destruct (bu_data b); [contradiction|]. rewrite Z.eqb_refl. reflexivity. }
    rewrite P. cbn [bind]. rewrite (p_string_opt o _ _ _ N). destruct b. cbn in *. subst. reflexivity.
  Qed.
  Lemma decoded : forall w0 h0 bytes w h c data, decode bytes = Some (w, h, c, data) -> 1 <= w -> 1 <= h -> w0 = 0 \/ w0 = w -> h0 = 0 \/ h0 = h ->
    LoadImageData decode w0 h0 bytes = Ok (w, h, c, data).
  Proof.
    intros w0 h0 bytes w h c data D W H W0 H0. unfold LoadImageData. rewrite D. destruct (Z.ltb_spec w 1); [lia|]. destruct (Z.ltb_spec h 1); [lia|].
    replace ((0 <? w0)%Z && negb (w0 =? w)%Z)%bool with false by (destruct W0 as [-> | ->]; [reflexivity|rewrite Z.eqb_refl, andb_false_r; reflexivity]).
    replace ((0 <? h0)%Z && negb (h0 =? h)%Z)%bool with false by (destruct H0 as [-> | ->]; [reflexivity|rewrite Z.eqb_refl, andb_false_r; reflexivity]). reflexivity.
  Qed.
  Lemma ascii_back : forall s, string_of_list_ascii (list_ascii_of_string s) = s.
  Proof. exact string_of_list_ascii_of_string. Qed.
  Lemma image_read : forall vs bs o i, an_image fs d decode vs bs o i -> is_object o = true /\ ParseImage expand fs d decode vs bs o = Ok i.
  Proof.
    intros vs bs o i (N & E & K). split; [apply (opt_object _ _ _ _ _ _ N)|]. unfold ParseImage.
    destruct K as [(bytes & w & h & c & data & w0 & h0 & NU & V & M & U & (v & b & before & after & NV & B0 & NB & DA & LO & LE) & D & W & H & W0 & EW & H0 & EH & DI)
                  |[(uri & mime & bytes & w & h & c & data & NV & U & V & K & D & W & H & DI)|(uri & NV & U & V & A & D & M & IU & DI)]].
    - rewrite (proj1 (find_none o _ NU)). assert (V' := V). destruct V' as (j & MV & IX). apply find_member in MV. rewrite MV.
      unfold p_int_required. destruct (p_int_req o _ _ _ index_int V) as (q & -> & T). cbn [required bind]. rewrite T. cbn [bind]. pint W0. pint H0.
      destruct IX as [_ IX]. destruct (Z.eqb_spec (im_view i) (-1)); [lia|]. destruct (Z.ltb_spec (im_view i) 0); [lia|]. rewrite NV. destruct (Z.ltb_spec (vi_buffer v) 0); [lia|]. rewrite NB.
      rewrite DA, !app_length, <- LO, <- LE. destruct (Z.leb_spec (Z.of_nat (List.length before) + Z.of_nat (List.length bytes)) (Z.of_nat (List.length before + (List.length bytes + List.length after)))); [|lia].
      rewrite !Nat2Z.id, skipn_app, skipn_all, Nat.sub_diag. cbn [app skipn]. rewrite firstn_app, Nat.sub_diag, firstn_all. cbn [firstn]. rewrite app_nil_r.
      rewrite (decoded w0 h0 bytes w h c data D W H EW EH). cbn [bind im_name im_mime]. rewrite (p_string_opt o _ _ _ N), (p_string_req o _ _ M). cbn [or_default]. destruct i. cbn in *. subst. reflexivity.
    - rewrite (proj1 (find_none o _ NV)). assert (U' := U). destruct U' as (j & MU & UJ). apply find_member in MU. rewrite MU. rewrite (p_string_req o _ _ U). cbn [required bind].
      destruct K as [((hd & m & IH & B & EU & EM) & NE & IM & IU)|(A & OD & NE & IM & IU)].
      + rewrite EU, (proj2 (Uri.Props.C95_data_uri expand fs d hd m bytes IH B NE)). cbn [bind]. rewrite (decoded 0 0 bytes w h c data D W H (or_introl eq_refl) (or_introl eq_refl)). cbn [bind].
        rewrite (p_string_opt o _ _ _ N), <- EM, <- IM. destruct i. cbn in *. subst. reflexivity.
      + unfold Uri.Model.ParseImage. rewrite plain_no_data by apply A. rewrite external_read by exact A. rewrite OD. destruct bytes as [|x bytes]; [contradiction|]. cbn [bind].
        rewrite (decoded 0 0 (x :: bytes) w h c data D W H (or_introl eq_refl) (or_introl eq_refl)). cbn [bind]. rewrite (p_string_opt o _ _ _ N), ascii_back. destruct i. cbn in *. subst. reflexivity.
    - rewrite (proj1 (find_none o _ NV)). assert (U' := U). destruct U' as (j & MU & UJ). apply find_member in MU. rewrite MU. rewrite (p_string_req o _ _ U). cbn [required bind].
      unfold Uri.Model.ParseImage. rewrite plain_no_data by apply A. rewrite external_read by exact A. rewrite D. cbn [bind]. rewrite (p_string_opt o _ _ _ N), ascii_back. destruct i. cbn in *. subst. reflexivity.
  Qed.
End Files.

(** * The document *)
Lemma asset_read : forall o a, an_asset o a -> is_object o = true /\ ParseAsset new_asset o = a.
Proof.
  intros o a (V & G & M & C & X & E). split; [apply (opt_object _ _ _ _ _ _ V)|]. unfold ParseAsset, new_asset. cbn [at_version at_generator at_min at_copyright at_extensions at_extras].
  rewrite (p_string_opt o _ _ _ V), (p_string_opt o _ _ _ G), (p_string_opt o _ _ _ M).
  assert (EX : match find "extensions" o with Some (JObj _) => p_extensions o | _ => [] end = at_extensions a).
  { destruct X as [[N X]|(j & MX & l & -> & F)]; [rewrite (proj1 (find_none o _ N)); symmetry; exact X|]. assert (MX' := MX). apply find_member in MX. rewrite MX. apply extensions_of. right. exists (JObj l). split; [exact MX'|]. exists l. split; [reflexivity|exact F]. }
  destruct a as [av ag am ac ax ae]. cbn [at_version at_generator at_min at_copyright at_extensions at_extras] in *.
  f_equal; [symmetry; exact C|exact EX|exact (extras_of o _ E)].
Qed.
Lemma lights_read : forall o ls, some_lights o ls -> p_lights o = ls.
Proof.
  intros o ls [[N ->]|(e & M & [[N ->]|(k & MK & (j & ML & js & -> & F))])]; unfold p_lights.
  - rewrite (proj1 (find_none o _ N)). reflexivity.
  - apply find_member in M. rewrite M. destruct (find_none e _ N) as [FN O]. destruct e as [| | | | | |l]; try discriminate O. cbn [find] in FN. rewrite FN. reflexivity.
  - apply find_member in M. rewrite M. assert (O := member_object _ _ _ MK). apply find_member in MK. destruct e as [| | | | | |l]; try discriminate O. cbn [find] in MK. rewrite MK.
    assert (O' := member_object _ _ _ ML). apply find_member in ML. destruct k as [| | | | | |l']; try discriminate O'. cbn [find] in ML. rewrite ML.
    clear -F. induction F as [|j l js ls (N & C & T) F IH]; [reflexivity|]. cbn [map]. rewrite IH. f_equal. unfold ParseLight.
    rewrite (p_string_opt j _ _ _ N), (p_string_opt j _ _ _ T), (p_numbers_opt j _ _ C). destruct l; reflexivity.
Qed.
Lemma has_section_req : forall A v k (R : json -> A -> Prop) l, req v k (list_of R) l -> has_section v k = true.
Proof. intros A v k R l (j & M & js & -> & _). apply find_member in M. unfold has_section. rewrite M. reflexivity. Qed.
Theorem document_read : forall expand fs d decode f32 v m, Uri.Spec.expands expand -> Uri.Spec.folder d -> Forall Uri.Spec.plain d ->
  means fs d decode f32 v m -> LoadFromString expand fs d decode f32 v = Ok m.
Proof.
  intros expand fs d decode f32 v m X FO PD []. unfold LoadFromString.
  rewrite (req_object _ _ _ _ _ m_scenes). cbn [negb forallb].
  rewrite (has_section_req _ _ _ _ _ m_scenes), (has_section_req _ _ _ _ _ m_nodes), (has_section_req _ _ _ _ _ m_accessors), (has_section_req _ _ _ _ _ m_buffers), (has_section_req _ _ _ _ _ m_views). cbn [andb negb].
  assert (A : match find "asset" v with Some (JObj l) => ParseAsset new_asset (JObj l) | _ => new_asset end = m_asset m).
  { destruct m_the_asset as [[N ->]|(j & M & A)]; [rewrite (proj1 (find_none v _ N)); reflexivity|]. apply find_member in M. rewrite M. destruct (asset_read j _ A) as [O P]. destruct j; try discriminate O. exact P. }
  cbv zeta. rewrite A. rewrite (strings_opt v _ _ m_used). cbn [bind]. rewrite (strings_opt v _ _ m_required). cbn [bind].
  rewrite (section_req v _ _ _ _ _ (buffer_read expand fs d X FO PD) m_buffers). cbn [bind]. rewrite (section_req v _ _ _ _ _ view_read m_views). cbn [bind].
  rewrite (section_req v _ _ _ _ _ accessor_read m_accessors). cbn [bind]. rewrite (section_opt v _ _ _ _ _ mesh_read m_meshes). cbn [bind].
  rewrite (section_req v _ _ _ _ _ node_read m_nodes). cbn [bind]. rewrite (section_req v _ _ _ _ _ scene_read m_scenes). cbn [bind].
  assert (S : match find "scene" v with Some j => match number_of j with Some _ => get_int j | None => Ok (-1) end | None => Ok (-1) end = Ok (default_scene m)).
  { destruct m_scene as [[N ->]|(j & M & I)]; [rewrite (proj1 (find_none v _ N)); reflexivity|]. apply find_member in M. rewrite M. destruct (index_int _ _ I) as [W II]. destruct (whole_get _ _ W II) as [NN G]. destruct (number_of j); [exact G|contradiction]. }
  rewrite S. cbn [bind]. rewrite (section_opt v _ _ _ _ _ material_read m_materials). cbn [bind].
  rewrite (section_opt v _ _ _ _ _ (image_read expand fs d decode X FO PD (views m) (buffers m)) m_images). cbn [bind].
  rewrite (section_opt v _ _ _ _ _ texture_read m_textures). cbn [bind]. rewrite (section_opt v _ _ _ _ _ animation_read m_animations). cbn [bind].
  rewrite (section_opt v _ _ _ _ _ skin_read m_skins). cbn [bind]. rewrite (section_opt v _ _ _ _ _ sampler_read m_samplers). cbn [bind].
  rewrite (section_opt v _ _ _ _ _ (camera_read f32) m_cameras). cbn [bind]. rewrite (lights_read v _ m_lights), (extensions_of v _ m_has_extensions), (extras_of v _ m_the_extras). destruct m; reflexivity.
Qed.
