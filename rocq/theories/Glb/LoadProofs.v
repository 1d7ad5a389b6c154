(** Proofs about loading a saved .glb file, and about models built by adding meshes. *)
From Coq Require Import List Bool ZArith QArith String Ascii Lia.
From Verif.Base Require Import Py PyFacts Fs FsFacts.
From Verif.Mesh Require Import Model.
From Verif.Gltf Require Import Model Spec Proofs.
From Verif.Glb Require Import Model Spec Proofs SaveProofs.
Import ListNotations.
Local Open Scope string_scope.
Local Open Scope list_scope.
Local Open Scope Z_scope.

Lemma skipn_pre : forall A (a b : list A) n, size a = n -> skipn (Z.to_nat n) (a ++ b) = b.
Proof. intros A a b n <-. unfold size. rewrite Nat2Z.id, skipn_app, skipn_all, Nat.sub_diag. reflexivity. Qed.
Lemma slice_at : forall b pre x post l n, b = pre ++ x ++ post -> size pre = l -> size x = n -> slice b l n = Ok x.
Proof.
  intros b pre x post l n E L N. unfold slice. subst b. rewrite (skipn_pre _ _ _ _ L), !size_app.
  assert (P := size_pos _ pre). assert (Q := size_pos _ x). assert (S := size_pos _ post).
  destruct (Z.leb_spec 0 l); [|lia]. destruct (Z.leb_spec 0 n); [|lia]. destruct (Z.leb_spec (l + n) (size pre + (size x + size post))); [|lia]. cbn [andb].
  rewrite <- N. unfold size. rewrite Nat2Z.id, firstn_app, Nat.sub_diag, firstn_all, firstn_O, app_nil_r. reflexivity.
Qed.
Lemma word_le32 : forall b pre n post i, b = pre ++ le32 n ++ post -> size pre = i -> 0 <= n < 4294967296 -> word_at b i = n.
Proof. intros b pre n post i E L H. unfold word_at. rewrite E, (skipn_pre _ _ _ _ L). cbn [le32 app]. apply word_ok. exact H. Qed.

Lemma mapM_app : forall A B (f : A -> res B) a b x y, mapM f a = Ok x -> mapM f b = Ok y -> mapM f (a ++ b) = Ok (x ++ y).
Proof.
  induction a as [|h a IH]; intros b x y E F; cbn [mapM app] in *; [injection E as <-; exact F|].
  destruct (f h); [|discriminate E]. cbn [bind] in *. destruct (mapM f a) as [z|]; [|discriminate E]. cbn [bind] in E. injection E as <-. rewrite (IH b z y eq_refl F). reflexivity.
Qed.
Lemma mapM_intro : forall A B (f : A -> res B) l r, List.length r = List.length l ->
  (forall k x, nth_error l k = Some x -> exists y, nth_error r k = Some y /\ f x = Ok y) -> mapM f l = Ok r.
Proof.
  induction l as [|h l IH]; intros [|y r] L H; try discriminate L; [reflexivity|]. cbn [mapM].
  destruct (H 0%nat h eq_refl) as (y' & E & F). cbn in E. injection E as <-. rewrite F. cbn [bind]. rewrite (IH r); [reflexivity|cbn in L; congruence|].
  intros k x E. apply (H (S k) x E).
Qed.

Section Load.
  Variables (write_json : doc gmodel -> bytes) (loads : bytes -> option (doc gmodel))
            (dumps : doc gmodel -> bytes) (parse : bytes -> option (doc gmodel))
            (encode : string -> mat3b -> option bytes) (decode : bytes -> option (Z * Z * Z * bytes))
            (guess_type : string -> option string).

  (** A view after writing and packing is read as it was. *)
  Lemma view_back : forall b v, stored_view v ->
    parse_view (move_view (offs 0 [b]) (JView (Some (v_buffer v)) (if 0 <? v_offset v then Some (v_offset v) else None)
      (v_length v) (if v_stride v <? 4 then 0 else v_stride v) (if (v_target v =? ARRAY) || (v_target v =? ELEMENT_ARRAY) then v_target v else 0))) = Ok v.
  Proof.
    intros b [vb vo vl vst vt] (B & O & S & T). cbn [v_buffer v_offset v_length v_stride v_target] in *. subst vb. unfold move_view. cbn [jv_offset jv_buffer jv_length jv_stride jv_target].
    assert (OF : match (if 0 <? vo then Some vo else None) with Some o => match buffer_map (offs 0 [b]) 0 with Some base => o + base | None => 0 end | None => 0 end = vo).
    { destruct (Z.ltb_spec 0 vo); cbn; lia. }
    rewrite OF. unfold parse_view. cbn [jv_offset jv_buffer jv_length jv_stride jv_target].
    assert (ST : (252 <? (if vst <? 4 then 0 else vst)) || negb ((if vst <? 4 then 0 else vst) mod 4 =? 0) = false /\ (if vst <? 4 then 0 else vst) = vst).
    { destruct S as [->|(S1 & S2)]; [split; reflexivity|]. destruct (Z.ltb_spec vst 4); [lia|]. rewrite S2. destruct (Z.ltb_spec 252 vst); [lia|]. split; reflexivity. }
    destruct ST as (ST1 & ST2). rewrite ST1, ST2. do 2 f_equal. destruct T as [-> | [-> | ->]]; reflexivity.
  Qed.

  (** An image as it is loaded. *)
  Definition loaded (i : image) : image :=
    match cvImageFromImage i with Ok m => Image "" (cols m) (rows m) 3 (data m) | Err _ => i end.

  Definition img_view (v : jview) : view := View 0 (match jv_offset v with Some o => o | None => 0 end) (jv_length v) 0 0.

  Lemma img_views_parse : forall cs off, mapM parse_view (img_views off cs) = Ok (map img_view (img_views off cs)).
  Proof. induction cs as [|c cs IH]; intro off; [reflexivity|]. cbn [img_views mapM map]. rewrite IH. reflexivity. Qed.

  Definition loaded_model (g : gmodel) (b : bytes) : gmodel :=
    GModel [body_of encode g b] (views g ++ map img_view (img_views (size (flat_map pad [b])) (map snd (uris encode g))))
           (accessors g) (meshes g) (nodes g) (scenes g) (defaultScene g) (materials g) (map loaded (images g)) (textures g) (samplers g).

  Lemma load_binary_ok : forall g root b glb, packable g -> buffers g = [b] -> json_ok write_json loads dumps parse -> png_ok encode decode ->
    glb_file glb (pad (dumps (doc_of encode guess_type g root b))) (body_of encode g b) ->
    load_binary parse decode glb = if existsb null_material (materials g) then Err IOError else Ok (loaded_model g b).
  Proof.
    intros g root b glb PK B J PO (EG & SZ & MT & MB). set (d := doc_of encode guess_type g root b) in *. set (text := pad (dumps d)) in *. set (bin := body_of encode g b) in *.
    destruct PK as ((b' & B' & BN) & VN & SV & WR & PM & ND & PI). assert (b' = b) by congruence. subst b'. clear B'.
    assert (WD : proper d).
    { destruct (skeleton_proper g WR PM) as (K1 & K2 & K3 & K4 & K5). split; [eexists; eexists; reflexivity|]. split; [|repeat (split; [assumption|]); exact K5].
      unfold d, doc_of, packed. cbn [d_views]. unfold doc_views, to_doc. cbn [d_views]. destruct (views g); [contradiction|]. cbn [map app]. eauto. }
    destruct (J d WD) as (_ & DN & PA). assert (PT : parse text = Some d) by apply PA, pad_padded.
    assert (TX : 4 <= size text).
    { assert (H : size (dumps d) <= size text) by (unfold text; rewrite pad_size; apply align_bounds). assert (0 < size (dumps d)) by (destruct (dumps d); [contradiction|unfold size; cbn [List.length]; lia]).
      assert (M := Z.div_mod (size text) 4 ltac:(lia)). rewrite MT in M. lia. }
    assert (BX : 0 < size bin).
    { unfold bin, body_of. cbn [flat_map]. rewrite !size_app. assert (P1 := size_pos _ (flat_map pad (map snd (uris encode g)))). assert (size b <= size (pad b)) by (rewrite pad_size; apply align_bounds).
      assert (0 < size b) by (destruct b; [contradiction|unfold size; cbn [List.length]; lia]). change (size (@nil Z)) with 0. lia. }
    assert (SG : size glb = 28 + size text + size bin).
    { rewrite EG at 1. rewrite !size_app. change (size (le32 _)) with 4. change (size [_; _; _; _]) with 4. lia. }
    assert (TP := size_pos _ text). assert (BP := size_pos _ bin).
    unfold load_binary. destruct (Z.eqb_spec (size glb) 0); [lia|]. destruct (Z.ltb_spec (size glb) 20); [lia|].
    assert (W0 : word_at glb 0 = 1179937895) by (apply (word_le32 glb [] _ (skipn 4 glb)); [rewrite EG at 1; symmetry; rewrite EG at 1; reflexivity|reflexivity|lia]).
    assert (W8 : word_at glb 8 = size glb).
    { eapply (word_le32 glb ([103; 108; 84; 70] ++ le32 2)); [rewrite EG at 1; rewrite <- app_assoc; reflexivity|reflexivity|lia]. }
    assert (W12 : word_at glb 12 = size text).
    { eapply (word_le32 glb ([103; 108; 84; 70] ++ le32 2 ++ le32 (size glb))); [rewrite EG at 1; rewrite <- !app_assoc; reflexivity|reflexivity|lia]. }
    assert (W16 : word_at glb 16 = 1313821514).
    { eapply (word_le32 glb ([103; 108; 84; 70] ++ le32 2 ++ le32 (size glb) ++ le32 (size text))); [rewrite EG at 1; rewrite <- !app_assoc; reflexivity|reflexivity|lia]. }
    rewrite W0, W8, W12, W16. cbn [Z.eqb Pos.eqb negb]. unfold u32. rewrite (Z.mod_small (20 + size text)) by lia.
    destruct (Z.ltb_spec (size glb) (20 + size text)); [lia|]. destruct (Z.ltb_spec (size text) 4); [lia|]. cbn [orb].
    rewrite (Z.mod_small (size glb - (20 + size text))) by lia.
    assert (SL : slice glb 20 (size text) = Ok text).
    { eapply (slice_at glb ([103; 108; 84; 70] ++ le32 2 ++ le32 (size glb) ++ le32 (size text) ++ [74; 83; 79; 78])); [rewrite EG at 1; rewrite <- !app_assoc; reflexivity|reflexivity|reflexivity]. }
    rewrite SL. cbn [bind]. rewrite PT.
    assert (SB : slice glb (20 + size text + 8) (size bin) = Ok bin).
    { eapply (slice_at glb ([103; 108; 84; 70] ++ le32 2 ++ le32 (size glb) ++ le32 (size text) ++ [74; 83; 79; 78] ++ text ++ le32 (size bin) ++ [66; 73; 78; 0]) bin []);
        [rewrite EG at 1; rewrite <- !app_assoc, app_nil_r; reflexivity| |reflexivity].
      rewrite !size_app. change (size (le32 _)) with 4. change (size [_; _; _; _]) with 4. lia. }
    assert (PB : mapM (parse_buffer glb (20 + size text + 8) (size glb - (20 + size text))) (or_nil (d_buffers d)) = Ok [bin]).
    { change (or_nil (d_buffers d)) with [JBuffer None (Some (size bin))]. cbn [mapM]. unfold parse_buffer. cbn [jb_length jb_uri].
      destruct (Z.eqb_spec (size glb - (20 + size text)) 0); [lia|]. destruct (Z.ltb_spec (size glb - (20 + size text)) (size bin)); [lia|]. destruct (Z.eqb_spec (size bin) 0); [lia|].
      rewrite SB. reflexivity. }
    rewrite PB. cbn [bind].
    set (ivs := img_views (size (flat_map pad [b])) (map snd (uris encode g))).
    assert (PV : mapM parse_view (or_nil (d_views d)) = Ok (views g ++ map img_view ivs)).
    { change (or_nil (d_views d)) with (map (move_view (offs 0 [b])) (doc_views g) ++ ivs). apply mapM_app; [|apply img_views_parse].
      assert (Y : mapM parse_view (map (move_view (offs 0 [b])) (map (fun v => JView (Some (v_buffer v)) (if 0 <? v_offset v then Some (v_offset v) else None)
         (v_length v) (if v_stride v <? 4 then 0 else v_stride v) (if (v_target v =? ARRAY) || (v_target v =? ELEMENT_ARRAY) then v_target v else 0)) (views g))) = Ok (views g)).
      { clear -SV. induction SV as [|v vs V SV IH]; [reflexivity|]. cbn [map mapM]. match goal with |- context [parse_view (move_view ?o ?j)] => replace (parse_view (move_view o j)) with (@Ok view v) by (symmetry; exact (view_back b v V)) end. cbn [bind]. rewrite IH. reflexivity. }
      unfold doc_views, to_doc. cbn [d_views]. destruct (views g); [reflexivity|exact Y]. }
    rewrite PV. cbn [bind]. change (materials (d_rest d)) with (map write_material (materials g)). rewrite (plain_all _ PM).
    destruct (existsb null_material (materials g)); [reflexivity|]. cbn [bind].
    assert (SVW : size (doc_views g) = size (views g)).
    { unfold doc_views, to_doc. cbn [d_views]. destruct (views g); [contradiction|]. unfold size. rewrite map_length. reflexivity. }
    assert (PIM : mapM (parse_image decode [bin] (views g ++ map img_view ivs)) (or_nil (d_images d)) = Ok (map loaded (images g))).
    { assert (DI : or_nil (d_images d) = img_out guess_type (size (views g)) (map fst (uris encode g))).
      { unfold d, doc_of, packed. cbn [d_images]. rewrite SVW. unfold to_doc, uris. cbn [d_images]. destruct (images g); reflexivity. }
      rewrite DI. apply mapM_intro; [rewrite img_out_length; unfold uris; rewrite !map_length; reflexivity|].
      intros k x NX. assert (KL : (k < List.length (images g))%nat).
      { assert (L : (k < List.length (img_out guess_type (size (views g)) (map fst (uris encode g))))%nat) by (apply nth_error_Some; congruence). rewrite img_out_length in L. unfold uris in L. rewrite !map_length in L. exact L. }
      destruct (nth_error (images g) k) as [i|] eqn:NI; [|apply nth_error_None in NI; lia].
      assert (NU : nth_error (uris encode g) k = Some (uri i, image_bytes encode i)) by (unfold uris; rewrite nth_error_map, NI; reflexivity).
      rewrite (img_out_nth guess_type _ _ k (uri i)) in NX by (rewrite nth_error_map, NU; reflexivity). injection NX as <-.
      exists (loaded i). split; [rewrite nth_error_map, NI; reflexivity|].
      unfold parse_image. cbn [ji_view ji_uri].
      assert (NC : nth_error (map snd (uris encode g)) k = Some (image_bytes encode i)) by (rewrite nth_error_map, NU; reflexivity).
      set (v := View 0 (size (flat_map pad [b]) + size (flat_map pad (firstn k (map snd (uris encode g))))) (size (pad (image_bytes encode i))) 0 0).
      assert (NV : nth_error (map img_view ivs) k = Some v).
      { unfold ivs. rewrite nth_error_map, (img_views_nth _ _ _ _ NC). reflexivity. }
      assert (AT : at_ (views g ++ map img_view ivs) (size (views g) + Z.of_nat k) = Ok v).
      { apply at_Ok. assert (L : (k < List.length (map img_view ivs))%nat) by (apply nth_error_Some; congruence). rewrite size_app. unfold size. split; [lia|].
        rewrite nth_error_app2 by lia. replace (_ - _)%nat with k by lia. exact NV. }
      destruct (Z.leb_spec (size (views g ++ map img_view ivs)) (size (views g) + Z.of_nat k)) as [C|_].
      { apply at_Ok in AT. lia. }
      rewrite AT. cbn [bind v_buffer v at_]. change (at_ [bin] 0) with (Ok bin). cbn [bind v_offset v_length].
      assert (SI : slice bin (size (flat_map pad [b]) + size (flat_map pad (firstn k (map snd (uris encode g))))) (size (pad (image_bytes encode i))) = Ok (pad (image_bytes encode i))).
      { destruct (nth_split_flat _ _ _ NC) as (post & SP). apply (slice_at _ (flat_map pad [b] ++ flat_map pad (firstn k (map snd (uris encode g)))) _ post); [|apply size_app|reflexivity].
        unfold bin, body_of. rewrite SP, <- app_assoc. reflexivity. }
      unfold v at 1 2. cbn [v_offset v_length]. rewrite SI. cbn [bind].
      rewrite Forall_forall in PI. destruct (PI i (nth_error_In _ _ NI)) as ((nm & U) & _ & m & C & IM & NE).
      destruct (PO nm m IM NE) as (e & EN & DE). unfold image_bytes, loaded. rewrite C, U, EN. rewrite (DE _ (pad_padded e)).
      destruct IM as (I1 & I2 & I3 & _). assert (0 < size (data m)) by (destruct (data m); [contradiction|unfold size; cbn [List.length]; lia]).
      destruct (Z.ltb_spec (cols m) 1); [nia|]. destruct (Z.ltb_spec (rows m) 1); [nia|]. reflexivity. }
    rewrite PIM. cbn [bind]. unfold loaded_model. fold bin ivs. change (d_rest d) with (skeleton g). unfold skeleton. cbn [accessors meshes nodes scenes defaultScene materials textures samplers].
    reflexivity.
  Qed.

  (** ** What the loaded model extracts to *)

  Definition same_pictures (is is' : list image) : Prop :=
    Forall2 (fun i i' => forall m, cvImageFromImage i = Ok m -> cvImageFromImage i' = Ok m) is is'.

  Lemma same_pictures_at : forall is is' k i, same_pictures is is' -> at_ is k = Ok i ->
    exists i', at_ is' k = Ok i' /\ forall m, cvImageFromImage i = Ok m -> cvImageFromImage i' = Ok m.
  Proof.
    intros is is' k i F E. apply at_Ok in E. destruct E as (L & N). assert (X : forall n, nth_error is n = Some i -> exists i', nth_error is' n = Some i' /\ forall m, cvImageFromImage i = Ok m -> cvImageFromImage i' = Ok m).
    { clear -F. induction F as [|x y l l' H F IH]; intros [|n] N; try discriminate N; cbn [nth_error] in *; [injection N as ->; eauto|auto]. }
    destruct (X _ N) as (i' & N' & C). exists i'. split; [|exact C]. apply at_Ok. split; [|exact N']. apply Forall2_length in F. unfold size in *. lia.
  Qed.

  Lemma extract_same : forall g g' k m, ext_data g g' -> meshes g' = meshes g -> materials g' = materials g -> textures g' = textures g ->
    same_pictures (images g) (images g') -> extract_mesh g k = Ok m -> extract_mesh g' k = Ok m.
  Proof.
    intros g g' k m XD EM EA ET SP E.
    assert (PR : primitives g' = primitives g) by (unfold primitives; rewrite EM; reflexivity).
    assert (TX : forall key mt t, extract_map g key mt = Ok t -> extract_map g' key mt = Ok t).
    { intros key mt t X. unfold extract_map in *. destruct (sget key (values mt)) as [q|]; [|exact X]. step X. cbn [bind]. unfold extractTexture in *. rewrite ET.
      destruct ((a <? 0) || (size (textures g) <=? a)); [discriminate X|]. step X. cbn [bind].
      assert (SZ : size (images g') = size (images g)) by (unfold size; rewrite (Forall2_length _ _ _ _ _ SP); reflexivity). rewrite SZ.
      destruct (size (images g) <=? source a0); [discriminate X|]. step X. destruct (same_pictures_at _ _ _ _ SP H1) as (i' & A & C). rewrite A. cbn [bind]. apply C, X. }
    unfold extract_mesh in *. step E. assert (H' : getPrimitiveMesh g' k = Ok a) by (unfold getPrimitiveMesh in *; rewrite PR; exact H). rewrite H'. cbn [bind]. step E. destruct a0 as [m0 mt].
    assert (H0' : extractPrimitiveMesh g' k = Ok (m0, mt)).
    { apply (extract_geo g' k a m0 mt H'). apply (extract_geo g k a m0 mt H) in H0. destruct H0 as (R & M). split; [eapply read_geo_ext; eassumption|]. unfold material_at in *. rewrite EA. exact M. }
    rewrite H0'. cbn [bind]. destruct (sget "TEXCOORD_0" (attributes a)) as [u|]; [|exact E].
    step E. rewrite (getVector_ext _ vec2_layout _ _ _ _ ltac:(cbn; lia) XD H1). cbn [bind]. step E. rewrite (TX _ _ _ H2). cbn [bind]. step E. rewrite (TX _ _ _ H3). exact E.
  Qed.

  Lemma picture_loaded : forall i, png_image i -> forall nm, uri (loaded i) = "" /\
    forall m, cvImageFromImage i = Ok m -> cvImageFromImage (Image nm (width (loaded i)) (height (loaded i)) (component (loaded i)) (pixels (loaded i))) = Ok m.
  Proof.
    intros i (_ & _ & m & C & (I1 & I2 & I3 & _) & _) nm. unfold loaded. rewrite C. split; [reflexivity|]. intros m' E. injection E as <-. cbn [width height component pixels].
    unfold cvImageFromImage. cbn [component pixels width height Z.eqb Pos.eqb negb andb]. rewrite I3, Z.eqb_refl. destruct m; reflexivity.
  Qed.

  Lemma set_uris_ok : forall g b, packable g -> buffers g = [b] -> exists g', setURIs (loaded_model g b) ".png" = Ok g' /\
    (forall k m, extract_mesh g k = Ok m -> extract_mesh g' k = Ok m) /\ meshes g' = meshes g /\ materials g' = materials g /\
    List.length (images g') = List.length (images g).
  Proof.
    intros g b (BB & VN & SV & WR & PM & ND & PI) B. unfold setURIs.
    assert (EU : forallb (fun i => (uri i =? "")%string) (images (loaded_model g b)) = true).
    { apply forallb_forall. intros i I. cbn [loaded_model images] in I. apply in_map_iff in I. destruct I as (j & <- & I). rewrite Forall_forall in PI. destruct (picture_loaded j (PI j I) "") as (-> & _). reflexivity. }
    rewrite EU. eexists. split; [reflexivity|]. cbn [meshes materials images loaded_model]. split; [|split; [reflexivity|split; [reflexivity|]]].
    2:{ rewrite map_length, combine_length, seq_length, map_length, Nat.min_id. reflexivity. }
    intros k m. apply extract_same; [|reflexivity|reflexivity|reflexivity|].
    - split; [|split; [apply prefix_app|exists []; symmetry; apply app_nil_r]]. cbn [buffers loaded_model]. rewrite B. intros [|n] x E; [|destruct n; discriminate E]. injection E as <-.
      cbn [nth_error]. unfold body_of. cbn [flat_map]. destruct (pad_pre b) as (r & R). rewrite R. rewrite <- !app_assoc. eexists. reflexivity.
    - cbn [images]. generalize 0%nat. clear -PI. induction PI as [|i is P PI IH]; intro n; [constructor|]. cbn [map List.length seq combine]. constructor; [|apply IH].
      apply (picture_loaded i P).
  Qed.
End Load.

(** ** Building *)

Definition fine_image (k : nat) (i : image) : Prop := uri i = png (Z.of_nat k) /\ png_image i.

(** Nothing but the empty model or a packable one. *)
Definition building (g : gmodel) : Prop :=
  (forall k i, nth_error (images g) k = Some i -> fine_image k i) /\
  Forall stored_view (views g) /\ Forall plain_material (materials g) /\
  Forall (fun s => s <> []) (scenes g) /\ Forall (fun m => m <> [] /\ Forall fine_primitive m) (meshes g) /\
  Forall fine_accessor (accessors g) /\ Forall (fun t => -1 <= sampler t) (textures g) /\ (buffers g = [] \/ exists b, buffers g = [b]).

Lemma push_shape : forall A (L : layout A) f t g v g' n, pushData L f t g v = Ok (g', n) ->
  exists b bs, buffers g = b :: bs /\
    g' = GModel ((b ++ flat_map (bytes_of L) v) :: bs) (views g ++ [View 0 (size b) (size v * width_of L) (stride_of L) t])
      (accessors g ++ [Accessor (size v) 0 (size (views g)) (component_of L) (type_of L)]) (meshes g) (nodes g) (scenes g) (defaultScene g) (materials g) (images g) (textures g) (samplers g) /\ n = size (accessors g).
Proof.
  intros A L f t g v g' n E. unfold pushData in E. destruct (f && (size v =? 0)); [discriminate E|]. unfold reallyAddToBuffer in E.
  destruct (buffers g) as [|b bs]; [discriminate E|]. cbn [bind] in E. injection E as <- <-. exists b, bs. split; [reflexivity|split; reflexivity].
Qed.

Lemma sset_nonempty : forall A k (x : A) d, sset k x d <> [].
Proof. intros A k x [|[k' y] d]; cbn [dset]; [discriminate|]. destruct (String.eqb k k'); discriminate. Qed.

Lemma prim_shape : forall g m g1, (buffers g = [] \/ exists b, buffers g = [b]) -> vertices (geo m) <> [] -> addPrimitiveMesh g m = Ok g1 ->
  exists b vs as_ p n s, b <> [] /\ vs <> [] /\ as_ <> [] /\ Forall stored_view vs /\ Forall fine_accessor as_ /\ fine_primitive p /\
    (Forall (fun s => s <> []) (scenes g) -> s <> [] /\ Forall (fun s => s <> []) s) /\
    g1 = GModel [b] (views g ++ vs) (accessors g ++ as_) (meshes g ++ [[p]]) (nodes g ++ [n]) s 0 (materials g ++ [mat m]) (images g) (textures g) (samplers g).
Proof.
  intros g m g1 B V E. unfold addPrimitiveMesh in E. assert (BE : exists b, buffers (ensure g) = [b]).
  { unfold ensure. cbn [buffers]. destruct B as [-> | (b & ->)]; eexists; reflexivity. }
  destruct BE as (b & BE). step E. destruct a as [ga i]. step E. destruct a as [gb v]. step E. destruct a as [gc n]. injection E as <-.
  apply push_shape in H. destruct H as (b1 & bs1 & Q & -> & I1). rewrite BE in Q. injection Q as <- <-.
  apply push_shape in H0. cbn [buffers views accessors meshes nodes scenes defaultScene materials images textures samplers] in H0. destruct H0 as (b2 & bs2 & Q & -> & I2). injection Q as <- <-.
  apply push_shape in H1. cbn [buffers views accessors meshes nodes scenes defaultScene materials images textures samplers] in H1. destruct H1 as (b3 & bs3 & Q & -> & I3). injection Q as <- <-.
  cbn [buffers views accessors meshes nodes scenes defaultScene materials images textures samplers]. rewrite <- !app_assoc.
  do 6 eexists. split; [|split; [|split; [|split; [|split; [|split; [|split; [|reflexivity]]]]]]].
  - destruct (vertices (geo m)) as [|x l]; [contradiction|]. intro C. apply app_eq_nil in C. destruct C as (_ & C). apply app_eq_nil in C. destruct C as (_ & C). apply app_eq_nil in C. destruct C as (C & _).
    destruct x as [[x y] z]. discriminate C.
  - discriminate.
  - discriminate.
  - repeat apply Forall_cons; try apply Forall_nil; (split; [reflexivity|]; split; [apply size_pos|]; split; [cbn; lia|cbn [v_target]; unfold ARRAY, ELEMENT_ARRAY; lia]).
  - assert (Q1 := size_pos _ (indices (geo m))). assert (Q2 := size_pos _ (vertices (geo m))). assert (Q3 := size_pos _ (normals (geo m))).
    repeat apply Forall_cons; try apply Forall_nil; (split; [cbn; tauto|]; split; [split; discriminate|]; split; [apply size_pos|reflexivity]).
  - split; [discriminate|]. split; [cbn; repeat constructor; cbn; intuition discriminate|].
    assert (Q4 := size_pos _ (accessors (ensure g))). assert (Q5 := size_pos _ (materials g)). cbn [p_indices p_material ensure materials]. lia.
  - intros F. unfold ensure. cbn [scenes nodes]. destruct (scenes g) as [|x s]; cbn [add_node].
    + split; [discriminate|]. constructor; [discriminate|constructor].
    + split; [discriminate|]. inversion F; subst. constructor; [|assumption]. intro C. apply app_eq_nil in C. destruct C as (_ & C). discriminate C.
Qed.

Lemma map_fine : forall key t g mt g' mt', is_image t -> plain_material mt -> (forall k i, nth_error (images g) k = Some i -> fine_image k i) ->
  add_map key t (g, mt) = Ok (g', mt') ->
  plain_material mt' /\ (forall k i, nth_error (images g') k = Some i -> fine_image k i) /\
  buffers g' = buffers g /\ views g' = views g /\ accessors g' = accessors g /\ meshes g' = meshes g /\ nodes g' = nodes g /\ scenes g' = scenes g /\ materials g' = materials g /\ defaultScene g' = defaultScene g /\
  (Forall (fun t => -1 <= sampler t) (textures g) -> Forall (fun t => -1 <= sampler t) (textures g')) /\
  null_material mt' = null_material mt.
Proof.
  intros key t g mt g' mt' IM PM F E. unfold add_map in E. destruct (empty t) eqn:EE; [injection E as <- <-; repeat (split; [first [exact PM|exact F|reflexivity|exact (fun h => h)]|]); reflexivity|].
  destruct (smem key (values mt)) eqn:SM; [|discriminate E]. cbn [addTexture] in E. injection E as <- <-. cbn [buffers views accessors meshes nodes scenes materials defaultScene].
  split; [|split; [|repeat (split; [reflexivity|]); split]].
  3:{ cbn [textures]. intro T. apply Forall_app. split; [exact T|constructor; [cbn; lia|constructor]]. }
  3:{ unfold null_material. cbn [name values]. destruct (values mt) as [|kp l]; [discriminate SM|]. destruct (name mt); [|reflexivity].
      match goal with |- context [dset ?e ?k ?x ?d] => destruct (dset e k x d) eqn:EQ; [exfalso; apply (sset_nonempty _ _ _ _ EQ)|reflexivity] end. }
  - assert (P : plain_param (Param [] 0%Q [("index", size (textures g))])) by (split; [reflexivity|split; [left; reflexivity|repeat constructor; intros []]]).
    destruct PM as (ND & PM). split; cbn [values]; [apply (NoDup_dset String.eqb str_eqb_spec), ND|]. clear -PM P.
    induction PM as [|[k p] l Q PM IH]; cbn [dset]; [constructor; [exact P|constructor]|]. destruct (String.eqb key k); constructor; try assumption.
  - intros k i Q. cbn [images] in Q. assert (NE : data t <> []) by (intro C; apply empty_iff in C; congruence). destruct IM as (R & C & S & N).
    destruct (Nat.lt_ge_cases k (List.length (images g))) as [L|L].
    + rewrite nth_error_app1 in Q by exact L. apply F, Q.
    + rewrite nth_error_app2 in Q by exact L. destruct (k - List.length (images g))%nat as [|n] eqn:EK; [|destruct n; discriminate Q].
      injection Q as <-. replace k with (List.length (images g)) by lia. unfold fine_image, png_image. cbn [uri pixels].
      rewrite firstn_all2 by (unfold size in S; lia). split; [reflexivity|]. split; [eexists; reflexivity|]. split; [exact NE|]. exists t. split; [|split; [repeat split; assumption|exact NE]].
      unfold cvImageFromImage. cbn [component pixels width height Z.eqb Pos.eqb negb andb]. rewrite S, Z.eqb_refl. destruct t; reflexivity.
Qed.

Lemma fine_distinct : forall g, (forall k i, nth_error (images g) k = Some i -> fine_image k i) -> NoDup (map uri (images g)) /\ Forall png_image (images g).
Proof.
  intros g F. split.
  - apply named_distinct. intros k i E. destruct (F k i E) as (U & _ & P & m & C & _). split; [exact U|]. split; [exact P|]. split; [rewrite U; apply png_nonempty|]. eauto.
  - apply Forall_forall. intros i I. apply In_nth_error in I. destruct I as (k & E). apply (F k i E).
Qed.

Lemma set_last_snoc : forall A (l : list A) x y, set_last (l ++ [x]) y = l ++ [y].
Proof. intros. unfold set_last. rewrite removelast_last. reflexivity. Qed.

Lemma add_building : forall g m g', storable m -> plain_material (mat m) -> building g -> add_mesh g m = Ok g' -> building g' /\ packable g' /\
  existsb null_material (materials g') = existsb null_material (materials g) || null_material (mat m).
Proof.
  intros g m g' ST PM (F & SV & MA & SC & AT & AC & TX & B) E. destruct ST as (_ & _ & VN & _ & _ & HT). unfold add_mesh in E.
  assert (FIN : forall b vs as_ p n s is ts sa mt, b <> [] -> vs <> [] -> as_ <> [] -> Forall stored_view vs -> Forall fine_accessor as_ -> fine_primitive p -> Forall (fun t => -1 <= sampler t) ts -> s <> [] -> Forall (fun s => s <> []) s -> plain_material mt ->
    (forall k i, nth_error is k = Some i -> fine_image k i) ->
    let g' := GModel [b] (views g ++ vs) (accessors g ++ as_) (meshes g ++ [[p]]) (nodes g ++ [n]) s 0 (materials g ++ [mt]) is ts sa in null_material mt = null_material (mat m) -> building g' /\ packable g' /\
    existsb null_material (materials g') = existsb null_material (materials g) || null_material (mat m)).
  { intros b vs as_ p n s is ts sa mt BN VN' AN SV' FA AP TS SN SF MT IS g'0 NM. destruct (fine_distinct (GModel [b] (views g ++ vs) (accessors g ++ as_) (meshes g ++ [[p]]) (nodes g ++ [n]) s 0 (materials g ++ [mt]) is ts sa) IS) as (D1 & D2).
    assert (A1 : Forall stored_view (views g ++ vs)) by (apply Forall_app; split; assumption).
    assert (A2 : Forall plain_material (materials g ++ [mt])) by (apply Forall_app; split; [assumption|constructor; [assumption|constructor]]).
    assert (A3 : Forall (fun m => m <> [] /\ Forall fine_primitive m) (meshes g ++ [[p]])) by (apply Forall_app; split; [assumption|constructor; [|constructor]; split; [discriminate|constructor; [exact AP|constructor]]]).
    assert (A4 : Forall fine_accessor (accessors g ++ as_)) by (apply Forall_app; split; assumption).
    assert (NA : forall X (u v : list X), v <> [] -> u ++ v <> []) by (intros X u v H C; apply app_eq_nil in C; apply H, C).
    split; [|split].
    3:{ unfold g'0. cbn [materials]. rewrite existsb_app. cbn [existsb]. rewrite orb_false_r, NM. reflexivity. }
    - split; [exact IS|]. split; [exact A1|]. split; [exact A2|]. split; [exact SF|]. split; [exact A3|]. split; [exact A4|]. split; [exact TS|]. right. eexists. reflexivity.
    - split; [eexists; split; [reflexivity|exact BN]|]. split; [apply NA, VN'|]. split; [exact A1|]. split; [|split; [exact A2|split; [exact D1|exact D2]]].
      split; [apply NA, AN|]. split; [apply NA; discriminate|]. split; [exact SN|]. split; [exact A4|]. split; [exact SF|]. split; [exact A3|]. split; [exact TS|]. cbv. discriminate. }
  destruct (tex m) as [[[uv color] rough]|].
  - destruct HT as (_ & IC & IR & _). unfold addTexturedPrimitiveMesh in E. step E. rename a into g1.
    destruct (prim_shape g m g1 B VN H) as (b & vs & as_ & p & n & s & BN & VV & AN & SV' & FA & AP & SS & ->). destruct (SS SC) as (SN & SF).
    step E. destruct a as [g2 u]. apply push_shape in H0. cbn [buffers views accessors meshes nodes scenes defaultScene materials images textures samplers] in H0. destruct H0 as (b2 & bs2 & Q & -> & I2). injection Q as <- <-.
    cbn [buffers views accessors meshes nodes scenes defaultScene materials images textures samplers] in E. rewrite last_last in E. rewrite set_last_snoc in E.
    step E. destruct a as [g3 mt3]. assert (X := fun f => map_fine _ _ _ _ _ _ IC PM f H0). destruct (X F) as (PM3 & F3 & B3 & V3 & A3 & M3 & N3 & S3 & T3 & D3 & X3 & Z3).
    step E. destruct a as [g4 mt4]. destruct (map_fine _ _ _ _ _ _ IR PM3 F3 H1) as (PM4 & F4 & B4 & V4 & A4 & M4 & N4 & S4 & T4 & D4 & X4 & Z4).
    injection E as <-. rewrite B4, B3, V4, V3, A4, A3, M4, M3, N4, N3, S4, S3, T4, T3. cbn [buffers views accessors meshes nodes scenes materials]. rewrite set_last_snoc, <- !app_assoc.
    rewrite D4, D3. cbn [defaultScene]. apply FIN; try assumption.
    + intro C. apply app_eq_nil in C. apply BN, C.
    + destruct vs; [contradiction|discriminate].
    + destruct as_; [contradiction|discriminate].
    + apply Forall_app. split; [exact SV'|]. constructor; [|constructor]. split; [reflexivity|]. split; [apply size_pos|]. split; [cbn; lia|cbn [v_target]; unfold ARRAY; lia].
    + apply Forall_app. split; [exact FA|]. constructor; [|constructor]. split; [cbn; tauto|]. split; [split; discriminate|]. split; [apply size_pos|reflexivity].
    + destruct AP as (_ & NA & AI & AM). split; [apply sset_nonempty|]. split; [apply (NoDup_dset String.eqb str_eqb_spec), NA|]. split; [exact AI|exact AM].
    + apply X4, X3, TX.
    + congruence.
  - destruct (prim_shape g m g' B VN E) as (b & vs & as_ & p & n & s & BN & VV & AN & SV' & FA & AP & SS & ->). destruct (SS SC) as (SN & SF). apply FIN; assumption || reflexivity.
Qed.

Lemma built_packable : forall ms g g', ms <> [] -> Forall storable ms -> Forall (fun m => plain_material (mat m)) ms -> building g -> foldM add_mesh g ms = Ok g' ->
  packable g' /\ existsb null_material (materials g') = existsb null_material (materials g) || existsb (fun m => null_material (mat m)) ms.
Proof.
  induction ms as [|m ms IH]; intros g g' NE ST PL BU E; [contradiction|]. inversion ST; inversion PL; subst. cbn [foldM] in E. step E.
  destruct (add_building g m a ltac:(assumption) ltac:(assumption) BU H) as (BA & PA & NA). cbn [existsb]. destruct ms as [|m' ms].
  - cbn [foldM] in E. injection E as <-. split; [exact PA|]. cbn [existsb]. rewrite orb_false_r. exact NA.
  - destruct (IH a g' ltac:(discriminate) ltac:(assumption) ltac:(assumption) BA E) as (P & N). split; [exact P|]. rewrite N, NA, <- orb_assoc. reflexivity.
Qed.

Lemma building_empty : building empty_model.
Proof.
  split; [intros [|k] i E; discriminate E|]. do 6 (split; [apply Forall_nil|]). left. reflexivity.
Qed.
