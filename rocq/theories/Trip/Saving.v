(** The files. *)
From Coq Require Import List Bool ZArith QArith Ascii String Sorted Lia.
From Verif.Base Require Import Py.
From Verif.Mesh Require Model.
From Verif.Gltf Require Model Spec Proofs.
From Verif.Uri Require Import Model.
From Verif.Uri Require Spec Paths.
From Verif.Doc Require Import Model Facts.
From Verif.Doc Require Import Spec.
From Verif.Text Require Import Spec.
From Verif.Text Require Model Files Decimals.
From Verif.Trip Require Import Model Spec Floats Building Adding Fits Reading.
Import ListNotations.
Local Open Scope Z_scope.

Lemma picture_inj : forall d j k, Uri.Spec.in_folder d (picture_name j) = Uri.Spec.in_folder d (picture_name k) -> j = k.
Proof.
  intros d j k E. unfold Uri.Spec.in_folder in E. apply app_inv_head in E. apply app_inv_head in E. unfold picture_name in E. apply Gltf.Proofs.png_inj.
  rewrite <- (string_of_list_ascii_of_string (Gltf.Model.png (Z.of_nat j))), E. apply string_of_list_ascii_of_string.
Qed.
Lemma last_lit : forall (a : text) b c, last (a ++ b ++ [c]) c = c.
Proof. intros a b c. rewrite app_assoc. apply last_last. Qed.
Lemma picture_gltf : forall d root k, Uri.Spec.in_folder d (picture_name k) <> Uri.Spec.in_folder d (root ++ lit ".gltf").
Proof.
  intros d root k E. unfold Uri.Spec.in_folder in E. apply app_inv_head in E. apply app_inv_head in E. destruct (picture_shape k) as (ds & S & _). rewrite S in E.
  change (lit ".png") with (lit ".pn" ++ ["g"%char])%list in E. change (lit ".gltf") with (lit ".glt" ++ ["f"%char])%list in E. rewrite !app_assoc in E. apply app_inj_tail in E. destruct E; discriminate.
Qed.
Lemma picture_bin : forall d root k, Uri.Spec.in_folder d (picture_name k) <> Uri.Spec.in_folder d (root ++ lit ".bin").
Proof.
  intros d root k E. unfold Uri.Spec.in_folder in E. apply app_inv_head in E. apply app_inv_head in E. destruct (picture_shape k) as (ds & S & _). rewrite S in E.
  change (lit ".png") with (lit ".pn" ++ ["g"%char])%list in E. change (lit ".bin") with (lit ".bi" ++ ["n"%char])%list in E. rewrite !app_assoc in E. apply app_inj_tail in E. destruct E; discriminate.
Qed.

Definition stored (decode : list Z -> option (Z * Z * Z * list Z)) (fs : files) (p : text) (i : image) : Prop :=
  exists b, fs p = Some b /\ b <> [] /\ decode b = im_data i.
Lemma images_saved : forall encode decode d l s fs, png_ok encode decode -> (forall k i, nth_error l k = Some i -> good_image (s + k) i) ->
  exists fs', foldM (save_image encode d) fs l = Ok fs' /\
    (forall k i, nth_error l k = Some i -> stored decode fs' (Uri.Spec.in_folder d (picture_name (s + k))) i) /\
    (forall p, (forall k, (k < List.length l)%nat -> p <> Uri.Spec.in_folder d (picture_name (s + k))) -> fs' p = fs p).
Proof.
  intros encode decode d l. induction l as [|i l IH]; intros s fs PN G.
  - exists fs. split; [reflexivity|]. split; [intros [|k] i E; discriminate E|reflexivity].
  - destruct (G 0%nat i eq_refl) as (pic & IM & ND & ->). rewrite Nat.add_0_r in G |- *. destruct (picture_shape s) as (ds & SH & DN & _). destruct (PN ds pic IM ND) as (b & EB & NB & DB). rewrite <- SH in EB.
    assert (SI : forall fs, save_image encode d fs (Image "" (-1) "" (Gltf.Model.png (Z.of_nat s)) (Some (Gltf.Model.cols pic, Gltf.Model.rows pic, 3, Gltf.Model.data pic)) VNull) = Ok (write fs (Uri.Spec.in_folder d (picture_name s)) b)).
    { intros fs0. unfold save_image. cbn [im_data im_uri]. destruct (Gltf.Model.data pic) as [|z0 zs] eqn:DD; [contradiction|].
      unfold image_of. cbn [or_default im_data im_uri]. unfold Gltf.Model.cvImageFromImage. cbn [Gltf.Model.component Gltf.Model.pixels Gltf.Model.width Gltf.Model.height Z.eqb Pos.eqb negb andb].
      destruct IM as [(_ & _ & IS & _) _]. rewrite DD in IS. rewrite IS, Z.eqb_refl. cbn [negb bind]. fold (picture_name s).
      replace (Gltf.Model.Mat3b (Gltf.Model.rows pic) (Gltf.Model.cols pic) (z0 :: zs)) with pic by (destruct pic; cbn in DD |- *; subst; reflexivity). rewrite EB.
      destruct (picture_name s) as [|c r] eqn:PS; [destruct (picture_plain s) as [X _]; contradiction|]. reflexivity. }
    destruct (IH (S s) (write fs (Uri.Spec.in_folder d (picture_name s)) b) PN) as (fs' & E & ST & O). { intros k j K. replace (S s + k)%nat with (s + S k)%nat by lia. apply (G (S k) j K). }
    exists fs'. cbn [foldM]. rewrite SI. cbn [bind]. split; [exact E|]. split.
    + intros [|k] j K.
      * injection K as <-. rewrite Nat.add_0_r. exists b. split; [|split; [exact NB|exact DB]]. rewrite O. { unfold write. rewrite Uri.Paths.text_eqb_refl. reflexivity. }
        intros k _ C. apply picture_inj in C. lia.
      * replace (s + S k)%nat with (S s + k)%nat by lia. apply ST, K.
    + intros p P. rewrite O. { unfold write. rewrite Uri.Paths.text_eqb_neq; [reflexivity|]. specialize (P 0%nat). rewrite Nat.add_0_r in P. apply P. cbn [List.length]. lia. }
      intros k K. replace (S s + k)%nat with (s + S k)%nat by lia. apply P. cbn [List.length]. lia.
Qed.

Lemma load_file_same : forall expand decode f32 fs fs' path, (forall p, fs p = fs' p) -> Text.Model.load_file expand decode f32 fs path = Text.Model.load_file expand decode f32 fs' path.
Proof.
  intros expand decode f32 fs fs' path S. unfold Text.Model.load_file. rewrite S. destruct (fs' path) as [b|]; [|reflexivity]. unfold Text.Model.LoadText.
  destruct (_ <? 4); [reflexivity|]. destruct (Text.Model.parse _); [|reflexivity]. cbn [bind]. apply Files.load_same, S.
Qed.

Lemma saved_loaded : forall isdir expand encode decode f32 fs d root a n x g,
  Uri.Spec.expands expand -> Uri.Spec.folder d -> Forall Uri.Spec.plain d -> Uri.Spec.simple root -> Forall Uri.Spec.plain root -> isdir d = true ->
  png_ok encode decode -> building a n x g -> 0 < n -> 0 < data_size g <= 2 ^ 53 ->
  let filename := Uri.Spec.in_folder d (root ++ lit ".gltf") in
  let bin := Uri.Spec.in_folder d (root ++ lit ".bin") in
  exists fs', save_as_gltf isdir encode fs g d root = Ok (fs', filename) /\
    load_from_gltf expand decode f32 fs' filename = Ok (after_model Decimals.f15 f32 (string_of_list_ascii (root ++ lit ".bin")) (map im_data (images g)) g) /\
    (forall k i, nth_error (images g) k = Some i -> stored decode fs' (Uri.Spec.in_folder d (picture_name k)) i) /\
    forall p, p <> filename -> p <> bin -> (forall k, (k < List.length (images g))%nat -> p <> Uri.Spec.in_folder d (picture_name k)) -> fs' p = fs p.
Proof.
  intros isdir expand encode decode f32 fs d root a n x g X FO PD SR PR ID PN B N D filename bin.
  assert (MO := built_ok a n x g B N D). assert (OF := built_of a n x g B).
  destruct (Files.file_written expand decode f32 fs d root g X FO PD SR PR MO) as (fs1 & j & S1 & DJ & F1 & F2 & O1 & _ & _). fold filename bin in S1, F1, F2, O1.
  destruct (images_saved encode decode d (images g) 0 fs1 PN) as (fs2 & S2 & ST & O2); [intros k i K; apply (b_images _ _ _ _ B), K|].
  assert (G2 : fs2 filename = fs1 filename) by (apply O2; intros k _ C; symmetry in C; apply picture_gltf in C; exact C).
  assert (H2 : fs2 bin = fs1 bin) by (apply O2; intros k _ C; symmetry in C; apply picture_bin in C; exact C).
  exists fs2. split; [|split; [|split]].
  - unfold save_as_gltf. rewrite ID. cbn [negb]. change (d ++ lit "/" ++ root ++ lit ".gltf")%list with filename. rewrite S1. cbn [bind]. rewrite F1. unfold saveImages. rewrite S2. reflexivity.
  - destruct (Files.file_written expand decode f32 fs2 d root g X FO PD SR PR MO) as (fs3 & j3 & S3 & DJ3 & F3 & F4 & O3 & L3 & _). fold filename bin in S3, F3, F4, O3, L3.
    assert (j3 = j) by congruence. subst j3.
    assert (SAME : forall p, fs2 p = fs3 p).
    { intros p. destruct (list_eq_dec ascii_dec p filename) as [->|N1]; [congruence|]. destruct (list_eq_dec ascii_dec p bin) as [->|N2]; [congruence|]. symmetry. apply O3; assumption. }
    unfold load_from_gltf. rewrite (load_file_same _ _ _ _ _ _ SAME).
    destruct (Files.model_held _ _ _ MO OF (Files.name_utf8 root PR) DJ) as [HE RE]. apply (L3 HE RE). clear -ST SAME B. assert (IMS := b_images _ _ _ _ B).
    cut (forall l s, (forall k i, nth_error l k = Some i -> good_image (s + k) i /\ stored decode fs2 (Uri.Spec.in_folder d (picture_name (s + k))) i) -> Forall2 (picture fs3 d decode) l (map im_data l)).
    { intros C. apply (C (images g) 0%nat). intros k i K. split; [apply IMS, K|apply ST, K]. }
    induction l as [|i l IH]; intros s H; [constructor|]. cbn [map]. constructor.
    + destruct (H 0%nat i eq_refl) as [(pic & IM & ND & ->) (b & FB & NB & DB)]. rewrite Nat.add_0_r in *. unfold picture. cbn [im_uri im_data] in *. fold (picture_name s). destruct (picture_plain s) as (P1 & P2 & P3).
      split; [exact P1|]. split; [exact P2|]. split; [exact P3|]. rewrite <- SAME, FB. destruct b as [|z b]; [contradiction|]. do 4 eexists. split; [exact DB|].
      destruct IM as [(I1 & I2 & I3 & _) _]. assert (0 < len (Gltf.Model.data pic)) by (destruct (Gltf.Model.data pic); [contradiction|]; unfold Mesh.Model.size; cbn [List.length]; lia).
      split; [nia|split; [nia|reflexivity]].
    + apply (IH (S s)). intros k j K. replace (S s + k)%nat with (s + S k)%nat by lia. apply (H (S k) j K).
  - exact ST.
  - intros p N1 N2 N3. rewrite O2 by exact N3. apply O1; assumption.
Qed.
