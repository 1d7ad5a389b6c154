(** Whole files: .gltf and .bin. *)
From Coq Require Import List Bool ZArith QArith Qabs Ascii String Lia.
From Verif.Base Require Import Py.
From Verif.Round Require Import Spec.
From Verif.Uri Require Import Model.
From Verif.Uri Require Spec Paths Props.
From Verif.Json Require Import Spec.
From Verif.Json Require Import Model.
From Verif.Doc Require Import Model Facts.
From Verif.Doc Require Import Spec.
From Verif.Json Require Strings.
From Verif.Doc Require Whole Again.
From Verif.Text Require Import Model Spec Decimals Strings Parser Writing Atoms.
Import ListNotations.
Local Open Scope Z_scope.

(** * Loading looks at files one by one *)
Section Same.
  Variable fs fs' : files.
  Variable same : forall p, fs p = fs' p.
  Lemma find_file_same : forall expand ps name, FindFile expand fs ps name = FindFile expand fs' ps name.
  Proof. intros expand ps name. induction ps as [|p ps IH]; [reflexivity|]. cbn [FindFile]. cbv zeta. rewrite same, IH. reflexivity. Qed.
  Lemma external_same : forall expand name d r, LoadExternalFile expand fs name d r = LoadExternalFile expand fs' name d r.
  Proof. intros expand name d r. unfold LoadExternalFile. cbv zeta. rewrite find_file_same, same. reflexivity. Qed.
  Lemma bind_ext : forall A B (a a' : res A) (f f' : A -> res B), a = a' -> (forall x, f x = f' x) -> bind a f = bind a' f'.
  Proof. intros A B a a' f f' <- H. destruct a; [apply H|reflexivity]. Qed.
  Lemma section_ext : forall A v k (p p' : json -> res A), (forall j, p j = p' j) -> section v k p = section v k p'.
  Proof.
    intros A v k p p' H. unfold section. destruct (find k v) as [[]|]; try reflexivity. induction l as [|j l IH]; [reflexivity|]. cbn [mapM]. rewrite IH, H. reflexivity.
  Qed.
  Lemma load_same : forall expand decode f32 name j, load expand decode f32 fs name j = load expand decode f32 fs' name j.
  Proof.
    intros expand decode f32 name j. unfold load, LoadFromString. destruct (negb (is_object j)); [reflexivity|]. destruct (negb _); [reflexivity|]. cbv zeta.
    repeat (apply bind_ext; [first [reflexivity|apply section_ext; intros o]|intros ?]); try reflexivity.
    - unfold ParseBuffer, Uri.Model.ParseBuffer. repeat (apply bind_ext; [first [reflexivity|rewrite external_same; reflexivity]|intros ?]); reflexivity.
    - unfold ParseImage. destruct (find "bufferView" o), (find "uri" o); try reflexivity. apply bind_ext; [reflexivity|]. intros u.
      apply bind_ext; [|reflexivity]. unfold Uri.Model.ParseImage. rewrite external_same. reflexivity.
  Qed.
End Same.

(** * Numbers and strings *)
Lemma ascii_utf8 : forall s, forallb (fun c => code c <? 128) (list_ascii_of_string s) = true -> utf8_string s.
Proof.
  intros s H. unfold utf8_string, valid_utf8. exists (map code (list_ascii_of_string s)). induction (list_ascii_of_string s) as [|c l IH]; [split; [constructor|reflexivity]|].
  cbn [forallb] in H. apply andb_true_iff in H. destruct H as [C H]. destruct (IH H) as [F E]. apply Z.ltb_lt in C. assert (P := Verif.Json.Strings.code_range c). split.
  - cbn [map]. constructor; [unfold scalar; lia|exact F].
  - cbn [map flat_map]. rewrite <- E. unfold utf8. destruct (Z.ltb_spec (code c) 128); [|lia]. cbn [map app]. rewrite <- (char_code c (code c) eq_refl). reflexivity.
Qed.
Lemma fine_held : forall j, fine finite15 utf8_string j -> held j /\ readable j.
Proof.
  induction j as [|b|z|q|t|l IH|o IH] using json_induction; intros F; try (split; exact Logic.I).
  - split; [exact F|exact Logic.I].
  - destruct F as (D & L & R). split; [split; assumption|exact R].
  - split; [exact Logic.I|exact F].
  - apply fine_arr in F. split.
    + cbn [held]. apply (fold_forall _ held). rewrite Forall_forall in *. intros x X. apply IH; [exact X|apply F, X].
    + apply readable_arr. rewrite Forall_forall in *. intros x X. apply IH; [exact X|apply F, X].
  - apply fine_obj in F. destruct F as [O F]. split.
    + split; [exact O|]. apply (fold_forall _ (fun m => held (snd m))). rewrite Forall_forall in *. intros x X. apply IH; [exact X|apply F, X].
    + apply readable_obj. rewrite Forall_forall in *. intros x X. split; [apply F, X|apply IH; [exact X|apply F, X]].
Qed.

(** * Files *)
Lemma bytes_text : forall s, map char (map code s) = s.
Proof. intros s. rewrite map_map. rewrite <- (map_id s) at 2. apply map_ext. intros c. unfold char, code. rewrite Nat2Z.id. apply ascii_nat_embedding. Qed.
Lemma long_enough : forall j k x, find k j = Some x -> 4 <= Z.of_nat (List.length (gltf_text j)).
Proof.
  intros j k x F. destruct j as [| | | | | |o]; try discriminate. destruct o as [|m o]; [discriminate|].
  unfold gltf_text. rewrite dump_obj, !app_length. assert (L : (1 <= List.length (commas (map member_text (m :: o))))%nat).
  { cbn [map]. destruct o as [|y o]; [cbn [map commas]|cbn [map]; rewrite commas_more, app_length]; unfold member_text at 1, dump_str; rewrite !app_length; change (List.length (lit """")) with 1%nat; lia. }
  change (List.length (lit "{")) with 1%nat. change (List.length (lit "}")) with 1%nat. change (List.length [char 10]) with 1%nat. lia.
Qed.

Lemma plain_ascii : forall s, Forall Uri.Spec.plain s -> forallb (fun c => code c <? 128) s = true.
Proof. intros s F. apply forallb_forall. intros c C. rewrite Forall_forall in F. specialize (F c C). unfold Uri.Spec.plain in F. apply Z.ltb_lt. change (Uri.Model.code c) with (code c) in F. cbv zeta in F. lia. Qed.
Lemma name_utf8 : forall root, Forall Uri.Spec.plain root -> utf8_string (string_of_list_ascii (root ++ Uri.Model.lit ".bin")).
Proof.
  intros root P. apply ascii_utf8. rewrite list_ascii_of_string_of_list_ascii. rewrite forallb_app. rewrite plain_ascii by exact P. reflexivity.
Qed.
Lemma names_differ : forall d root, Uri.Spec.in_folder d (root ++ Uri.Model.lit ".gltf") <> Uri.Spec.in_folder d (root ++ Uri.Model.lit ".bin").
Proof.
  intros d root E. unfold Uri.Spec.in_folder in E. apply app_inv_head in E. apply app_inv_head in E. apply app_inv_head in E. discriminate.
Qed.

Theorem file_written : forall expand decode f32 fs d root m, Uri.Spec.expands expand -> Uri.Spec.folder d -> Forall Uri.Spec.plain d ->
  Uri.Spec.simple root -> Forall Uri.Spec.plain root -> model_ok m ->
  let filename := Uri.Spec.in_folder d (root ++ Uri.Model.lit ".gltf") in
  let bin := Uri.Spec.in_folder d (root ++ Uri.Model.lit ".bin") in
  exists fs' j, save_file fs filename m = Ok fs' /\ Doc.Model.document (string_of_list_ascii (root ++ Uri.Model.lit ".bin")) m = Ok j /\
    fs' filename = Some (map code (gltf_text j)) /\ fs' bin = Some (List.concat (map bu_data (buffers m))) /\
    (forall p, p <> filename -> p <> bin -> fs' p = fs p) /\
    (held j -> readable j -> forall pxs, Forall2 (picture fs' d decode) (images m) pxs ->
       load_file expand decode f32 fs' filename = Ok (after_model f15 f32 (string_of_list_ascii (root ++ Uri.Model.lit ".bin")) pxs m)) /\
    (held j -> forall m', load_file expand decode f32 fs' filename = Ok m' -> readable j).
Proof.
  intros expand decode f32 fs d root m X FO PD SI PR M filename bin.
  destruct (Uri.Props.C95_names d root (Uri.Model.lit "gltf")) as (_ & _ & _ & BN & _); [exact SI|split; cbn; intuition discriminate|cbn; intuition discriminate|].
  change (root ++ Uri.Model.lit "." ++ Uri.Model.lit "gltf")%list with (root ++ Uri.Model.lit ".gltf")%list in BN. fold filename in BN.
  destruct (Whole.whole f15 f32 expand decode fs d root m X FO PD SI PR M) as (fs1 & j & S & B1 & O1 & _). fold filename bin in S, B1, O1.
  assert (D : Doc.Model.document (string_of_list_ascii (root ++ Uri.Model.lit ".bin")) m = Ok j).
  { unfold save in S. rewrite BN in S. destruct (Doc.Model.document _ m) as [j0|]; [|discriminate]. cbn [bind] in S. injection S as _ <-. reflexivity. }
  set (text := map code (gltf_text j)). set (fs2 := write fs1 filename text).
  assert (NE := names_differ d root). fold filename bin in NE.
  assert (W : fs2 filename = Some text) by (unfold fs2, write; rewrite Uri.Paths.text_eqb_refl; reflexivity).
  assert (WO : forall p, p <> filename -> fs2 p = fs1 p) by (intros p N; unfold fs2, write; rewrite Uri.Paths.text_eqb_neq by exact N; reflexivity).
  exists fs2, j. split; [unfold save_file; rewrite S; reflexivity|]. split; [exact D|]. split; [exact W|].
  split; [rewrite WO by (intros E; apply NE; symmetry; exact E); exact B1|]. split; [intros p N N'; rewrite WO by exact N; apply O1, N'|].
  assert (LF : load_file expand decode f32 fs2 filename = let* j' := parse (gltf_text j) in load expand decode f32 fs2 filename j').
  { unfold load_file. rewrite W. unfold LoadText, text. rewrite bytes_text.
    assert (L : 4 <= Z.of_nat (List.length (gltf_text j))).
    { destruct M. destruct (Whole.materials_text f15 _ ok_materials) as (js & MJ & ML & _). destruct (Whole.document_contents (string_of_list_ascii (root ++ Uri.Model.lit ".bin")) m js MJ ML) as (D' & DD & C).
      rewrite D in DD. injection DD as <-. destruct C. apply (long_enough j "accessors" _ c_F1). }
    destruct (Z.ltb_spec (Z.of_nat (List.length (gltf_text j))) 4); [lia|reflexivity]. }
  split.
  - intros H R pxs PX. rewrite LF, text_written by assumption. cbn [bind].
    destruct (Whole.whole f15 f32 expand decode (write fs filename text) d root m X FO PD SI PR M) as (fs3 & j3 & S3 & B3 & O3 & L3). fold filename bin in S3, B3, O3, L3.
    assert (J : j3 = j). { unfold save in S3. rewrite BN, D in S3. cbn [bind] in S3. injection S3 as _ <-. reflexivity. }
    subst j3.
    assert (SAME : forall p, fs2 p = fs3 p).
    { intros p. destruct (list_eq_dec ascii_dec p bin) as [->|NB]; [rewrite B3, WO, B1 by (intros E; apply NE; symmetry; exact E); reflexivity|]. rewrite O3 by exact NB.
      unfold fs2, write. destruct (text_eqb p filename); [reflexivity|]. apply O1, NB. }
    rewrite (load_same fs2 fs3 SAME). apply L3. clear -PX SAME. induction PX as [|i px l pxs P PX IH]; constructor; [|exact IH]. unfold picture in *. rewrite <- !SAME. exact P.
  - intros H m' L. rewrite LF in L. destruct (parse (gltf_text j)) as [j'|] eqn:P; [|discriminate]. apply (text_readable j j' H P).
Qed.
Lemma model_held : forall bin m j, model_ok m -> of_model finite15 utf8_string m -> utf8_string bin -> Doc.Model.document bin m = Ok j -> held j /\ readable j.
Proof. intros bin m j M A B D. apply fine_held. apply (fine_document finite15 utf8_string ascii_utf8 bin m j M A B D). Qed.

(** What is held, and what cannot be read. *)
Lemma fine_only_held : forall j, fine (fun q => double q /\ (Qabs q < 2 ^ 1024)%Q) (fun _ => True) j -> held j.
Proof.
  induction j as [|b|z|q|t|l IH|o IH] using json_induction; intros F; try exact Logic.I; try exact F.
  - apply fine_arr in F. cbn [held]. apply (fold_forall _ held). rewrite Forall_forall in *. intros x X. apply IH; [exact X|apply F, X].
  - apply fine_obj in F. destruct F as [O F]. split; [exact O|]. apply (fold_forall _ (fun m => held (snd m))). rewrite Forall_forall in *. intros x X. apply IH; [exact X|apply F, X].
Qed.
Lemma readable_find : forall k j x, find k j = Some x -> readable j -> readable x.
Proof.
  intros k j x F R. destruct j as [| | | | | |o]; try discriminate. apply readable_obj in R. cbn [find] in F. induction R as [|[k' y] o [_ Y] R IH]; [discriminate|]. cbn [get] in F.
  destruct (String.eqb k' k); [injection F as <-; exact Y|apply IH, F].
Qed.
Lemma readable_member : forall l x, readable (array_of l) -> In x l -> readable x.
Proof.
  intros l x R X. destruct l as [|y l]; [destruct X|]. change (readable (JArr (y :: l))) in R. apply readable_arr in R. rewrite Forall_forall in R. apply R, X.
Qed.
