(** C95: the data of buffers and images of a .gltf file. *)
From Coq Require Import List Bool ZArith Ascii String Lia.
From Verif.Base Require Import Py.
From Verif.Uri Require Import Model Spec Proofs Paths.
Import ListNotations.
Local Open Scope Z_scope.

(** * Base 64 *)

Theorem C95_base64_roundtrip : forall bs, Forall byte bs -> base64_decode (base64_encode bs) = bs.
Proof. exact decode_encode. Qed.

(** The encoding is the standard one: digits and at most two "=", together four
    characters for every three bytes begun; the digits and the bytes are the same
    number, up to the zero bits at the end. *)
Theorem C95_base64_standard : forall bs, Forall byte bs -> exists s ds k,
  base64_encode bs = s ++ repeat "="%char k /\ digits s ds /\ (k < 3)%nat /\
  (List.length (base64_encode bs) = 4 * ((List.length bs + 2) / 3))%nat /\
  number 64 ds = number 256 bs * 4 ^ Z.of_nat k.
Proof.
  intros bs F. destruct (encode_digits bs F) as (s & E & D). destruct (sextets_of_number bs F) as [N L].
  assert (P : exists k, padding bs = repeat "="%char k /\ (k < 3)%nat).
  { clear. revert bs. fix IH 1. intros [|a [|b [|c bs]]].
    - exists 0%nat. split; [reflexivity|lia].
    - exists 2%nat. split; [reflexivity|lia].
    - exists 1%nat. split; [reflexivity|lia].
    - cbn [padding]. apply IH. }
  destruct P as (k & P & K). exists s, (sextets_of bs), k. rewrite E, P in *. split; [reflexivity|]. split; [exact D|].
  split; [exact K|]. rewrite repeat_length in *. rewrite app_length, repeat_length, <- (digits_length s _ D).
  split; [exact L|exact N].
Qed.

(** What is decoded, for any text: the digits up to the first other character, as bytes
    of eight bits; up to six bits at the end are dropped. *)
Theorem C95_base64_decode : forall s ds rest, digits s ds -> ends rest ->
  let out := base64_decode (s ++ rest) in
  let n := List.length s in
  List.length out = (n * 3 / 4)%nat /\ Forall byte out /\
  number 256 out = number 64 ds / 2 ^ (6 * Z.of_nat n - 8 * Z.of_nat (List.length out)).
Proof.
  intros s ds rest D E out n.
  assert (O : out = bytes_of ds).
  { subst out. unfold base64_decode. rewrite (readable_digits s ds rest D E). apply decode_digits, D. }
  assert (S : Forall sextet ds) by (apply (digits_sextets s), D).
  assert (N : n = List.length ds) by (subst n; symmetry; apply digits_length, D).
  rewrite O, N. split; [apply bytes_of_length|]. split; [|apply bytes_of_number, S].
  clear -S. revert ds S. fix IH 1. intros ds S.
  destruct ds as [|p ds]; [constructor|]. assert (P : sextet p) by (inversion S; assumption).
  destruct ds as [|q ds]; [constructor|]. assert (Q : sextet q) by (inversion S as [|? ? ? F']; inversion F'; assumption).
  assert (B1 : byte (4 * p + q / 16)) by (unfold byte, sextet in *; Z.to_euclidean_division_equations; lia).
  destruct ds as [|r ds]; [cbn [bytes_of]; constructor; [exact B1|constructor]|].
  assert (R : sextet r) by (inversion S as [|? ? ? F']; inversion F' as [|? ? ? F'']; inversion F''; assumption).
  assert (B2 : byte (16 * (q mod 16) + r / 4)) by (unfold byte, sextet in *; Z.to_euclidean_division_equations; lia).
  destruct ds as [|t ds]; [cbn [bytes_of]; constructor; [exact B1|constructor; [exact B2|constructor]]|].
  assert (T : sextet t) by (inversion S as [|? ? ? F']; inversion F' as [|? ? ? F'']; inversion F'' as [|? ? ? F3]; inversion F3; assumption).
  cbn [bytes_of]. constructor; [exact B1|]. constructor; [exact B2|]. constructor.
  - unfold byte, sextet in *; Z.to_euclidean_division_equations; lia.
  - apply IH. inversion S as [|? ? ? F']; inversion F' as [|? ? ? F'']; inversion F'' as [|? ? ? F3]; inversion F3; assumption.
Qed.

(** * Data URIs *)

(** Data that is not empty is read back under each of the seven headers, if byteLength
    is right (which is not compared for images). *)
Theorem C95_data_uri : forall expand fs basedir h m b, In (h, m) headers -> Forall byte b -> b <> [] ->
  (forall binary n, ParseBuffer expand binary fs basedir n (h ++ base64_encode b) =
     if Z.of_nat (List.length b) =? n then Ok b else Err IOError) /\
  ParseImage expand fs basedir (h ++ base64_encode b) = Ok (match m with Some x => x | None => [] end, [], Some b).
Proof.
  intros expand fs basedir h m b H F N. split.
  - intros binary n. unfold ParseBuffer. rewrite (proj1 (header_fold h m _ [] H)), (decode_uri h m _ [] _ H), decode_encode by exact F.
    destruct b as [|x b]; [contradiction|]. cbv zeta. destruct (_ =? n); reflexivity.
  - unfold ParseImage. rewrite (proj1 (header_fold h m _ [] H)), (decode_uri h m _ [] _ H), decode_encode by exact F.
    destruct b as [|x b]; [contradiction|]. reflexivity.
Qed.

(** So an embedded buffer survives saving and loading ... *)
Theorem C95_embed : forall expand fs filename b, Forall byte b -> b <> [] ->
  load_buffer expand fs filename (Z.of_nat (List.length b)) (embed b) = Ok b.
Proof.
  intros expand fs filename b F N. unfold load_buffer, embed.
  rewrite (proj1 (C95_data_uri expand fs (GetBaseDir filename) (lit "data:application/octet-stream;base64,") None b (or_introl eq_refl) F N)).
  rewrite Z.eqb_refl. reflexivity.
Qed.

(** ... unless it is empty. *)
Theorem C95_embed_empty_refuted : exists b : list Z, Forall byte b /\ forall expand fs filename,
  load_buffer expand fs filename (Z.of_nat (List.length b)) (embed b) = Err IOError.
Proof. exists []. split; [constructor|]. intros. reflexivity. Qed.

(** What follows a character that is no digit is ignored: an image of a data URI with a
    line break is read in part, without an error; a buffer is refused then, because its
    length is checked. *)
Theorem C95_cut : forall expand fs basedir h m s ds rest, In (h, m) headers -> digits s ds -> (2 <= List.length s)%nat -> ends rest ->
  (forall binary n, ParseBuffer expand binary fs basedir n (h ++ s ++ rest) = Ok (base64_decode s) <-> n = Z.of_nat (List.length s * 3 / 4)) /\
  (forall binary n, n <> Z.of_nat (List.length s * 3 / 4) -> ParseBuffer expand binary fs basedir n (h ++ s ++ rest) = Err IOError) /\
  ParseImage expand fs basedir (h ++ s ++ rest) = Ok (match m with Some x => x | None => [] end, [], Some (base64_decode s)).
Proof.
  intros expand fs basedir h m s ds rest H D L E.
  assert (X : base64_decode (s ++ rest) = base64_decode s).
  { unfold base64_decode. rewrite (readable_digits s ds rest D E), <- (app_nil_r s) at 1.
    rewrite <- (app_nil_r s) at 2. rewrite (readable_digits s ds [] D I). rewrite app_nil_r. reflexivity. }
  assert (LN : List.length (base64_decode s) = (List.length s * 3 / 4)%nat).
  { rewrite <- X. exact (proj1 (C95_base64_decode s ds rest D E)). }
  assert (NE : base64_decode s <> []).
  { intros Z. rewrite Z in LN. cbn [List.length] in LN. symmetry in LN. apply Nat.div_small_iff in LN; lia. }
  assert (PB : forall binary n, ParseBuffer expand binary fs basedir n (h ++ s ++ rest) =
     if Z.of_nat (List.length s * 3 / 4) =? n then Ok (base64_decode s) else Err IOError).
  { intros binary n. unfold ParseBuffer. rewrite (proj1 (header_fold h m _ [] H)), (decode_uri h m _ [] _ H), X, <- LN.
    destruct (base64_decode s) as [|x b]; [contradiction|]. cbv zeta. destruct (_ =? n); reflexivity. }
  split.
  - intros binary n. rewrite PB. destruct (Z.eqb_spec (Z.of_nat (List.length s * 3 / 4)) n) as [->|NE']; [tauto|].
    split; [discriminate|]. intros ->. contradiction.
  - split.
    + intros binary n N. rewrite PB. destruct (Z.eqb_spec (Z.of_nat (List.length s * 3 / 4)) n) as [<-|NE']; [contradiction|reflexivity].
    + unfold ParseImage. rewrite (proj1 (header_fold h m _ [] H)), (decode_uri h m _ [] _ H), X.
      destruct (base64_decode s) as [|x b]; [contradiction|]. reflexivity.
Qed.

Theorem C95_line_break_refuted : exists (b : list Z) (s1 s2 : text), Forall byte b /\ base64_encode b = s1 ++ s2 /\
  forall expand fs basedir, exists mime d,
    ParseImage expand fs basedir (lit "data:image/png;base64," ++ s1 ++ ascii_of_nat 10 :: s2) = Ok (mime, [], Some d) /\ d <> b.
Proof.
  exists [1; 2; 3; 4; 5; 6], (lit "AQID"), (lit "BAUG"). split; [repeat constructor; unfold byte; lia|].
  split; [reflexivity|]. intros expand fs basedir. exists (lit "image/png"), [1; 2; 3]. split; [reflexivity|discriminate].
Qed.

(** Other data URIs are taken for names of files. *)
Theorem C95_header_refuted : exists uri : text, after (lit "data:") uri <> None /\ IsDataURI uri = false /\
  forall expand filename n, load_buffer expand (fun _ => None) filename n uri = Err IOError.
Proof.
  exists (lit "data:application/octet-stream;charset=utf-8;base64,AQID"). split; [discriminate|]. split; [reflexivity|].
  intros expand filename n. unfold load_buffer, ParseBuffer. change (IsDataURI _) with false. cbn [LoadExternalFile FindFile].
  reflexivity.
Qed.

(** * Files *)

(** A buffer in a file with a plain name is the file beside the .gltf file or, if there
    is none, the file in the current folder; it must not be empty and must have the
    given length. *)
Theorem C95_external : forall expand fs d name uri n, expands expand -> folder d -> Forall plain d ->
  simple name -> IsDataURI uri = false -> uri <> [] -> Forall plain uri ->
  load_buffer expand fs (in_folder d name) n uri =
  match (match fs (in_folder d uri) with Some b => Some b | None => fs (in_folder (lit ".") uri) end) with
  | Some (x :: b) => if Z.of_nat (List.length (x :: b)) =? n then Ok (x :: b) else Err IOError
  | _ => Err IOError
  end.
Proof.
  intros expand fs d name uri n X F PD S U N PU. unfold load_buffer, ParseBuffer. rewrite U, base_dir by exact S.
  unfold LoadExternalFile. cbn [FindFile]. rewrite join_folder by exact F.
  rewrite (expand_plain expand X) by (apply in_folder_nonempty || (apply in_folder_plain; assumption)).
  destruct uri as [|u uri]; [contradiction|].
  destruct (fs (in_folder d (u :: uri))) as [b|] eqn:B.
  - destruct (in_folder d (u :: uri)) as [|y p] eqn:Y; [exfalso; apply (in_folder_nonempty _ _ Y)|]. rewrite B.
    destruct b; reflexivity.
  - rewrite join_folder by (split; discriminate).
    rewrite (expand_plain expand X) by (apply in_folder_nonempty || (apply in_folder_plain; [apply plain_dot|assumption])).
    destruct (fs (in_folder (lit ".") (u :: uri))) as [b|] eqn:B2; [|reflexivity].
    destruct (in_folder (lit ".") (u :: uri)) as [|y p] eqn:Y; [exfalso; apply (in_folder_nonempty _ _ Y)|]. rewrite B2.
    destruct b; reflexivity.
Qed.

(** Where the files are: folder/root.gltf has its data in folder/root.bin. *)
Theorem C95_names : forall d root ext, simple root -> simple ext -> ~ In "."%char ext ->
  let f := in_folder d (root ++ lit "." ++ ext) in
  GetBaseDir f = d /\ GetBaseFilename f = root ++ lit "." ++ ext /\
  GetFilePathExtension (GetBaseFilename f) = ext /\ bin_filename f = root ++ lit ".bin" /\
  (folder d -> bin_path f = in_folder d (root ++ lit ".bin")).
Proof.
  intros d root ext R E N f. subst f. split; [apply base_dir, simple_ext; assumption|].
  rewrite base_filename by (apply simple_ext; assumption). split; [reflexivity|]. split.
  - unfold GetFilePathExtension. change (root ++ lit "." ++ ext) with (root ++ "."%char :: ext).
    rewrite find_last_split; [apply skipn_exact|reflexivity|apply no_dot_false, N].
  - split; [apply bin_name; assumption|]. intros F. apply bin_place; assumption.
Qed.

(** Saving a model with one buffer and loading it gives the buffer back. *)
Theorem C95_save_load : forall expand fs d root b, expands expand -> folder d -> Forall plain d ->
  simple root -> Forall plain root -> b <> [] ->
  let f := in_folder d (root ++ lit ".gltf") in
  let '(fs', n, uri) := SerializeGltfBuffer fs f b in
  load_buffer expand fs' f n uri = Ok b.
Proof.
  intros expand fs d root b X F PD S PR N f. unfold SerializeGltfBuffer.
  destruct (C95_names d root (lit "gltf")) as (_ & _ & _ & BN & BP); [exact S|split; cbn; intuition discriminate|cbn; intuition discriminate|].
  change (root ++ lit "." ++ lit "gltf") with (root ++ lit ".gltf") in *. subst f. rewrite BN, (BP F).
  rewrite C95_external; try assumption.
  - unfold write. rewrite text_eqb_refl. destruct b as [|x b]; [contradiction|]. rewrite Z.eqb_refl. reflexivity.
  - apply (simple_ext root (lit "gltf")); [exact S|split; cbn; intuition discriminate].
  - assert (H : forall h, In ":"%char h -> after h (root ++ lit ".bin") = None).
    { assert (Q : ~ In ":"%char (root ++ lit ".bin")).
      { intros H. apply in_app_iff in H. destruct H as [H|H]; [|cbn in H; intuition discriminate].
        rewrite Forall_forall in PR. specialize (PR _ H). unfold plain in PR. change (code ":"%char) with 58 in PR. cbn zeta in PR. lia. }
      intros h. revert Q. generalize (root ++ lit ".bin"). induction h as [|c h IH]; intros s Q I; [destruct I|].
      destruct s as [|x s]; [reflexivity|]. cbn [after]. destruct (Ascii.eqb_spec c x) as [->|]; [|reflexivity].
      destruct I as [->|I]; [exfalso; apply Q; left; reflexivity|]. apply IH; [|exact I]. intros J. apply Q. right. exact J. }
    unfold IsDataURI, headers. cbn [existsb fst].
    rewrite !H by (cbn; repeat (first [left; reflexivity|right])). reflexivity.
  - destruct root; discriminate.
  - apply plain_app; [exact PR|apply plain_bin].
Qed.

(** Not so in the root folder: the data go to the current folder. *)
Theorem C95_root_refuted : exists f, f = in_folder [] (lit "m.gltf") /\ bin_path f = lit "./m.bin" /\ bin_filename f = lit "m.bin".
Proof. exists (lit "/m.gltf"). repeat split; reflexivity. Qed.

(** Nor with a backslash in the name: the part before it becomes a folder. *)
Theorem C95_backslash_refuted : exists f, f = in_folder (lit "d") (lit "a\b.gltf") /\ bin_path f = lit "d/a/b.bin".
Proof. exists (lit "d/a\b.gltf"). split; reflexivity. Qed.

(** Nor with a blank in the folder: the data are written and not found again. *)
Theorem C95_blank_refuted : exists d root b, folder d /\ simple root /\ b <> [] /\
  forall expand fs, expands expand -> (forall p, fs p = None) ->
  let f := in_folder d (root ++ lit ".gltf") in
  let '(fs', n, uri) := SerializeGltfBuffer fs f b in
  fs' (in_folder d uri) = Some b /\ load_buffer expand fs' f n uri = Err IOError.
Proof.
  exists (lit "my models"), (lit "m"), [7]. split; [split; discriminate|]. split; [split; cbn; intuition discriminate|].
  split; [discriminate|]. intros expand fs X E f. unfold SerializeGltfBuffer. split; [unfold write; reflexivity|].
  unfold load_buffer, ParseBuffer. change (IsDataURI _) with false. cbv iota. unfold LoadExternalFile. cbn [FindFile].
  change (JoinPath (GetBaseDir f) (bin_filename f)) with (lit "my" ++ blank :: lit "models/m.bin").
  rewrite (expand_blank expand X); [|discriminate|apply plain_by; reflexivity|apply plain_by; reflexivity].
  unfold write at 1. change (text_eqb (lit "my") (bin_path f)) with false. cbv iota. rewrite E.
  change (JoinPath (lit ".") (bin_filename f)) with (lit "./m.bin").
  rewrite (expand_plain expand X); [|discriminate|apply plain_by; reflexivity].
  unfold write at 1. change (text_eqb (lit "./m.bin") (bin_path f)) with false. cbv iota. rewrite E. reflexivity.
Qed.

(** Nor is it certain that the file beside the .gltf file was read: another file with
    the same name and length in the current folder will do. *)
Theorem C95_fallback_refuted : exists (fs : files) d name uri b, fs (in_folder d uri) = None /\
  folder d /\ forall expand, expands expand -> load_buffer expand fs (in_folder d name) (Z.of_nat (List.length b)) uri = Ok b.
Proof.
  exists (write (fun _ => None) (lit "./m.bin") [1; 2]), (lit "d"), (lit "m.gltf"), (lit "m.bin"), [1; 2].
  split; [reflexivity|]. split; [split; discriminate|]. intros expand X. rewrite C95_external; try reflexivity; try assumption; try discriminate.
  - split; discriminate.
  - apply plain_by; reflexivity.
  - split; cbn; intuition discriminate.
  - apply plain_by; reflexivity.
Qed.

(** A missing file: an error for a buffer of a .gltf file; an empty buffer in a .glb file
    whatever its length should be; an image without pixels. *)
Theorem C95_missing : forall expand fs basedir uri n, IsDataURI uri = false -> (forall p, fs p = None) ->
  ParseBuffer expand false fs basedir n uri = Err IOError /\
  ParseBuffer expand true fs basedir n uri = Ok [] /\
  ParseImage expand fs basedir uri = Ok ([], uri, None).
Proof.
  intros expand fs basedir uri n U E. unfold ParseBuffer, ParseImage. rewrite U. unfold LoadExternalFile. cbn [FindFile].
  rewrite !E. repeat split; reflexivity.
Qed.

(** * Cases *)
Fixpoint first_word (s : text) : text :=
  match s with [] => [] | c :: s => if Ascii.eqb c blank then [] else c :: first_word s end.
Lemma first_word_plain : forall p rest, Forall plain p -> first_word (p ++ rest) = p ++ first_word rest.
Proof.
  intros p rest F. induction F as [|c p C F IH]; [reflexivity|]. cbn [app first_word].
  destruct (Ascii.eqb_spec c blank) as [->|]; [unfold plain in C; change (code blank) with 32 in C; cbn zeta in C; lia|]. f_equal. exact IH.
Qed.
Example C95_expands_example : expands first_word.
Proof.
  split.
  - intros p _ F. rewrite <- (app_nil_r p) at 1. rewrite first_word_plain by exact F. apply app_nil_r.
  - intros p q _ F _. rewrite first_word_plain by exact F. cbn. apply app_nil_r.
Qed.
Example C95_base64_example :
  base64_encode (map code (lit "light work")) = lit "bGlnaHQgd29yaw==" /\
  base64_encode [255; 0; 250] = lit "/wD6" /\ base64_decode (lit "bGlnaHQgdw==") = map code (lit "light w").
Proof. repeat split; reflexivity. Qed.
Example C95_save_example :
  let '(fs', n, uri) := SerializeGltfBuffer (fun _ => None) (lit "/data/a.b.gltf") [1; 2; 3] in
  uri = lit "a.b.bin" /\ n = 3 /\ fs' (lit "/data/a.b.bin") = Some [1; 2; 3] /\
  load_buffer first_word fs' (lit "/data/a.b.gltf") n uri = Ok [1; 2; 3].
Proof. repeat split; reflexivity. Qed.

Print Assumptions C95_base64_roundtrip.
Print Assumptions C95_base64_standard.
Print Assumptions C95_base64_decode.
Print Assumptions C95_data_uri.
Print Assumptions C95_embed.
Print Assumptions C95_embed_empty_refuted.
Print Assumptions C95_cut.
Print Assumptions C95_line_break_refuted.
Print Assumptions C95_header_refuted.
Print Assumptions C95_external.
Print Assumptions C95_names.
Print Assumptions C95_save_load.
Print Assumptions C95_root_refuted.
Print Assumptions C95_backslash_refuted.
Print Assumptions C95_blank_refuted.
Print Assumptions C95_fallback_refuted.
Print Assumptions C95_missing.
