(** Proofs about paths, data URIs and files. *)
From Coq Require Import List Bool ZArith Ascii String Lia.
From Verif.Base Require Import Py.
From Verif.Uri Require Import Model Spec Proofs.
Import ListNotations.
Local Open Scope Z_scope.

Lemma find_last_none : forall p s, (forall c, In c s -> p c = false) -> find_last p s = None.
Proof.
  intros p s. induction s as [|c s IH]; intros H; [reflexivity|]. cbn [find_last].
  rewrite IH by (intros; apply H; right; assumption). rewrite H by (left; reflexivity). reflexivity.
Qed.

Lemma find_last_split : forall p a c b, p c = true -> (forall d, In d b -> p d = false) ->
  find_last p (a ++ c :: b) = Some (List.length a).
Proof.
  intros p a c b C B. induction a as [|x a IH]; cbn [app find_last List.length].
  - rewrite find_last_none by exact B. rewrite C. reflexivity.
  - rewrite IH. reflexivity.
Qed.

Lemma simple_slash : forall s, simple s -> forall c, In c s -> is_slash c = false.
Proof.
  intros s [A B] c H. unfold is_slash. apply orb_false_iff. split; apply Ascii.eqb_neq; intros ->; contradiction.
Qed.

Lemma firstn_exact : forall A (a b : list A), firstn (List.length a) (a ++ b) = a.
Proof. intros A a b. rewrite firstn_app, Nat.sub_diag, firstn_all. cbn. apply app_nil_r. Qed.
Lemma skipn_exact : forall A (a : list A) c b, skipn (S (List.length a)) (a ++ c :: b) = b.
Proof. intros A a c b. induction a as [|x a IH]; [reflexivity|exact IH]. Qed.

Lemma base_dir : forall d name, simple name -> GetBaseDir (in_folder d name) = d.
Proof.
  intros d name S. unfold GetBaseDir, in_folder. change (d ++ lit "/" ++ name) with (d ++ "/"%char :: name).
  rewrite find_last_split; [apply firstn_exact|reflexivity|apply simple_slash, S].
Qed.
Lemma base_filename : forall d name, simple name -> GetBaseFilename (in_folder d name) = name.
Proof.
  intros d name S. unfold GetBaseFilename, in_folder. change (d ++ lit "/" ++ name) with (d ++ "/"%char :: name).
  rewrite find_last_split; [apply skipn_exact|reflexivity|apply simple_slash, S].
Qed.

Lemma join_folder : forall d name, folder d -> JoinPath d name = in_folder d name.
Proof.
  intros d name [N L]. unfold JoinPath. destruct (exists_last N) as (d' & c & ->). rewrite rev_app_distr. cbn [rev app].
  rewrite last_last in L. destruct (Ascii.eqb_spec c "/"); [contradiction|reflexivity].
Qed.

Definition no_dot (s : text) : Prop := ~ In "."%char s.
Lemma no_dot_false : forall s, no_dot s -> forall c, In c s -> is_dot c = false.
Proof. intros s N c H. apply Ascii.eqb_neq. intros ->. contradiction. Qed.

Lemma simple_ext : forall root ext, simple root -> simple ext -> simple (root ++ lit "." ++ ext).
Proof.
  intros root ext [A B] [C D]. split; intros H; apply in_app_iff in H; destruct H as [H|[H|H]]; try contradiction; discriminate.
Qed.

Lemma bin_name : forall d root ext, simple root -> simple ext -> no_dot ext ->
  bin_filename (in_folder d (root ++ lit "." ++ ext)) = root ++ lit ".bin".
Proof.
  intros d root ext R E N. unfold bin_filename. rewrite base_filename by (apply simple_ext; assumption).
  change (root ++ lit "." ++ ext) with (root ++ "."%char :: ext).
  rewrite find_last_split; [|reflexivity|apply no_dot_false, N]. rewrite firstn_exact. reflexivity.
Qed.

Lemma bin_place : forall d root ext, folder d -> simple root -> simple ext -> no_dot ext ->
  bin_path (in_folder d (root ++ lit "." ++ ext)) = in_folder d (root ++ lit ".bin").
Proof.
  intros d root ext F R E N. unfold bin_path. rewrite base_dir by (apply simple_ext; assumption).
  rewrite bin_name by assumption. destruct d as [|x d]; [destruct F; contradiction|]. apply join_folder, F.
Qed.

(** Data URIs. *)
Lemma header_fold : forall h m rest mime, In (h, m) headers ->
  IsDataURI (h ++ rest) = true /\
  fold_left (decode_step (h ++ rest)) headers (mime, []) =
    (match m with Some x => x | None => mime end, base64_decode rest).
Proof.
  intros h m rest mime H.
  repeat (destruct H as [H|H]; [injection H as <- <-; split; [reflexivity|
    cbn -[base64_decode]; destruct (base64_decode rest); reflexivity]|]).
  destruct H.
Qed.

Lemma decode_uri : forall h m rest mime n, In (h, m) headers ->
  DecodeDataURI mime (h ++ rest) n =
  match base64_decode rest, n with
  | [], _ => Err IOError
  | data, Some k => if Z.of_nat (List.length data) =? k then Ok (match m with Some x => x | None => mime end, data) else Err IOError
  | data, None => Ok (match m with Some x => x | None => mime end, data)
  end.
Proof.
  intros h m rest mime n H. unfold DecodeDataURI. rewrite (proj2 (header_fold h m rest mime H)).
  destruct (base64_decode rest); [reflexivity|]. destruct n; reflexivity.
Qed.

Lemma decode_encode : forall bs, Forall byte bs -> base64_decode (base64_encode bs) = bs.
Proof.
  intros bs F. destruct (encode_digits bs F) as (s & E & D). unfold base64_decode. rewrite E.
  rewrite (readable_digits s (sextets_of bs)) by (exact D || apply padding_ends).
  rewrite (decode_digits s (sextets_of bs) D). apply bytes_of_sextets, F.
Qed.

Lemma plain_app : forall a b, Forall plain a -> Forall plain b -> Forall plain (a ++ b).
Proof. intros a b A B. apply Forall_app. split; assumption. Qed.
Definition plainb (c : ascii) : bool :=
  let z := code c in
  ((48 <=? z) && (z <=? 57)) || ((65 <=? z) && (z <=? 90)) || ((97 <=? z) && (z <=? 122)) || (z =? 45) || (z =? 46) || (z =? 47) || (z =? 95).
Lemma plain_by : forall s, forallb plainb s = true -> Forall plain s.
Proof.
  intros s H. rewrite forallb_forall in H. apply Forall_forall. intros c I. specialize (H c I). unfold plainb in H. cbn zeta in H.
  unfold plain. repeat (apply orb_prop in H; destruct H as [H|H]);
    try (apply andb_prop in H; destruct H as [H1 H2]; apply Z.leb_le in H1; apply Z.leb_le in H2; lia);
    apply Z.eqb_eq in H; lia.
Qed.
Lemma plain_slash : Forall plain (lit "/").
Proof. apply plain_by. reflexivity. Qed.
Lemma plain_dot : Forall plain (lit ".").
Proof. apply plain_by. reflexivity. Qed.
Lemma plain_bin : Forall plain (lit ".bin").
Proof. apply plain_by. reflexivity. Qed.

Lemma in_folder_plain : forall d name, Forall plain d -> Forall plain name -> Forall plain (in_folder d name).
Proof. intros d name D N. apply plain_app; [exact D|]. apply plain_app; [apply plain_slash|exact N]. Qed.
Lemma in_folder_nonempty : forall d name, in_folder d name <> [].
Proof. intros d name H. destruct d; discriminate. Qed.

Lemma text_eqb_refl : forall a, text_eqb a a = true.
Proof. intros a. unfold text_eqb. destruct (list_eq_dec ascii_dec a a); [reflexivity|contradiction]. Qed.
Lemma text_eqb_neq : forall a b, a <> b -> text_eqb a b = false.
Proof. intros a b H. unfold text_eqb. destruct (list_eq_dec ascii_dec a b); [contradiction|reflexivity]. Qed.
