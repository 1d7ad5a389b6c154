(** Writers of .png files for C101. *)
From Coq Require Import List Bool ZArith Ascii String Lia.
From Verif.Base Require Import Py.
From Verif.Mesh Require Model.
From Verif.Gltf Require Model Spec.
From Verif.Uri Require Import Model.
From Verif.Trip Require Spec.
From Verif.Png Require Import Model.
From Verif.Png Require Import Spec.
From Verif.Png Require Import Rows Whole.
Import ListNotations.
Local Open Scope Z_scope.

Notation mat3b := Gltf.Model.mat3b.

(** The picture of a matrix of three bytes. *)
Definition shows (p : photo) (i : mat3b) : Prop :=
  shade p = Rgb /\ bits p = 8 /\ width p = Gltf.Model.cols i /\ height p = Gltf.Model.rows i /\ transparent p = None /\
  List.concat (List.concat (body p)) = Gltf.Model.data i.
(** A writer of .png files: a file of the format for each picture, whatever its filters,
    chunks and compression, as long as the inflate of the library undoes it. *)
Definition writes_png (inflate : bool -> list Z -> option (list Z)) (encode : text -> mat3b -> option (list Z)) : Prop :=
  forall name i, Trip.Spec.is_picture i -> Gltf.Model.data i <> [] ->
    exists p z raw file, encode (name ++ lit ".png") i = Some file /\ photo_ok p /\ shows p i /\
      z <> [] /\ len z < 2 ^ 31 /\ inflate true z = Some raw /\ scanlines p raw /\ png_file p z file.
(** LoadImageData, tiny_gltf.h 1396-1456: what stb_image gives, or nothing. *)
Definition decode_png (inflate : bool -> list Z -> option (list Z)) (file : list Z) : option (Z * Z * Z * list Z) :=
  match load inflate file with Ok r => r | Err _ => None end.

Lemma shown_data : forall p i, shows p i -> shown p = Gltf.Model.data i.
Proof.
  intros p i (S & B & _ & _ & T & D). rewrite <- D. unfold shown. rewrite flat_map_concat_map.
  assert (P : forall px, shown_pixel p px = px).
  { intros px. unfold shown_pixel. rewrite S, T, app_nil_r. transitivity (map (fun v => v) px); [|apply map_id]. apply map_ext. intros v. unfold eight. rewrite B. change (8 =? 16) with false. change (2 ^ 8 - 1) with 255. cbv iota. apply Z.div_mul. discriminate. }
  assert (R : forall r, flat_map (shown_pixel p) r = List.concat r).
  { intros r. rewrite flat_map_concat_map. f_equal. transitivity (map (fun v => v) r); [|apply map_id]. apply map_ext. exact P. }
  clear D. induction (body p) as [|r l IH]; [reflexivity|]. cbn [map List.concat]. rewrite R, concat_app, IH. reflexivity.
Qed.
Lemma writer_ok : forall inflate encode, writes_png inflate encode -> Trip.Spec.png_ok encode (decode_png inflate).
Proof.
  intros inflate encode W name i P D. destruct (W name i P D) as (p & z & raw & file & E & OK & SH & NZ & LZ & I & SC & F). exists file. split; [exact E|].
  assert (L := loaded p OK inflate z raw [] file NZ LZ ltac:(rewrite app_nil_r; exact I) SC F). split.
  - destruct F as (? & ? & ? & ? & ? & ? & ? & ? & ? & ? & -> & _). discriminate.
  - unfold decode_png. rewrite L, (shown_data p i SH). destruct SH as (S & B & -> & -> & T & _). unfold shown_channels. rewrite S, T. reflexivity.
Qed.

(** * A writer *)
Fixpoint split (n : nat) (k : nat) (l : list Z) : list (list Z) :=
  match k with O => [] | S k => firstn n l :: split n k (skipn n l) end.
Lemma split_concat : forall n k l, List.length l = (k * n)%nat -> List.concat (split n k l) = l.
Proof.
  induction k as [|k IH]; intros l L; [destruct l; [reflexivity|discriminate L]|]. cbn [split List.concat]. rewrite IH by (rewrite skipn_length; lia). apply firstn_skipn.
Qed.
Lemma split_length : forall n k l, List.length (split n k l) = k.
Proof. induction k as [|k IH]; intros l; [reflexivity|]. cbn. rewrite IH. reflexivity. Qed.
Lemma split_parts : forall n k l (P : Z -> Prop), List.length l = (k * n)%nat -> Forall P l -> Forall (fun r => List.length r = n /\ Forall P r) (split n k l).
Proof.
  induction k as [|k IH]; intros l P L F; [constructor|]. cbn [split]. assert (F1 := F). rewrite <- (firstn_skipn n l) in F1. apply Forall_app in F1. destruct F1 as [FA FB].
  constructor; [split; [rewrite firstn_length; lia|exact FA]|]. apply IH; [rewrite skipn_length; lia|exact FB].
Qed.
Definition plain_rows (i : mat3b) : list (list Z) := split (Z.to_nat (Gltf.Model.cols i * 3)) (Z.to_nat (Gltf.Model.rows i)) (Gltf.Model.data i).
Definition plain_photo (i : mat3b) : photo :=
  Photo false Rgb 8 (Gltf.Model.cols i) (Gltf.Model.rows i) [] None None (map (split 3 (Z.to_nat (Gltf.Model.cols i))) (plain_rows i)).
Definition plain_raw (i : mat3b) : list Z := List.concat (map (cons 0) (plain_rows i)).
Definition four_bytes (v : Z) : list Z := [v / 16777216 mod 256; v / 65536 mod 256; v / 256 mod 256; v mod 256].
Definition plain_chunk (t : string) (d : list Z) : list Z := four_bytes (len d) ++ letters t ++ d ++ [0; 0; 0; 0].
(** The rows as they are, with a header of their own and without checksums. *)
Definition plain_encode (deflate : list Z -> list Z) (name : text) (i : mat3b) : option (list Z) :=
  Some ([137; 80; 78; 71; 13; 10; 26; 10] ++ plain_chunk "IHDR" (four_bytes (Gltf.Model.cols i) ++ four_bytes (Gltf.Model.rows i) ++ [8; 2; 0; 0; 0]) ++
        plain_chunk "IDAT" (deflate (plain_raw i)) ++ plain_chunk "IEND" []).

Lemma four_ok : forall v, 0 <= v < 2 ^ 32 -> List.length (four_bytes v) = 4%nat /\ Forall byte (four_bytes v) /\ number (four_bytes v) = v.
Proof.
  intros v V. split; [reflexivity|]. split; [repeat constructor; apply Z.mod_pos_bound; lia|]. unfold four_bytes, number. cbn [fold_left].
  assert (D2 : v / 256 / 256 = v / 65536) by (rewrite Z.div_div by lia; reflexivity). assert (D3 : v / 65536 / 256 = v / 16777216) by (rewrite Z.div_div by lia; reflexivity).
  assert (E1 := Z.div_mod v 256 ltac:(lia)). assert (E2 := Z.div_mod (v / 256) 256 ltac:(lia)). assert (E3 := Z.div_mod (v / 65536) 256 ltac:(lia)). rewrite D2 in E2. rewrite D3 in E3.
  assert (0 <= v / 16777216 < 256) by (split; [apply Z.div_pos; lia|apply Z.div_lt_upper_bound; lia]). rewrite (Z.mod_small (v / 16777216)) by assumption. lia.
Qed.
Lemma plain_chunk_ok : forall t d, len d < 2 ^ 32 -> chunk (letters t) d (plain_chunk t d).
Proof.
  intros t d L. destruct (four_ok (len d) ltac:(unfold len in *; lia)) as (F1 & F2 & F3). exists (four_bytes (len d)), [0; 0; 0; 0]. repeat (split; [first [reflexivity|assumption]|]). reflexivity.
Qed.
Lemma packed8 : forall l, Forall byte l -> packed 8 l l.
Proof.
  intros l F. split; [exact F|]. split. { replace (8 * len l + 7) with (len l * 8 + 7) by lia. rewrite Z.div_add_l by lia. change (7 / 8) with 0. lia. }
  intros k K. rewrite (sample_small l 8 k F ltac:(cbn; tauto) ltac:(lia) ltac:(lia)). rewrite Z.div_mul, Z.mod_mul by lia. change (2 ^ (8 - 8 - 0)) with 1. rewrite Z.div_1_r. symmetry. apply Z.mod_small. exact (nth_byte l (Z.to_nat k) F).
Qed.
Lemma unfiltered : forall fb rows prior, Forall (Forall byte) rows -> filtered_rows fb prior rows (List.concat (map (cons 0) rows)).
Proof.
  intros fb rows. induction rows as [|r rows IH]; intros prior F; [constructor|]. inversion F; subst. cbn [map List.concat app]. constructor; [|lia|apply IH; assumption].
  split; [reflexivity|]. intros k K. exists 0. split; [left; split; reflexivity|]. rewrite Z.sub_0_r. symmetry. apply Z.mod_small. apply nth_byte. assumption.
Qed.
Lemma raw_length : forall n rows, Forall (fun r : list Z => List.length r = n) rows -> List.length (List.concat (map (cons 0) rows)) = (List.length rows * (n + 1))%nat.
Proof. intros n rows F. induction F as [|r rows L F IH]; [reflexivity|]. cbn [map List.concat List.length app]. rewrite app_length, IH, L. lia. Qed.

Lemma plain_writes : forall inflate deflate, (forall l, Forall byte l -> l <> [] -> len l <= 2 ^ 30 + 2 ^ 24 -> deflate l <> [] /\ len (deflate l) < 2 ^ 31 /\ inflate true (deflate l) = Some l) -> writes_png inflate (plain_encode deflate).
Proof.
  intros inflate deflate DE name i ((R0 & C0 & SZ & _) & FB & C24 & R24 & SM) D. unfold Mesh.Model.size in SZ.
  set (w := Gltf.Model.cols i) in *. set (h := Gltf.Model.rows i) in *. set (px := Gltf.Model.data i) in *.
  assert (LP : 0 < Z.of_nat (List.length px)) by (destruct px; [contradiction|cbn [List.length]; lia]).
  assert (W1 : 1 <= w) by nia. assert (H1 : 1 <= h) by nia.
  assert (LE : List.length px = (Z.to_nat h * Z.to_nat (w * 3))%nat) by nia.
  assert (PR := split_parts (Z.to_nat (w * 3)) (Z.to_nat h) px byte LE FB).
  change (split (Z.to_nat (w * 3)) (Z.to_nat h) px) with (plain_rows i) in PR. assert (PL : List.length (plain_rows i) = Z.to_nat h) by apply split_length.
  assert (RL : List.length (plain_raw i) = (Z.to_nat h * (Z.to_nat (w * 3) + 1))%nat).
  { unfold plain_raw. rewrite (raw_length (Z.to_nat (w * 3))), PL; [reflexivity|]. eapply Forall_impl; [|exact PR]. intros r [L _]. exact L. }
  assert (RL2 : len (plain_raw i) <= 2 ^ 30 + 2 ^ 24) by (unfold len; rewrite RL; nia).
  assert (RB : Forall byte (plain_raw i)).
  { unfold plain_raw. clear - PR. induction PR as [|r l [_ B] F IH]; [constructor|]. cbn [map List.concat app]. constructor; [unfold byte; lia|]. apply Forall_app. split; assumption. }
  assert (RN : plain_raw i <> []) by (intro C; rewrite C in RL; cbn in RL; nia).
  destruct (DE _ RB RN RL2) as (DN & DL & DI).
  assert (SB : forall r, List.length r = Z.to_nat (w * 3) -> List.concat (split 3 (Z.to_nat w) r) = r) by (intros r L; apply split_concat; lia).
  exists (plain_photo i), (deflate (plain_raw i)), (plain_raw i). eexists. split; [reflexivity|]. split; [|split; [|split; [exact DN|split; [exact DL|split; [exact DI|split]]]]].
  - constructor; cbn [plain_photo interlaced shade bits width height body colors alphas transparent]; fold w h.
    + left. reflexivity.
    + lia.
    + lia.
    + unfold len. rewrite map_length, PL. lia.
    + apply Forall_map. apply Forall_forall. intros r _. unfold len. rewrite split_length. lia.
    + apply Forall_map. eapply Forall_impl; [|exact PR]. intros r [L F]. eapply Forall_impl; [|apply (split_parts 3 (Z.to_nat w) r byte); [lia|exact F]]. intros q [LQ FQ]. split; [unfold len; rewrite LQ; reflexivity|exact FQ].
    + unfold shown_channels. cbn [plain_photo shade transparent channels bits]. change (8 =? 16) with false. cbv iota. lia.
    + reflexivity.
    + exact Logic.I.
  - unfold shows. cbn [plain_photo interlaced shade bits width height body transparent]. repeat (split; [reflexivity|]).
    transitivity (List.concat (plain_rows i)); [|exact (split_concat (Z.to_nat (w * 3)) (Z.to_nat h) px LE)]. fold w.
    clear -PR SB. revert PR. generalize (plain_rows i). intros rs PR. induction PR as [|r l [L _] F IH]; [reflexivity|]. cbn [map List.concat]. rewrite concat_app, IH. f_equal. apply SB, L.
  - exists (plain_rows i). split.
    + cbn [plain_photo bits body]. fold w. clear -PR SB. revert PR. generalize (plain_rows i). intros rs PR. induction PR as [|r l [L FR] F IH]; [constructor|]. cbn [map]. constructor; [|exact IH]. rewrite SB by exact L. apply packed8, FR.
    + apply unfiltered. eapply Forall_impl; [|exact PR]. intros r [_ F]. exact F.
  - exists (four_bytes w ++ four_bytes h ++ [8; 2; 0; 0; 0]), (plain_chunk "IHDR" (four_bytes w ++ four_bytes h ++ [8; 2; 0; 0; 0])), [], [], [], [], [], (plain_chunk "IDAT" (deflate (plain_raw i))), (plain_chunk "IEND" []), [].
    split; [rewrite !app_nil_r; reflexivity|]. destruct (four_ok w ltac:(lia)) as (W2 & W3 & W4). destruct (four_ok h ltac:(lia)) as (H2 & H3 & H4).
    split. { exists (four_bytes w), (four_bytes h). repeat (split; [assumption|]). reflexivity. }
    split; [apply plain_chunk_ok; reflexivity|]. split; [constructor|]. split; [reflexivity|]. split; [constructor|]. split; [reflexivity|]. split; [constructor|]. split; [|apply plain_chunk_ok; reflexivity].
    rewrite <- (app_nil_r (deflate (plain_raw i))) at 1. rewrite <- (app_nil_r (plain_chunk "IDAT" _)). constructor; [apply plain_chunk_ok; lia|constructor].
Qed.
