(** C102: .png files, read with stb_image. *)
From Coq Require Import List Bool ZArith Ascii String Lia.
From Verif.Base Require Import Py.
From Verif.Png Require Import Model.
From Verif.Png Require Import Spec.
From Verif.Png Require Import Rows Chunks Whole Safe Writer.
From Verif.Trip Require Spec.
Import ListNotations.
Local Open Scope Z_scope.

(** A picture of any kind and depth comes out as it is seen: whatever filters its rows
    have, however its data is split, whatever the chunks in between, the checksums, and
    what follows the end. *)
Theorem C102_reads : forall p, photo_ok p -> forall inflate z raw extra file,
  z <> [] -> len z < 2 ^ 31 -> inflate true z = Some (raw ++ extra) -> scanlines p raw -> png_file p z file ->
  load inflate file = Ok (Some (width p, height p, shown_channels p, shown p)).
Proof. exact loaded. Qed.

(** Any file at all: a picture has between 1 and 2^24 columns and rows and between 1 and 4
    channels, and as many bytes as LoadImageData copies; and the file has the signature
    and an IEND. *)
Theorem C102_safe : forall inflate s x y n px,
  (forall h z out, Forall byte z -> inflate h z = Some out -> Forall byte out) -> Forall byte s -> load inflate s = Ok (Some (x, y, n, px)) ->
  (1 <= x <= 2 ^ 24 /\ 1 <= y <= 2 ^ 24 /\ 1 <= n <= 4 /\ len px = x * y * n /\ Forall byte px) /\
  exists a b, s = [137; 80; 78; 71; 13; 10; 26; 10] ++ a ++ letters "IEND" ++ b.
Proof. intros inflate s x y n px I B E. exact (any_file inflate s _ I B E). Qed.

(** The pictures of C101 come back through any writer of the format. *)
Theorem C102_png : forall inflate encode, writes_png inflate encode -> Trip.Spec.png_ok encode (decode_png inflate).
Proof. exact writer_ok. Qed.
(** One such writer: rows that are not filtered, and any compression that inflate undoes. *)
Theorem C102_writer : forall inflate deflate,
  (forall l, Forall byte l -> l <> [] -> len l <= 2 ^ 30 + 2 ^ 24 -> deflate l <> [] /\ len (deflate l) < 2 ^ 31 /\ inflate true (deflate l) = Some l) ->
  writes_png inflate (plain_encode deflate).
Proof. exact plain_writes. Qed.

(** ** Examples *)

(** Data that is not compressed. *)
Definition toy (_ : bool) (z : list Z) : option (list Z) := Some z.
Definition some_chunk (t : string) (crc : Z) (d : list Z) : list Z := [0; 0; 0; len d] ++ letters t ++ d ++ [crc; crc; crc; crc].
Definition small (w h d c : Z) : list Z := some_chunk "IHDR" 0 [0; 0; 0; w; 0; 0; 0; h; d; c; 0; 0; 0].
Definition sig : list Z := [137; 80; 78; 71; 13; 10; 26; 10].

Lemma some_chunk_ok : forall t crc d, len d < 256 -> chunk (letters t) d (some_chunk t crc d).
Proof.
  intros t crc d L. exists [0; 0; 0; len d], [crc; crc; crc; crc]. split; [reflexivity|]. split; [reflexivity|]. split; [|split; reflexivity].
  repeat constructor; unfold byte, len in *; lia.
Qed.

(** Two rows of colors: the first with filter 1, the second with filter 4; the data in two
    chunks with a text in between. *)
Definition flag : photo := Photo false Rgb 8 2 2 [] None None [[[10; 20; 30]; [12; 18; 40]]; [[11; 25; 30]; [0; 0; 255]]].
Definition flag_raw : list Z := [1; 10; 20; 30; 2; 254; 10] ++ [4; 1; 5; 0; 244; 231; 215].
Definition flag_file : list Z :=
  sig ++ small 2 2 8 2 ++ some_chunk "IDAT" 7 (firstn 5 flag_raw) ++ some_chunk "tEXt" 9 [72; 105] ++ some_chunk "IDAT" 8 (skipn 5 flag_raw) ++ some_chunk "IEND" 1 [] ++ [5; 5].
Example C102_reads_example : photo_ok flag /\ scanlines flag flag_raw /\ png_file flag flag_raw flag_file /\
  shown flag = [10; 20; 30; 12; 18; 40; 11; 25; 30; 0; 0; 255] /\ load toy flag_file = Ok (Some (2, 2, 3, shown flag)).
Proof.
  split; [|split; [|split; [|split; [reflexivity|vm_compute; reflexivity]]]].
  - constructor; [left; reflexivity|cbn; lia|cbn; lia|reflexivity| | |cbn; lia|reflexivity|exact Logic.I].
    + repeat (apply Forall_cons; [reflexivity|]). apply Forall_nil.
    + repeat (apply Forall_cons; [repeat (apply Forall_cons; [split; [reflexivity|]; repeat (apply Forall_cons; [unfold sample; cbn; lia|]); apply Forall_nil|]); apply Forall_nil|]). apply Forall_nil.
  - exists [[10; 20; 30; 12; 18; 40]; [11; 25; 30; 0; 0; 255]]. split.
    + repeat (apply Forall2_cons); [| |apply Forall2_nil]; (split; [unfold byte; repeat (apply Forall_cons; [lia|]); apply Forall_nil|]; split; [reflexivity|]); intros k K; assert (C : k = 0 \/ k = 1 \/ k = 2 \/ k = 3 \/ k = 4 \/ k = 5) by (unfold len in K; cbn in K; lia); destruct C as [->|[->|[->|[->|[->| ->]]]]]; reflexivity.
    + apply (fr_cons _ _ [10; 20; 30; 12; 18; 40] _ 1 [10; 20; 30; 2; 254; 10]); [|lia|]; [|apply (fr_cons _ _ [11; 25; 30; 0; 0; 255] _ 4 [1; 5; 0; 244; 231; 215] []); [|lia|constructor]].
      * split; [reflexivity|]. intros k K. destruct k as [|[|[|[|[|[|k]]]]]]; cbn in K; try lia; (eexists; split; [right; left; split; [reflexivity|reflexivity]|reflexivity]).
      * split; [reflexivity|]. intros k K. destruct k as [|[|[|[|[|[|k]]]]]]; cbn in K; try lia.
        -- exists 10. split; [|reflexivity]. do 4 right. split; [reflexivity|]. unfold nearest. change (Z.to_nat (Z.max 1 (channels (shade flag) * bits flag / 8))) with 3%nat. cbn. lia.
        -- exists 20. split; [|reflexivity]. do 4 right. split; [reflexivity|]. unfold nearest. change (Z.to_nat (Z.max 1 (channels (shade flag) * bits flag / 8))) with 3%nat. cbn. lia.
        -- exists 30. split; [|reflexivity]. do 4 right. split; [reflexivity|]. unfold nearest. change (Z.to_nat (Z.max 1 (channels (shade flag) * bits flag / 8))) with 3%nat. cbn. lia.
        -- exists 12. split; [|reflexivity]. do 4 right. split; [reflexivity|]. unfold nearest. change (Z.to_nat (Z.max 1 (channels (shade flag) * bits flag / 8))) with 3%nat. cbn. lia.
        -- exists 25. split; [|reflexivity]. do 4 right. split; [reflexivity|]. unfold nearest. change (Z.to_nat (Z.max 1 (channels (shade flag) * bits flag / 8))) with 3%nat. cbn. lia.
        -- exists 40. split; [|reflexivity]. do 4 right. split; [reflexivity|]. unfold nearest. change (Z.to_nat (Z.max 1 (channels (shade flag) * bits flag / 8))) with 3%nat. cbn. lia.
  - exists [0; 0; 0; 2; 0; 0; 0; 2; 8; 2; 0; 0; 0], (small 2 2 8 2), [], [], [], [], [], (some_chunk "IDAT" 7 (firstn 5 flag_raw) ++ some_chunk "tEXt" 9 [72; 105] ++ some_chunk "IDAT" 8 (skipn 5 flag_raw)), (some_chunk "IEND" 1 []), [5; 5].
    split; [reflexivity|]. split. { exists [0; 0; 0; 2], [0; 0; 0; 2]. repeat (split; [try reflexivity; unfold byte; repeat (apply Forall_cons; [lia|]); apply Forall_nil|]). reflexivity. }
    split; [apply some_chunk_ok; reflexivity|]. split; [constructor|]. split; [reflexivity|]. split; [constructor|]. split; [reflexivity|]. split; [constructor|]. split; [|apply some_chunk_ok; reflexivity].
    apply (d_data _ (firstn 5 flag_raw) (skipn 5 flag_raw)); [apply some_chunk_ok; reflexivity|]. apply d_other.
    + exists (letters "tEXt"), [72; 105]. split; [apply some_chunk_ok; reflexivity|]. split; [reflexivity|]. split; [repeat constructor; unfold byte; cbn; lia|]. split; [reflexivity|]. split; [discriminate|reflexivity].
    + rewrite <- (app_nil_r (skipn 5 flag_raw)) at 1. rewrite <- (app_nil_r (some_chunk "IDAT" 8 (skipn 5 flag_raw))). constructor; [apply some_chunk_ok; reflexivity|constructor].
Qed.

(** An interlaced picture of three columns and two rows of grey: four of the passes have
    pixels, and the last has filter 1. *)
Definition woven_flag : photo := Photo true Grey 8 3 2 [] None None [[[10]; [20]; [30]]; [[40]; [50]; [70]]].
Definition woven_raw : list Z := [0; 10] ++ [0; 30] ++ [0; 20] ++ [1; 40; 10; 20].
Example C102_interlaced_example : photo_ok woven_flag /\ scanlines woven_flag woven_raw /\
  load toy (sig ++ some_chunk "IHDR" 0 [0; 0; 0; 3; 0; 0; 0; 2; 8; 0; 0; 0; 1] ++ some_chunk "IDAT" 0 woven_raw ++ some_chunk "IEND" 0 []) = Ok (Some (3, 2, 1, [10; 20; 30; 40; 50; 70])).
Proof.
  split; [|split; [|vm_compute; reflexivity]].
  - constructor; [cbn; tauto|cbn; lia|cbn; lia|reflexivity| | |cbn; lia|reflexivity|exact Logic.I].
    + repeat (apply Forall_cons; [reflexivity|]). apply Forall_nil.
    + repeat (apply Forall_cons; [repeat (apply Forall_cons; [split; [reflexivity|]; repeat (apply Forall_cons; [unfold sample; cbn; lia|]); apply Forall_nil|]); apply Forall_nil|]). apply Forall_nil.
  - exists (fun k => match k with 1%nat => [0; 10] | 4%nat => [0; 30] | 6%nat => [0; 20] | 7%nat => [1; 40; 10; 20] | _ => [] end). split; [reflexivity|].
    assert (N : pass 2 (body woven_flag) = [] /\ pass 3 (body woven_flag) = [] /\ pass 5 (body woven_flag) = []) by (repeat split).
    assert (O : forall v, byte v -> scanned woven_flag [[[v]]] [0; v]).
    { intros v V. assert (VF : Forall byte [v]) by (constructor; [exact V|constructor]). exists [[v]]. split; [constructor; [exact (packed8 _ VF)|constructor]|]. apply (unfiltered _ [[v]]). constructor; [exact VF|constructor]. }
    assert (E : scanned woven_flag [] []) by (exists []; split; constructor).
    intros k K. destruct N as (N2 & N3 & N5). assert (C : (k = 1 \/ k = 2 \/ k = 3 \/ k = 4 \/ k = 5 \/ k = 6 \/ k = 7)%nat) by lia. destruct C as [->|[->|[->|[->|[->|[->| ->]]]]]].
    + apply (O 10). unfold byte. lia.
    + rewrite N2. exact E.
    + rewrite N3. exact E.
    + apply (O 30). unfold byte. lia.
    + rewrite N5. exact E.
    + apply (O 20). unfold byte. lia.
    + exists [[40; 50; 70]]. split.
      * constructor; [|constructor]. apply packed8. unfold byte. repeat (apply Forall_cons; [lia|]). constructor.
      * apply (fr_cons _ _ [40; 50; 70] _ 1 [40; 10; 20] []); [|lia|constructor]. split; [reflexivity|]. intros k' K'. destruct k' as [|[|[|k']]]; cbn in K'; try lia; (eexists; split; [right; left; split; [reflexivity|reflexivity]|reflexivity]).
Qed.

(** Four colors in 2 bits, with alpha; and 16 bits with a color that is not drawn. *)
Example C102_palette_example :
  load toy (sig ++ small 3 1 2 3 ++ some_chunk "PLTE" 0 [1; 2; 3; 4; 5; 6; 7; 8; 9] ++ some_chunk "tRNS" 0 [0; 128] ++ some_chunk "IDAT" 0 [0; 24] ++ some_chunk "IEND" 0 [])
  = Ok (Some (3, 1, 4, [1; 2; 3; 0; 4; 5; 6; 128; 7; 8; 9; 255])) /\
  load toy (sig ++ small 2 1 16 0 ++ some_chunk "tRNS" 0 [1; 2] ++ some_chunk "IDAT" 0 [0; 1; 2; 255; 3] ++ some_chunk "IEND" 0 [])
  = Ok (Some (2, 1, 2, [1; 0; 255; 255])).
Proof. split; vm_compute; reflexivity. Qed.
Example C102_safe_example : load toy flag_file = Ok (Some (2, 2, 3, [10; 20; 30; 12; 18; 40; 11; 25; 30; 0; 0; 255])) /\ Forall byte flag_file.
Proof. split; [vm_compute; reflexivity|]. unfold byte. repeat (constructor; [cbn; lia|]). constructor. Qed.

Example C102_writer_example : writes_png toy (plain_encode (fun l => l)) /\
  (let* s := match plain_encode (fun l => l) [] (Gltf.Model.Mat3b 2 1 [1; 2; 3; 4; 5; 6]) with Some s => Ok s | None => Err KeyError end in load toy s) = Ok (Some (1, 2, 3, [1; 2; 3; 4; 5; 6])).
Proof. split; [|vm_compute; reflexivity]. apply C102_writer. intros l _ N L. split; [exact N|]. split; [lia|reflexivity]. Qed.
Example C102_png_example : Trip.Spec.png_ok (plain_encode (fun l => l)) (decode_png toy).
Proof. apply C102_png, C102_writer_example. Qed.

(** ** What is not so *)

(** Not every file is read or refused: a pixel beyond the palette takes its color from
    memory that nothing was written to. *)
Theorem C102_palette_refuted : forall i, 1 <= i < 256 ->
  load toy (sig ++ small 1 1 8 3 ++ some_chunk "PLTE" 0 [1; 2; 3] ++ some_chunk "IDAT" 0 [0; i] ++ some_chunk "IEND" 0 []) = Err Undefined.
Proof.
  intros i I. transitivity (let* l := mapM (fun k => match nth_error [[1; 2; 3; 255]] k with Some e => Ok (firstn 3 e) | None => Err Undefined end) [Z.to_nat i] in Ok (Some (1, 1, 3, List.concat l))).
  - vm_compute. reflexivity.
  - destruct (Z.to_nat i) as [|n] eqn:E; [lia|]. destruct n; reflexivity.
Qed.

(** The checksums protect nothing. *)
Theorem C102_crc_refuted : forall crc, exists b,
  load toy (sig ++ small 1 1 8 0 ++ some_chunk "IDAT" crc [0; b] ++ some_chunk "IEND" 0 []) = Ok (Some (1, 1, 1, [b])) /\ b <> 77 /\
  load toy (sig ++ small 1 1 8 0 ++ some_chunk "IDAT" crc [0; 77] ++ some_chunk "IEND" 0 []) = Ok (Some (1, 1, 1, [77])).
Proof. intros crc. exists 78. split; [vm_compute; reflexivity|]. split; [discriminate|vm_compute; reflexivity]. Qed.

(** Colors of 4 bits are not refused: an assertion fails. *)
Theorem C102_depth_refuted : exists s, Forall byte s /\ load toy s = Err Terminate.
Proof.
  exists (sig ++ small 1 1 4 2 ++ some_chunk "IDAT" 0 [0; 0; 0] ++ some_chunk "IEND" 0 []). split; [|vm_compute; reflexivity]. unfold byte. repeat (constructor; [cbn; lia|]). constructor.
Qed.

Print Assumptions C102_reads.
Print Assumptions C102_safe.
Print Assumptions C102_png.
Print Assumptions C102_writer.
Print Assumptions C102_palette_refuted.
Print Assumptions C102_crc_refuted.
Print Assumptions C102_depth_refuted.
