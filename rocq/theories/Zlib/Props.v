(** C103: the decompressor of stb_image. *)
From Coq Require Import List Bool ZArith Ascii String Lia.
From Verif.Base Require Import Py.
From Verif.Trip Require Spec.
From Verif.Png Require Model Writer Props.
From Verif.Zlib Require Import Model.
From Verif.Zlib Require Import Spec.
From Verif.Zlib Require Import Bits Blocks Any Store.
Import ListNotations.
Local Open Scope Z_scope.

(** Every stream of blocks, stored, with the fixed codes or with codes of their own, in any
    order and whatever the compressor chose to copy, gives its data. *)
Theorem C103_inflates : forall s out, stream s out -> inflate true s = Some out.
Proof. exact stream_inflated. Qed.
Theorem C103_inflates_raw : forall s out, Forall byte s -> blocks [] (bits_of s) out -> inflate false s = Some out.
Proof. exact inflated. Qed.

(** Whatever the input, with codes of its own too, what comes out are bytes. *)
Theorem C103_bytes : forall header s out, Forall byte s -> inflate header s = Some out -> Forall byte out.
Proof. exact any_bytes. Qed.

(** There is such a stream for any data, hardly longer. *)
Theorem C103_store : forall l, Forall byte l -> stream (store l) l /\ len (store l) <= len l + len l / 13107 + 7.
Proof. intros l F. destruct (stored_stream l F) as (S & _ & L & _). split; assumption. Qed.

(** With C102, and without arguments left: what is loaded from any file at all, ... *)
Theorem C103_safe : forall s x y n px, Forall byte s -> Png.Model.load inflate s = Ok (Some (x, y, n, px)) ->
  1 <= x <= 2 ^ 24 /\ 1 <= y <= 2 ^ 24 /\ 1 <= n <= 4 /\ len px = x * y * n /\ Forall byte px.
Proof. intros s x y n px F E. exact (proj1 (Png.Props.C102_safe inflate s x y n px C103_bytes F E)). Qed.
(** ... and a writer of .png files as C101 needs it. *)
Theorem C103_png : Trip.Spec.png_ok (Png.Writer.plain_encode store) (Png.Writer.decode_png inflate).
Proof.
  apply Png.Props.C102_png, Png.Props.C102_writer. intros l F N L. destruct (stored_stream l F) as (S1 & _ & S2 & S3). split; [exact S3|]. split; [|exact (C103_inflates _ _ S1)].
  change (len (store l) < 2 ^ 31). change (len l <= 2 ^ 30 + 2 ^ 24) in L. assert (D : len l / 13107 <= len l) by (apply Z.div_le_upper_bound; [lia|]; assert (X := len_pos _ l); lia).
  assert (D2 : len l / 13107 <= 2 ^ 20) by (apply Z.div_le_upper_bound; [lia|]; lia). lia.
Qed.

(** ** Examples *)

(** "abcabcab" as zlib writes it with the fixed codes: four literals, and a copy that
    overlaps itself. *)
Example C103_inflates_example : stream [120; 1; 75; 76; 74; 78; 4; 33; 0; 13; 202; 3; 16] [97; 98; 99; 97; 98; 99; 97; 98] /\
  inflate true [120; 1; 75; 76; 74; 78; 4; 33; 0; 13; 202; 3; 16] = Some [97; 98; 99; 97; 98; 99; 97; 98].
Proof.
  split; [|vm_compute; reflexivity]. exists 120, 1, [75; 76; 74; 78; 4; 33; 0; 13; 202; 3; 16]. split; [reflexivity|]. split; [repeat (apply Forall_cons; [unfold byte; lia|]); constructor|]. split; [reflexivity|]. split; [reflexivity|]. split; [reflexivity|].
  set (tb := fixed_literal 97 ++ fixed_literal 98 ++ fixed_literal 99 ++ fixed_literal 97 ++ fixed_literal 258 ++ field 0 0 ++ fixed_distance 2 ++ field 0 0 ++ fixed_literal 256).
  replace (bits_of [75; 76; 74; 78; 4; 33; 0; 13; 202; 3; 16]) with (true :: (field 2 1 ++ tb) ++ skipn 54 (bits_of [75; 76; 74; 78; 4; 33; 0; 13; 202; 3; 16])) by (vm_compute; reflexivity).
  apply last_block, fixed. unfold tb. do 4 (apply t_literal; [unfold byte; lia|lia|]). apply (t_copy _ _ _ _ _ 258 0 2 0 [98; 99; 97; 98]); [lia|lia|cbn; lia|lia|lia|cbn; lia|cbn; lia|reflexivity| |apply t_end; lia].
  intros k K. change (k < 4)%nat in K. destruct k as [|[|[|[|k]]]]; [reflexivity|reflexivity|reflexivity|reflexivity|lia].
Qed.
Example C103_stored_example : inflate true (store [104; 101; 108; 108; 111]) = Some [104; 101; 108; 108; 111] /\
  store [104; 101; 108; 108; 111] = [120; 1; 1; 5; 0; 250; 255; 104; 101; 108; 108; 111].
Proof. split; vm_compute; reflexivity. Qed.
(** Codes from lengths: the example of RFC 1951, 3.2.2. *)
Example C103_canonical_example : map (canonical [3; 3; 3; 3; 3; 2; 4; 4]) [0; 1; 4; 5; 6; 7] =
  [[false; true; false]; [false; true; true]; [true; true; false]; [false; false]; [true; true; true; false]; [true; true; true; true]].
Proof. vm_compute. reflexivity. Qed.
(** "abaa" in a block with codes of its own: one bit for "a", two for "b" and for the end. *)
Example C103_dynamic_example : blocks [] (bits_of [5; 192; 129; 0; 0; 0; 0; 128; 32; 214; 246; 135; 56; 49]) [97; 98; 97; 97] /\ inflate false [5; 192; 129; 0; 0; 0; 0; 128; 32; 214; 246; 135; 56; 49] = Some [97; 98; 97; 97].
Proof.
  split; [|vm_compute; reflexivity].
  set (w := [0; 0; 1; 0; 0; 0; 0; 0; 0; 0; 0; 0; 0; 0; 0; 2; 0; 2]). set (cl := [0; 2; 2; 0; 0; 0; 0; 0; 0; 0; 0; 0; 0; 0; 0; 0; 0; 0; 1]). set (ll := repeat 0 97 ++ [1; 2] ++ repeat 0 157 ++ [2]). set (dl := [1]).
  set (lb := canonical cl 18 ++ field 7 86 ++ canonical cl 1 ++ canonical cl 2 ++ canonical cl 18 ++ field 7 127 ++ canonical cl 18 ++ field 7 8 ++ canonical cl 2 ++ canonical cl 1 ++ []).
  set (tb := canonical ll 97 ++ canonical ll 98 ++ canonical ll 97 ++ canonical ll 97 ++ canonical ll 256).
  match goal with |- blocks _ ?x _ => replace x with (true :: (field 2 2 ++ field 5 (len ll - 257) ++ field 5 (len dl - 1) ++ field 4 (len w - 4) ++ flat_map (field 3) w ++ lb ++ tb) ++ skipn 110 x) by (vm_compute; reflexivity) end.
  assert (F : forall l, forallb (fun s => (0 <=? s) && (s <=? 7)) l = true -> Forall (fun s => 0 <= s <= 7) l) by (intros l E; apply Forall_forall; intros s I; rewrite forallb_forall in E; specialize (E s I); lia).
  assert (O : forall l, forallb (fun s => (0 <=? s) && (s <=? 7)) l = true -> (total (map (fun s => if s =? 0 then 0 else 2 ^ (15 - s)) l) <=? 2 ^ 15) = true -> sizes_ok l) by (intros l E T; split; [|apply Z.leb_le; exact T]; apply (Forall_impl _ (P := fun s => 0 <= s <= 7)); [intros s; cbv beta; lia|exact (F l E)]).
  assert (U : forall l c, (0 <=? c) && (c <? len l) && (0 <? size_of l c) = true -> used l c) by (intros l c E; unfold used; lia).
  apply last_block, (dynamic [] w cl lb ll dl tb).
  - vm_compute. split; discriminate.
  - vm_compute. split; discriminate.
  - cbn. lia.
  - apply F. reflexivity.
  - reflexivity.
  - intros k K. do 19 (destruct k as [|k]; [reflexivity|]). lia.
  - apply O; vm_compute; reflexivity.
  - apply O; vm_compute; reflexivity.
  - apply O; vm_compute; reflexivity.
  - unfold lb. apply l_many_zeros; [apply U; reflexivity|lia|]. do 2 (apply l_one; [lia|apply U; reflexivity|]). do 2 (apply l_many_zeros; [apply U; reflexivity|lia|]). do 2 (apply l_one; [lia|apply U; reflexivity|]).
    match goal with |- length_codes _ _ ?x _ ?y => replace y with x by (vm_compute; reflexivity) end. apply l_end.
  - unfold tb. do 4 (apply t_literal; [unfold byte; lia|apply U; vm_compute; reflexivity|]). apply t_end. apply U. vm_compute. reflexivity.
Qed.
(** The same as zlib writes it, with copies. *)
Example C103_bytes_example : inflate true [120; 218; 45; 138; 201; 17; 192; 64; 12; 194; 70; 224; 163; 255; 142; 99; 123; 195; 131; 1; 1; 137; 12; 166; 198; 178; 44; 32; 214; 86; 150; 212; 98; 235; 124; 38; 120; 106; 62; 160; 236; 134; 190; 155; 249; 217; 179; 218; 247; 42; 57; 60; 104; 118; 57; 110; 209; 194; 248; 0; 62; 49; 0; 254]
  = Some [1; 5; 1; 2; 3; 1; 1; 3; 1; 6; 1; 1; 3; 5; 6; 3; 2; 1; 1; 1; 4; 2; 1; 1; 1; 1; 1; 1; 1; 3; 2; 2; 2; 7; 2; 1; 2; 1; 1; 1; 3; 1; 1; 2; 1; 2; 3; 2; 7; 2; 5; 2; 1; 2; 1; 1; 1; 2; 5; 7; 7; 1; 1; 7; 1; 1; 1; 1; 3; 3; 1; 2; 1; 2; 1; 1; 1; 2; 2; 1; 1; 1; 2; 2; 6; 1; 3; 1; 1; 1; 1; 1; 1; 5; 1; 1; 2; 1; 1; 1; 1; 2; 2; 2; 1; 2; 2; 3; 4; 2; 6; 1; 3; 1; 2; 1; 1; 2; 1; 4].
Proof. vm_compute. reflexivity. Qed.
(** A file, written and loaded. *)
Example C103_png_example :
  match Png.Writer.plain_encode store [] (Gltf.Model.Mat3b 2 1 [1; 2; 3; 4; 5; 6]) with Some s => Png.Model.load inflate s | None => Err KeyError end = Ok (Some (1, 2, 3, [1; 2; 3; 4; 5; 6])).
Proof. vm_compute. reflexivity. Qed.

(** ** What is not so *)

(** The two distances that do not exist are not refused: bytes are copied from memory that
    nothing was written to. *)
Theorem C103_distance_refuted : exists s, Forall byte s /\ parse_zlib true s = Err Undefined.
Proof.
  exists [120; 1; 75; 4; 62; 0]. split; [repeat (apply Forall_cons; [unfold byte; lia|]); constructor|vm_compute; reflexivity].
Qed.

(** Nor does every input come to an end: after these twelve bytes, zeros are written for
    ever. *)
Lemma zeros_fill : forall r a, input a = [] -> code_buffer a = 0 -> input (fill_rounds r a) = [] /\ code_buffer (fill_rounds r a) = 0.
Proof.
  induction r as [|r IH]; intros a I C; [split; assumption|]. cbn [fill_rounds]. rewrite I. cbn [Png.Model.get8]. cbv zeta. destruct (_ <=? 24); [apply IH|split]; cbn [input code_buffer]; try reflexivity; rewrite C; reflexivity.
Qed.
Lemma zeros_written : forall zl zd turns a, fast zl 0 = 512 -> input a = [] -> code_buffer a = 0 -> parse_huffman_block turns a zl zd = Err Terminate.
Proof.
  intros zl zd. induction turns as [|turns IH]; intros a Z I C; [reflexivity|]. cbn [parse_huffman_block]. unfold zhuffman_decode. set (a1 := if num_bits a <? 16 then fill_bits a else a).
  assert (G : input a1 = [] /\ code_buffer a1 = 0) by (unfold a1; destruct (_ <? 16); [apply zeros_fill; assumption|split; assumption]). destruct G as [G1 G2]. cbv zeta. rewrite G2. change (0 mod 512) with 0. rewrite Z. change (512 =? 0) with false. cbv iota. cbn [bind]. change (512 mod 512) with 0. change (0 <? 256) with true. cbv iota. apply IH; [exact Z|exact G1|]. cbn [write shift code_buffer]. rewrite G2. reflexivity.
Qed.
Theorem C103_ends_refuted : exists s, Forall byte s /\ forall turns, parse_blocks turns (Zbuf s 0 0 []) = Err Terminate.
Proof.
  exists [5; 192; 1; 9; 0; 0; 0; 0; 16; 255; 87; 3]. split; [repeat (apply Forall_cons; [unfold byte; lia|]); constructor|]. intros [|turns]; [reflexivity|]. cbn [parse_blocks].
  set (a := Zbuf _ _ _ _). set (a2 := snd (zreceive (snd (zreceive a 1)) 2)).
  assert (E1 : zreceive a 1 = (1, snd (zreceive a 1))) by (vm_compute; reflexivity). rewrite E1. assert (E2 : zreceive (snd (zreceive a 1)) 2 = (2, a2)) by (vm_compute; reflexivity). rewrite E2. change (2 =? 0) with false. change (2 =? 3) with false. change (2 =? 1) with false. cbv iota.
  assert (G : match compute_huffman_codes a2 with Ok (zl, _, a3) => (fast zl 0 =? 512) && (code_buffer a3 =? 0) && match input a3 with [] => true | _ => false end | Err _ => false end = true) by (vm_compute; reflexivity).
  destruct (compute_huffman_codes a2) as [[[zl zd] a3]|]; [|discriminate G]. cbn [bind]. apply andb_true_iff in G. destruct G as [G G3]. apply andb_true_iff in G. destruct G as [G1 G2]. apply Z.eqb_eq in G1, G2. rewrite (zeros_written zl zd turns a3 G1); [reflexivity| |exact G2]. destruct (input a3); [reflexivity|discriminate G3].
Qed.

Print Assumptions C103_inflates.
Print Assumptions C103_inflates_raw.
Print Assumptions C103_bytes.
Print Assumptions C103_store.
Print Assumptions C103_safe.
Print Assumptions C103_png.
Print Assumptions C103_distance_refuted.
Print Assumptions C103_ends_refuted.
