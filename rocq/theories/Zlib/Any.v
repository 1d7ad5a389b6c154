(** What comes out of any input. *)
From Coq Require Import List Bool ZArith Lia.
From Verif.Base Require Import Py.
From Verif.Png Require Model.
From Verif.Zlib Require Import Model.
From Verif.Zlib Require Import Spec.
Import ListNotations.
Local Open Scope Z_scope.

Definition sound (a : zbuf) : Prop := Forall byte (input a) /\ Forall byte (written a).
Lemma get8_sound : forall s b r, Forall byte s -> Png.Model.get8 s = (b, r) -> Forall byte r.
Proof. intros [|c s] b r F E; injection E as <- <-; [constructor|inversion F; assumption]. Qed.
Lemma fill_sound : forall r a, sound a -> sound (fill_rounds r a).
Proof.
  induction r as [|r IH]; intros a S; [exact S|]. cbn [fill_rounds]. destruct (Png.Model.get8 (input a)) as [b s] eqn:G. destruct S as [S1 S2]. assert (X := get8_sound _ _ _ S1 G). cbv zeta. destruct (_ <=? 24); [apply IH|]; split; assumption.
Qed.
Lemma receive_sound : forall a n x a', sound a -> zreceive a n = (x, a') -> sound a'.
Proof. intros a n x a' S E. unfold zreceive in E. injection E as _ <-. assert (G : sound (if num_bits a <? n then fill_bits a else a)) by (destruct (_ <? _); [apply fill_sound|]; exact S). exact G. Qed.
Definition positive (z : zhuffman) : Prop := forall b v, value z b = Some v -> 0 <= v.
Lemma symbols_positive : forall l i nc z, 0 <= i -> positive z -> positive (symbol_loop l i nc z).
Proof.
  induction l as [|s l IH]; intros i nc z I P; [exact P|]. cbn [symbol_loop]. destruct (s =? 0); [apply IH; [lia|exact P]|]. apply IH; [lia|]. intros b v E. cbn [value] in E. unfold set in E. destruct (b =? _); [injection E as <-; exact I|exact (P b v E)].
Qed.
Lemma codes_value : forall sl is code k z z', code_loop sl is code k z = Ok z' -> value z' = value z.
Proof. intros sl. induction is as [|i is IH]; intros code k z z' E; cbn [code_loop] in E; [injection E as <-; reflexivity|]. cbv zeta in E. destruct (_ && _); [discriminate E|]. apply IH in E. exact E. Qed.
Lemma build_positive : forall l z, zbuild_huffman l = Ok z -> positive z.
Proof.
  intros l z E. unfold zbuild_huffman in E. destruct (existsb _ _); [discriminate E|]. match type of E with bind ?c _ = _ => destruct c as [z0|] eqn:C; cbn [bind] in E; [|discriminate E] end. injection E as <-. apply codes_value in C. apply symbols_positive; [lia|]. intros b v V. cbn [value] in V. rewrite C in V. discriminate V.
Qed.
Lemma decode_sound : forall a z c a', sound a -> positive z -> zhuffman_decode a z = Ok (c, a') -> sound a' /\ 0 <= c.
Proof.
  intros a z c a' S P E. unfold zhuffman_decode in E. set (a1 := if num_bits a <? 16 then fill_bits a else a) in *. assert (G : sound a1) by (unfold a1; destruct (_ <? 16); [apply fill_sound|]; exact S). cbv zeta in E. destruct (_ =? 0).
  - unfold zhuffman_decode_slowpath in E. cbv zeta in E. destruct (find _ _) as [s|]; [|discriminate E]. destruct (size z _) as [s'|]; [|discriminate E]. destruct (value z _) as [v|] eqn:V; [|discriminate E]. destruct (s' =? s); [|discriminate E]. injection E as <- <-. split; [exact G|exact (P _ _ V)].
  - injection E as <- <-. split; [exact G|]. apply Z.mod_pos_bound. lia.
Qed.
Lemma copy_sound : forall n d out out', Forall byte out -> copy_bytes n d out = Ok out' -> Forall byte out'.
Proof.
  induction n as [|n IH]; intros d out out' F E; cbn [copy_bytes] in E; [injection E as <-; exact F|]. destruct (nth_error out _) as [b|] eqn:N; [|discriminate E]. apply IH in E; [exact E|]. apply Forall_app. split; [exact F|]. constructor; [|constructor]. apply nth_error_In in N. exact (proj1 (Forall_forall _ _) F b N).
Qed.
Lemma extra_sound : forall a base extra z x a', sound a -> with_extra a base extra z = (x, a') -> sound a'.
Proof. intros a base extra z x a' S E. unfold with_extra in E. cbv zeta in E. destruct (_ =? 0); [injection E as _ <-; exact S|]. destruct (zreceive a _) as [y a1] eqn:R. injection E as _ <-. eapply receive_sound; eassumption. Qed.
Lemma huffman_sound : forall turns a zl zd a', sound a -> positive zl -> positive zd -> parse_huffman_block turns a zl zd = Ok a' -> sound a'.
Proof.
  induction turns as [|turns IH]; intros a zl zd a' S PL PD E; [discriminate E|]. cbn [parse_huffman_block] in E. destruct (zhuffman_decode a zl) as [[c a1]|] eqn:D; cbn [bind] in E; [|discriminate E]. destruct (decode_sound _ _ _ _ S PL D) as [S1 C0].
  destruct (Z.ltb_spec c 256) as [C|C]; [|destruct (c =? 256); [injection E as <-; exact S1|]].
  - apply IH in E; [exact E| |exact PL|exact PD]. destruct S1 as [SI SW]. split; [exact SI|]. cbn [write written]. apply Forall_app. split; [exact SW|]. constructor; [split; assumption|constructor].
  - destruct (with_extra a1 _ _ _) as [n a2] eqn:X. assert (S2 := extra_sound _ _ _ _ _ _ S1 X). destruct (zhuffman_decode a2 zd) as [[d a3]|] eqn:D2; cbn [bind] in E; [|discriminate E]. destruct (decode_sound _ _ _ _ S2 PD D2) as [S3 _]. destruct (with_extra a3 _ _ _) as [dist a4] eqn:X4. assert (S4 := extra_sound _ _ _ _ _ _ S3 X4).
    destruct (_ <? dist); [discriminate E|]. destruct (copy_bytes _ _ _) as [out|] eqn:CP; cbn [bind] in E; [|discriminate E]. apply IH in E; [exact E| |exact PL|exact PD]. split; [apply S4|]. eapply copy_sound; [apply S4|exact CP].
Qed.
Lemma code_lengths_sound : forall order n a l l' a', sound a -> code_lengths order n a l = (l', a') -> sound a'.
Proof.
  induction order as [|i order IH]; intros n a l l' a' S E; cbn [code_lengths] in E; [injection E as _ <-; exact S|]. destruct (n <=? 0); [injection E as _ <-; exact S|]. destruct (zreceive a 3) as [s a1] eqn:R. eapply IH; [|exact E]. eapply receive_sound; eassumption.
Qed.
Lemma lengths_sound : forall turns ntot z a l l' a', sound a -> positive z -> read_lengths turns ntot z a l = Ok (l', a') -> sound a'.
Proof.
  induction turns as [|turns IH]; intros ntot z a l l' a' S P E; cbn [read_lengths] in E; (destruct (ntot <=? _); [injection E as _ <-; exact S|]); [discriminate E|]. destruct (zhuffman_decode a z) as [[c a1]|] eqn:D; cbn [bind] in E; [|discriminate E]. destruct (decode_sound _ _ _ _ S P D) as [S1 _].
  destruct (19 <=? c); [discriminate E|]. destruct (c <? 16); [eapply IH; eassumption|]. cbv zeta in E.
  destruct (c =? 16); [|destruct (c =? 17)].
  - destruct (zreceive a1 2) as [x a2] eqn:R. assert (S2 := receive_sound _ _ _ _ S1 R). destruct l; [discriminate E|]. destruct (_ <? _); [discriminate E|]. eapply IH; eassumption.
  - destruct (zreceive a1 3) as [x a2] eqn:R. assert (S2 := receive_sound _ _ _ _ S1 R). destruct (_ <? _); [discriminate E|]. eapply IH; eassumption.
  - destruct (zreceive a1 7) as [x a2] eqn:R. assert (S2 := receive_sound _ _ _ _ S1 R). destruct (_ <? _); [discriminate E|]. eapply IH; eassumption.
Qed.
Lemma compute_sound : forall a zl zd a', sound a -> compute_huffman_codes a = Ok (zl, zd, a') -> sound a' /\ positive zl /\ positive zd.
Proof.
  intros a zl zd a' S E. unfold compute_huffman_codes in E. revert E. generalize 320%nat. intros t E. destruct (zreceive a 5) as [x1 a1] eqn:R1. destruct (zreceive a1 5) as [x2 a2] eqn:R2. destruct (zreceive a2 4) as [x3 a3] eqn:R3. cbv zeta in E. destruct (code_lengths _ _ _ _) as [l a4] eqn:R4.
  assert (S4 : sound a4) by (eapply code_lengths_sound; [|exact R4]; eapply receive_sound; [|exact R3]; eapply receive_sound; [|exact R2]; eapply receive_sound; eassumption).
  destruct (zbuild_huffman l) as [z|] eqn:B; cbn [bind] in E; [|discriminate E]. destruct (read_lengths _ _ _ _ _) as [[l2 a5]|] eqn:R5; cbn [bind] in E; [|discriminate E].
  destruct (zbuild_huffman (firstn _ _)) as [z1|] eqn:B1; cbn [bind] in E; [|discriminate E]. destruct (zbuild_huffman (skipn _ _)) as [z2|] eqn:B2; cbn [bind] in E; [|discriminate E]. injection E as <- <- <-.
  split; [exact (lengths_sound _ _ _ _ _ _ _ S4 (build_positive _ _ B) R5)|]. split; eapply build_positive; eassumption.
Qed.
Lemma repeatedly_sound : forall n s l r, Forall byte s -> Png.Model.repeatedly Png.Model.get8 n s = (l, r) -> Forall byte r.
Proof.
  induction n as [|n IH]; intros s l r F E; cbn [Png.Model.repeatedly] in E; [injection E as _ <-; exact F|]. destruct (Png.Model.get8 s) as [b s1] eqn:G. destruct (Png.Model.repeatedly _ n s1) as [l1 s2] eqn:G2. injection E as _ <-. eapply IH; [eapply get8_sound; eassumption|exact G2].
Qed.
Lemma drain_sound : forall r a l a', sound a -> drain r a = (l, a') -> sound a'.
Proof.
  induction r as [|r IH]; intros a l a' S E; cbn [drain] in E; [injection E as _ <-; exact S|]. destruct (0 <? _); [|injection E as _ <-; exact S]. destruct (drain r _) as [l1 a1] eqn:D. injection E as _ <-. eapply IH; [|exact D]. exact S.
Qed.
Lemma forall_part : forall A (P : A -> Prop) n l, Forall P l -> Forall P (firstn n l) /\ Forall P (skipn n l).
Proof. intros A P n l F. rewrite <- (firstn_skipn n l) in F. apply Forall_app in F. exact F. Qed.
Lemma stored_sound : forall a a', sound a -> parse_uncompressed_block a = Ok a' -> sound a'.
Proof.
  intros a a' S E. unfold parse_uncompressed_block in E. set (a1 := if _ =? 0 then a else _) in E. assert (S1 : sound a1). { unfold a1. destruct (_ =? 0); [exact S|]. destruct (zreceive a _) as [x b] eqn:R. eapply receive_sound; eassumption. }
  destruct (drain 4 a1) as [h a2] eqn:D. assert (S2 := drain_sound _ _ _ _ S1 D). destruct (Png.Model.repeatedly _ _ _) as [l s] eqn:R. assert (FS := repeatedly_sound _ _ _ _ (proj1 S2) R).
  destruct (h ++ l) as [|h0 [|h1 [|h2 [|h3 [|]]]]]; try discriminate E. cbv zeta in E. destruct (negb _); [discriminate E|]. destruct (_ <? _); [discriminate E|]. injection E as <-. split; cbn [input written]; [apply forall_part, FS|]. apply Forall_app. split; [apply S2|apply forall_part, FS].
Qed.
Lemma blocks_sound : forall turns a a', sound a -> parse_blocks turns a = Ok a' -> sound a'.
Proof.
  induction turns as [|turns IH]; intros a a' S E; [discriminate E|]. cbn [parse_blocks] in E. revert E. generalize zdefault_length, zdefault_distance. intros fl fd E. destruct (zreceive a 1) as [f a1] eqn:R1. destruct (zreceive a1 2) as [ty a2] eqn:R2. assert (S2 : sound a2) by (eapply receive_sound; [|exact R2]; eapply receive_sound; eassumption).
  match type of E with bind ?c _ = _ => destruct c as [a3|] eqn:B; cbn [bind] in E; [|discriminate E] end.
  assert (S3 : sound a3).
  { destruct (ty =? 0); [eapply stored_sound; eassumption|]. destruct (ty =? 3); [discriminate B|]. destruct (ty =? 1).
    - destruct (zbuild_huffman fl) as [zl|] eqn:B1; cbn [bind] in B; [|discriminate B]. destruct (zbuild_huffman fd) as [zd|] eqn:B2; cbn [bind] in B; [|discriminate B]. eapply huffman_sound; [exact S2|eapply build_positive; exact B1|eapply build_positive; exact B2|exact B].
    - destruct (compute_huffman_codes a2) as [[[zl zd] a4]|] eqn:C; cbn [bind] in B; [|discriminate B]. destruct (compute_sound _ _ _ _ S2 C) as (S4 & P1 & P2). exact (huffman_sound _ _ _ _ _ S4 P1 P2 B). }
  destruct (f =? 0); [eapply IH; eassumption|]. injection E as <-. exact S3.
Qed.
Lemma any_bytes : forall h s out, Forall byte s -> inflate h s = Some out -> Forall byte out.
Proof.
  intros h s out F E. unfold inflate in E. destruct (parse_zlib h s) as [l|] eqn:P; [|discriminate E]. injection E as <-. unfold parse_zlib in P.
  match type of P with bind ?c _ = _ => destruct c as [s1|] eqn:H; cbn [bind] in P; [|discriminate P] end.
  assert (F1 : Forall byte s1).
  { destruct h; [|injection H as <-; exact F]. unfold parse_zlib_header in H. destruct (Png.Model.get8 s) as [c r] eqn:G1. destruct (Png.Model.get8 r) as [f r2] eqn:G2. destruct (negb _); [discriminate H|]. destruct (Z.testbit f 5); [discriminate H|]. destruct (negb _); [discriminate H|]. injection H as <-. eapply get8_sound; [|exact G2]. eapply get8_sound; eassumption. }
  destruct (parse_blocks _ _) as [a|] eqn:B; cbn [bind] in P; [|discriminate P]. injection P as <-. apply blocks_sound in B; [apply B|]. split; [exact F1|constructor].
Qed.
