(** The bits that are still to be read. *)
From Coq Require Import List Bool ZArith Lia.
From Verif.Base Require Import Py.
From Verif.Png Require Model.
From Verif.Zlib Require Import Model.
From Verif.Zlib Require Import Spec.
Import ListNotations.
Local Open Scope Z_scope.

Definition low (bits : list bool) : Z := fold_right (fun b n => Z.b2z b + 2 * n) 0 bits.
Lemma low_range : forall bits, 0 <= low bits < 2 ^ len bits.
Proof.
  induction bits as [|b bits IH]; [unfold len; cbn; lia|]. cbn [low fold_right]. change (fold_right _ 0 bits) with (low bits). unfold len in *. cbn [List.length]. rewrite Nat2Z.inj_succ, Z.pow_succ_r by lia. destruct b; cbn [Z.b2z]; lia.
Qed.
Lemma low_app : forall a b, low (a ++ b) = low a + 2 ^ len a * low b.
Proof.
  induction a as [|x a IH]; intros b; [change (low b = 0 + 1 * low b); lia|]. cbn [app low fold_right]. change (fold_right _ 0 (a ++ b)) with (low (a ++ b)). change (fold_right _ 0 a) with (low a). rewrite IH. unfold len. cbn [List.length]. rewrite Nat2Z.inj_succ, Z.pow_succ_r by lia. lia.
Qed.
Lemma len_app : forall A (a b : list A), len (a ++ b) = len a + len b.
Proof. intros. unfold len. rewrite app_length. lia. Qed.
Lemma len_pos : forall A (a : list A), 0 <= len a. Proof. intros. unfold len. lia. Qed.
Lemma field_length : forall n x, List.length (field n x) = n.
Proof. intros. unfold field. rewrite map_length. apply seq_length. Qed.
Lemma field_S : forall n x, field (S n) x = Z.testbit x 0 :: field n (x / 2).
Proof.
  intros n x. unfold field. cbn [seq map]. f_equal. rewrite <- seq_shift, map_map. apply map_ext. intros i. rewrite Nat2Z.inj_succ. replace (x / 2) with (Z.div2 x) by apply Z.div2_div. rewrite Z.div2_spec, Z.shiftr_spec by lia. f_equal.
Qed.
Lemma low_field : forall n x, low (field n x) = x mod 2 ^ Z.of_nat n.
Proof.
  induction n as [|n IH]; intros x; [cbn; rewrite Z.mod_1_r; reflexivity|]. rewrite field_S. cbn [low fold_right]. change (fold_right _ 0 ?l) with (low l). rewrite IH, Nat2Z.inj_succ, Z.pow_succ_r by lia.
  assert (P : 0 < 2 ^ Z.of_nat n) by (apply Z.pow_pos_nonneg; lia). rewrite Z.rem_mul_r by lia. rewrite Z.bit0_odd, (Zmod_odd x). destruct (Z.odd x); reflexivity.
Qed.
Lemma low_field_small : forall n x, 0 <= x < 2 ^ Z.of_nat n -> low (field n x) = x.
Proof. intros n x H. rewrite low_field. apply Z.mod_small, H. Qed.
Lemma low_inj : forall a b, List.length a = List.length b -> low a = low b -> a = b.
Proof.
  induction a as [|x a IH]; intros [|y b] L E; try discriminate L; [reflexivity|]. cbn [low fold_right] in E. change (fold_right _ 0 a) with (low a) in E. change (fold_right _ 0 b) with (low b) in E.
  assert (x = y) by (destruct x, y; cbn [Z.b2z] in E; lia). subst y. f_equal. apply IH; [injection L; auto|]. lia.
Qed.
Lemma bits_length : forall l, len (bits_of l) = 8 * len l.
Proof. induction l as [|b l IH]; [reflexivity|]. unfold bits_of. cbn [flat_map]. fold (bits_of l). rewrite len_app, IH. unfold len. cbn [List.length]. rewrite field_length. lia. Qed.
Lemma bits_app : forall a b, bits_of (a ++ b) = bits_of a ++ bits_of b.
Proof. intros. apply flat_map_app. Qed.
Lemma bits_inj : forall a b, Forall byte a -> Forall byte b -> bits_of a = bits_of b -> a = b.
Proof.
  induction a as [|x a IH]; intros [|y b] FA FB E; try discriminate E; [reflexivity|]. inversion FA; inversion FB; subst. unfold bits_of in E. cbn [flat_map] in E. fold (bits_of a) in E. fold (bits_of b) in E.
  assert (E1 := f_equal (firstn 8) E). assert (E2 := f_equal (skipn 8) E). rewrite !firstn_app, !field_length in E1. rewrite !skipn_app, !field_length in E2. rewrite !firstn_all2 in E1 by (rewrite field_length; lia). rewrite !skipn_all2 in E2 by (rewrite field_length; lia). cbn [Nat.sub firstn skipn app] in E1, E2. rewrite !app_nil_r in E1.
  f_equal; [|apply IH; assumption]. rewrite <- (low_field_small 8 x), <- (low_field_small 8 y) by assumption. f_equal. exact E1.
Qed.
Lemma low_bits_cons : forall b l, byte b -> low (bits_of (b :: l)) = b + 256 * low (bits_of l).
Proof. intros b l B. unfold bits_of. cbn [flat_map]. rewrite low_app, (low_field_small 8 b) by exact B. reflexivity. Qed.

Record at_bits (a : zbuf) (bits : list bool) : Prop := {
  a_num : 0 <= num_bits a <= 32;
  a_code : 0 <= code_buffer a < 2 ^ num_bits a;
  a_input : Forall byte (input a);
  a_low : code_buffer a + 2 ^ num_bits a * low (bits_of (input a)) = low bits;
  a_pad : exists pad, 0 <= pad /\ num_bits a + 8 * len (input a) = len bits + 8 * pad /\ (pad = 0 \/ input a = []) }.

Lemma one_round : forall a bits, at_bits a bits -> num_bits a <= 24 ->
  let (b, s) := Png.Model.get8 (input a) in at_bits (Zbuf s (num_bits a + 8) (code_buffer a + b * 2 ^ num_bits a) (written a)) bits.
Proof.
  intros a bits [N C I L (pad & P0 & P1 & P2)] N24. assert (Q : 0 < 2 ^ num_bits a) by (apply Z.pow_pos_nonneg; lia). assert (Q8 : 2 ^ (num_bits a + 8) = 2 ^ num_bits a * 256) by (rewrite Z.pow_add_r by lia; reflexivity).
  destruct (input a) as [|b s] eqn:E; cbn [Png.Model.get8].
  - constructor; cbn [num_bits code_buffer input]; [lia|rewrite Q8; nia|constructor|cbn [bits_of flat_map low fold_right] in *; lia|]. exists (pad + 1). unfold len in *. cbn [List.length] in *. split; [lia|]. split; [lia|]. right. reflexivity.
  - inversion I as [|? ? B F]; subst. rewrite (low_bits_cons b s B) in L. unfold byte in B. constructor; cbn [num_bits code_buffer input]; [lia|rewrite Q8; nia|exact F|rewrite Q8; lia|]. exists pad. unfold len in *. cbn [List.length] in P1. split; [lia|]. split; [lia|]. destruct P2 as [P2|P2]; [left; exact P2|discriminate P2].
Qed.
Lemma filled : forall a bits, at_bits a bits -> num_bits a <= 24 -> at_bits (fill_bits a) bits /\ 25 <= num_bits (fill_bits a) /\ written (fill_bits a) = written a.
Proof.
  intros a bits A N. unfold fill_bits. assert (G : forall r a, at_bits a bits -> num_bits a <= 24 -> 25 <= num_bits a + 8 * Z.of_nat r -> at_bits (fill_rounds r a) bits /\ 25 <= num_bits (fill_rounds r a) /\ written (fill_rounds r a) = written a).
  { clear. induction r as [|r IH]; intros a A N R; [lia|]. cbn [fill_rounds]. assert (O := one_round a bits A N). destruct (Png.Model.get8 (input a)) as [b s]. cbv zeta. cbn [num_bits].
    destruct (Z.leb_spec (num_bits a + 8) 24) as [Y|Y]; [|split; [exact O|split; [cbn [num_bits]; lia|reflexivity]]]. destruct (IH _ O) as (I1 & I2 & I3); cbn [num_bits]; [lia|lia|]. split; [exact I1|]. split; [exact I2|]. rewrite I3. reflexivity. }
  apply G; [exact A|exact N|]. assert (X := a_num a bits A). lia.
Qed.
Lemma shifted : forall a w bits, at_bits a (w ++ bits) -> len w <= num_bits a -> code_buffer a mod 2 ^ len w = low w /\ at_bits (shift (len w) a) bits.
Proof.
  intros a w bits [N C I L (pad & P0 & P1 & P2)] LE. assert (LW := len_pos _ w). assert (Q : 0 < 2 ^ len w) by (apply Z.pow_pos_nonneg; lia). assert (Q2 : 2 ^ num_bits a = 2 ^ len w * 2 ^ (num_bits a - len w)) by (rewrite <- Z.pow_add_r by lia; f_equal; lia).
  rewrite low_app, Q2 in L. rewrite Q2 in C. assert (R := low_range w). set (q := 2 ^ len w) in *. set (t := 2 ^ (num_bits a - len w)) in *.
  assert (D := Z.div_mod (code_buffer a) q ltac:(lia)). assert (M := Z.mod_pos_bound (code_buffer a) q ltac:(lia)).
  set (cd := code_buffer a / q) in *. set (cm := code_buffer a mod q) in *. set (X := low (bits_of (input a))) in *.
  assert (E : q * (low bits - cd - t * X) = cm - low w) by lia.
  assert (Z0 : low bits - cd - t * X = 0) by nia. split; [nia|].
  constructor; cbn [shift num_bits code_buffer input]; [lia| |exact I| |].
  - fold q. fold cd. fold t. split; [apply Z.div_pos; lia|apply Z.div_lt_upper_bound; lia].
  - fold q. fold cd. fold t. fold X. lia.
  - exists pad. rewrite len_app in P1. split; [exact P0|]. split; [lia|exact P2].
Qed.
Lemma received : forall n a x bits, at_bits a (field n x ++ bits) -> (n <= 16)%nat -> 0 <= x < 2 ^ Z.of_nat n ->
  exists a', zreceive a (Z.of_nat n) = (x, a') /\ at_bits a' bits /\ written a' = written a.
Proof.
  intros n a x bits A N X. unfold zreceive. set (a1 := if num_bits a <? Z.of_nat n then fill_bits a else a).
  assert (G : at_bits a1 (field n x ++ bits) /\ Z.of_nat n <= num_bits a1 /\ written a1 = written a).
  { unfold a1. destruct (Z.ltb_spec (num_bits a) (Z.of_nat n)) as [Y|Y]; [|split; [exact A|split; [exact Y|reflexivity]]]. destruct (filled a _ A ltac:(lia)) as (F1 & F2 & F3). split; [exact F1|]. split; [lia|exact F3]. }
  destruct G as (G1 & G2 & G3). assert (LF : len (field n x) = Z.of_nat n) by (unfold len; rewrite field_length; reflexivity). destruct (shifted a1 _ _ G1 ltac:(lia)) as [S1 S2]. rewrite LF in S1, S2. rewrite (low_field_small n x X) in S1. rewrite S1. exists (shift (Z.of_nat n) a1). split; [reflexivity|]. split; [exact S2|exact G3].
Qed.
(** A code that is read. *)
Definition decodes (z : zhuffman) (has : Z -> Prop) (code : Z -> list bool) : Prop :=
  forall a c bits, has c -> at_bits a (code c ++ bits) -> exists a', zhuffman_decode a z = Ok (c, a') /\ at_bits a' bits /\ written a' = written a.
Definition upto (n : nat) : list Z := map Z.of_nat (seq 0 n).
Lemma upto_in : forall n i, 0 <= i < Z.of_nat n -> In i (upto n).
Proof. intros n i H. unfold upto. apply in_map_iff. exists (Z.to_nat i). split; [lia|]. apply in_seq. lia. Qed.
Lemma huffman_length : forall n x, List.length (huffman n x) = n.
Proof. intros. unfold huffman. rewrite rev_length. apply field_length. Qed.
