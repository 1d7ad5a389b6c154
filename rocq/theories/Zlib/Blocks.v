(** Blocks. *)
From Coq Require Import List Bool ZArith Znumtheory Lia.
From Verif.Base Require Import Py.
From Verif.Png Require Model.
From Verif.Zlib Require Import Model.
From Verif.Zlib Require Import Spec.
From Verif.Zlib Require Import Bits Canon.
Import ListNotations.
Local Open Scope Z_scope.

(** * The fixed codes *)
Definition table_ok (z : zhuffman) (code : Z -> list bool) (n : nat) : bool :=
  forallb (fun c => let w := code c in (1 <=? len w) && (len w <=? 9) &&
    forallb (fun b => if b mod 2 ^ len w =? low w then fast z b =? len w * 512 + c else true) (upto 512)) (upto n).
Lemma table_decodes : forall z code n, table_ok z code n = true -> (n <= 512)%nat -> decodes z (fun c => 0 <= c < Z.of_nat n) code.
Proof.
  intros z code n T N a c bits H A. unfold table_ok in T. rewrite forallb_forall in T. specialize (T c (upto_in n c H)). cbv zeta in T. rewrite !andb_true_iff in T. destruct T as [[T1 T2] T3]. apply Z.leb_le in T1, T2. rewrite forallb_forall in T3.
  unfold zhuffman_decode. set (a1 := if num_bits a <? 16 then fill_bits a else a). set (w := code c) in *.
  assert (G : at_bits a1 (w ++ bits) /\ 16 <= num_bits a1 /\ written a1 = written a).
  { unfold a1. destruct (Z.ltb_spec (num_bits a) 16) as [Y|Y]; [|split; [exact A|split; [exact Y|reflexivity]]]. destruct (filled a _ A ltac:(lia)) as (F1 & F2 & F3). split; [exact F1|]. split; [lia|exact F3]. }
  destruct G as (G1 & G2 & G3). destruct (shifted a1 w bits G1 ltac:(lia)) as [S1 S2].
  assert (M : (code_buffer a1 mod 512) mod 2 ^ len w = low w).
  { rewrite <- S1. symmetry. apply Znumtheory.Zmod_div_mod; [apply Z.pow_pos_nonneg; lia|lia|]. exists (2 ^ (9 - len w)). rewrite <- Z.pow_add_r by lia. replace (9 - len w + len w) with 9 by lia. reflexivity. }
  assert (B := T3 (code_buffer a1 mod 512) (upto_in 512 _ (Z.mod_pos_bound _ 512 eq_refl))). cbv beta in B. rewrite M, Z.eqb_refl in B. apply Z.eqb_eq in B. rewrite B.
  destruct (Z.eqb_spec (len w * 512 + c) 0) as [X|_]; [lia|]. exists (shift (len w) a1). split; [|split; [exact S2|exact G3]]. do 2 f_equal; [|f_equal].
  - rewrite Z.add_comm, Z_mod_plus_full. apply Z.mod_small. lia.
  - rewrite Z.div_add_l by lia. rewrite (Z.div_small c) by lia. lia.
Qed.
Lemma tables : exists zl zd, zbuild_huffman zdefault_length = Ok zl /\ zbuild_huffman zdefault_distance = Ok zd /\
  decodes zl (fun c => 0 <= c <= 287) fixed_literal /\ decodes zd (fun c => 0 <= c <= 31) fixed_distance.
Proof.
  assert (G : match zbuild_huffman zdefault_length, zbuild_huffman zdefault_distance with Ok zl, Ok zd => table_ok zl fixed_literal 288 && table_ok zd fixed_distance 32 | _, _ => false end = true) by (vm_compute; reflexivity).
  destruct (zbuild_huffman zdefault_length) as [zl|]; [|discriminate G]. destruct (zbuild_huffman zdefault_distance) as [zd|]; [|discriminate G]. apply andb_true_iff in G. destruct G as [G1 G2]. exists zl, zd. split; [reflexivity|]. split; [reflexivity|].
  split; intros a c bits H A; [apply (table_decodes zl fixed_literal 288 G1)|apply (table_decodes zd fixed_distance 32 G2)]; try assumption; lia.
Qed.

(** * Tokens *)
Lemma copied : forall n back out t, (1 <= back <= List.length out)%nat -> List.length t = n ->
  (forall k, (k < n)%nat -> nth k t 0 = nth (List.length out + k - back) (out ++ t) 0) -> copy_bytes n back out = Ok (out ++ t).
Proof.
  induction n as [|n IH]; intros back out t B L H; [destruct t; [rewrite app_nil_r; reflexivity|discriminate L]|]. destruct t as [|b t]; [discriminate L|]. cbn [copy_bytes].
  assert (H0 := H 0%nat ltac:(lia)). cbn [nth] in H0. rewrite Nat.add_0_r, app_nth1 in H0 by lia. rewrite (nth_error_nth' out 0) by lia. rewrite <- H0. rewrite (IH back (out ++ [b]) t).
  - rewrite <- app_assoc. reflexivity.
  - rewrite app_length. cbn. lia.
  - injection L. auto.
  - intros k K. specialize (H (S k) ltac:(lia)). cbn [nth] in H. rewrite H, <- app_assoc, app_length. cbn [app List.length]. f_equal. lia.
Qed.
Lemma length_table : forall c, 257 <= c <= 285 -> nth (Z.to_nat (c - 257)) zlength_base 0 = fst (length_of c) /\ nth (Z.to_nat (c - 257)) zlength_extra 0 = Z.of_nat (snd (length_of c)) /\ (snd (length_of c) <= 16)%nat /\ 3 <= fst (length_of c).
Proof.
  intros c C. assert (G : forallb (fun i => let c := i + 257 in (nth (Z.to_nat i) zlength_base 0 =? fst (length_of c)) && (nth (Z.to_nat i) zlength_extra 0 =? Z.of_nat (snd (length_of c))) && (snd (length_of c) <=? 16)%nat && (3 <=? fst (length_of c))) (upto 29) = true) by (vm_compute; reflexivity).
  rewrite forallb_forall in G. specialize (G (c - 257) (upto_in 29 (c - 257) ltac:(lia))). cbv zeta in G. replace (c - 257 + 257) with c in G by lia. rewrite !andb_true_iff, !Z.eqb_eq, Nat.leb_le, Z.leb_le in G. tauto.
Qed.
Lemma distance_table : forall c, 0 <= c <= 29 -> nth (Z.to_nat c) zdist_base 0 = fst (distance_of c) /\ nth (Z.to_nat c) zdist_extra 0 = Z.of_nat (snd (distance_of c)) /\ (snd (distance_of c) <= 16)%nat /\ 1 <= fst (distance_of c).
Proof.
  intros c C. assert (G : forallb (fun c => (nth (Z.to_nat c) zdist_base 0 =? fst (distance_of c)) && (nth (Z.to_nat c) zdist_extra 0 =? Z.of_nat (snd (distance_of c))) && (snd (distance_of c) <=? 16)%nat && (1 <=? fst (distance_of c))) (upto 30) = true) by (vm_compute; reflexivity).
  rewrite forallb_forall in G. specialize (G c (upto_in 30 c ltac:(lia))). rewrite !andb_true_iff, !Z.eqb_eq, Nat.leb_le, Z.leb_le in G. tauto.
Qed.
Lemma extra_ok : forall a base extra i b e x bits, nth (Z.to_nat i) base 0 = b -> nth (Z.to_nat i) extra 0 = Z.of_nat e -> (e <= 16)%nat -> 0 <= x < 2 ^ Z.of_nat e -> at_bits a (field e x ++ bits) ->
  exists a', with_extra a base extra i = (b + x, a') /\ at_bits a' bits /\ written a' = written a.
Proof.
  intros a base extra i b e x bits B E E16 X A. unfold with_extra. cbv zeta. rewrite B, E. destruct (Z.eqb_spec (Z.of_nat e) 0) as [Z0|_].
  - assert (e = 0%nat) by lia. subst e. cbn in X. assert (x = 0) by lia. subst x. exists a. split; [f_equal; lia|]. split; [exact A|reflexivity].
  - destruct (received e a x bits A E16 X) as (a' & R1 & R2 & R3). rewrite R1. exists a'. split; [reflexivity|]. split; assumption.
Qed.
Lemma at_same : forall a a' bits, at_bits a bits -> input a' = input a -> num_bits a' = num_bits a -> code_buffer a' = code_buffer a -> at_bits a' bits.
Proof. intros a a' bits [N C I L P] E1 E2 E3. constructor; rewrite ?E1, ?E2, ?E3; assumption. Qed.
Lemma tokens_read : forall hl hd literal distance zl zd, decodes zl hl literal -> decodes zd hd distance -> (forall c, hl c -> literal c <> []) ->
  forall out bits after, tokens hl hd literal distance out bits after -> forall turns a rest, (List.length bits <= turns)%nat -> at_bits a (bits ++ rest) -> written a = out ->
  exists a', parse_huffman_block turns a zl zd = Ok a' /\ at_bits a' rest /\ written a' = after.
Proof.
  intros hl hd literal distance zl zd DL DD NE out bits after T. induction T as [out H|out b bits after B H T IH|out c x d y t bits after C HC X D HD Y n back BK LT CP T IH]; intros turns a rest TU A W.
  - assert (N := NE _ H). destruct turns as [|turns]; [destruct (literal 256); [contradiction|cbn in TU; lia]|]. cbn [parse_huffman_block]. destruct (DL a 256 rest H A) as (a' & E & A' & W'). rewrite E. cbn [bind]. change (256 <? 256) with false. change (256 =? 256) with true. cbv iota. exists a'. split; [reflexivity|]. split; [exact A'|congruence].
  - assert (N := NE _ H). rewrite app_length in TU. destruct turns as [|turns]; [destruct (literal b); [contradiction|cbn in TU; lia]|]. cbn [parse_huffman_block]. rewrite <- app_assoc in A. destruct (DL a b _ H A) as (a' & E & A' & W'). rewrite E. cbn [bind]. unfold byte in B. destruct (Z.ltb_spec b 256) as [_|X]; [|lia]. apply IH.
    + destruct (literal b); [contradiction|cbn in TU; lia].
    + eapply at_same; [exact A'|reflexivity|reflexivity|reflexivity].
    + cbn [write written]. congruence.
  - assert (N := NE _ HC). rewrite app_length in TU. destruct turns as [|turns]; [destruct (literal c); [contradiction|cbn in TU; lia]|]. cbn [parse_huffman_block]. rewrite <- !app_assoc in A.
    destruct (DL a c _ HC A) as (a1 & E1 & A1 & W1). rewrite E1. cbn [bind]. destruct (Z.ltb_spec c 256) as [Q|_]; [lia|]. destruct (Z.eqb_spec c 256) as [Q|_]; [lia|].
    destruct (length_table c C) as (LB & LE & L16 & L3). destruct (extra_ok a1 _ _ _ _ _ x _ LB LE L16 X A1) as (a2 & E2 & A2 & W2). rewrite E2.
    destruct (DD a2 d _ HD A2) as (a3 & E3 & A3 & W3). rewrite E3. cbn [bind]. destruct (distance_table d D) as (DB & DE & D16 & D1). destruct (extra_ok a3 _ _ _ _ _ y _ DB DE D16 Y A3) as (a4 & E4 & A4 & W4). rewrite E4.
    assert (WW : written a4 = out) by congruence. rewrite WW. destruct (Z.ltb_spec (Z.of_nat (List.length out)) (fst (distance_of d) + y)) as [Q|_]; [unfold back in BK; lia|].
    rewrite (copied _ _ out t) with (n := n) || (fold n; fold back; rewrite (copied n back out t ltac:(unfold back in *; lia) LT CP)). cbn [bind]. apply IH.
    + rewrite !app_length in TU. destruct (literal c); [contradiction|cbn in TU; lia].
    + eapply at_same; [exact A4|reflexivity|reflexivity|reflexivity].
    + reflexivity.
Qed.

(** * Stored blocks *)
Lemma whole_bytes : forall n bits, List.length bits = (8 * n)%nat -> exists l, Forall byte l /\ bits = bits_of l /\ List.length l = n.
Proof.
  induction n as [|n IH]; intros bits L; [exists []; destruct bits; [repeat split; constructor|discriminate L]|].
  destruct (IH (skipn 8 bits)) as (l & F & E & LL); [rewrite skipn_length; lia|]. exists (low (firstn 8 bits) :: l).
  assert (R := low_range (firstn 8 bits)). assert (L8 : List.length (firstn 8 bits) = 8%nat) by (rewrite firstn_length; lia). unfold len in R. rewrite L8 in R. change (2 ^ Z.of_nat 8) with 256 in R. split; [constructor; [exact R|exact F]|]. split; [|cbn; rewrite LL; reflexivity].
  unfold bits_of. cbn [flat_map]. fold (bits_of l). rewrite <- E. rewrite <- (firstn_skipn 8 bits) at 1. f_equal. apply low_inj; [rewrite field_length; exact L8|]. symmetry. apply low_field_small. exact R.
Qed.
Lemma drained : forall rounds k a l, (k <= rounds)%nat -> (k <= List.length l)%nat -> Forall byte l -> at_bits a (bits_of l) -> num_bits a = 8 * Z.of_nat k ->
  exists a', drain rounds a = (firstn k l, a') /\ num_bits a' = 0 /\ code_buffer a' = 0 /\ input a' = skipn k l /\ written a' = written a.
Proof.
  induction rounds as [|rounds IH]; intros k a l KR KL F A N; [assert (k = 0%nat) by lia; subst k|destruct k as [|k]].
  1, 2: (assert (G : code_buffer a = 0 /\ input a = l) by
    (destruct A as [_ C I L (pad & P0 & P1 & P2)]; rewrite N in *; change (8 * Z.of_nat 0) with 0 in *; change (2 ^ 0) with 1 in *; rewrite bits_length in P1; split; [lia|];
     assert (pad = 0) by (destruct P2 as [P2|P2]; [exact P2|rewrite P2 in P1; unfold len in P1; cbn [List.length] in P1; lia]); subst pad; apply bits_inj; [exact I|exact F|]; apply low_inj; [assert (X := bits_length (input a)); assert (Y := bits_length l); unfold len in *; lia|lia]);
    destruct G as [G1 G2]; exists a; cbn [drain]).
  - split; [reflexivity|]. rewrite N. split; [reflexivity|]. split; [exact G1|]. split; [exact G2|reflexivity].
  - rewrite N. change (0 <? 8 * Z.of_nat 0) with false. split; [reflexivity|]. split; [reflexivity|]. split; [exact G1|]. split; [exact G2|reflexivity].
  - destruct l as [|b l]; [cbn in KL; lia|]. inversion F as [|? ? B FL]; subst. cbn [drain]. destruct (Z.ltb_spec 0 (num_bits a)) as [_|Q]; [|lia].
    unfold bits_of in A. cbn [flat_map] in A. fold (bits_of l) in A. assert (L8 : len (field 8 b) = 8) by reflexivity. destruct (shifted a _ _ A ltac:(lia)) as [S1 S2]. rewrite L8 in S1, S2. change (2 ^ 8) with 256 in S1. rewrite (low_field_small 8 b B) in S1.
    destruct (IH k (shift 8 a) l ltac:(lia) ltac:(cbn in KL; lia) FL S2 ltac:(cbn [shift num_bits]; lia)) as (a' & E & G1 & G2 & G3 & G4). rewrite E, S1. exists a'. split; [reflexivity|]. split; [exact G1|]. split; [exact G2|]. split; [exact G3|exact G4].
Qed.
Lemma repeat_get : forall n l, (n <= List.length l)%nat -> Png.Model.repeatedly Png.Model.get8 n l = (firstn n l, skipn n l).
Proof. induction n as [|n IH]; intros l L; [reflexivity|]. destruct l as [|b l]; [cbn in L; lia|]. cbn [Png.Model.repeatedly Png.Model.get8]. rewrite IH by (cbn in L; lia). reflexivity. Qed.
Lemma complement : forall n, 0 <= n < 65536 -> Z.lxor n 65535 = 65535 - n.
Proof.
  intros n N. change 65535 with (Z.ones 16). rewrite Z.sub_nocarry_ldiff.
  - apply Z.bits_inj'. intros i I. rewrite Z.lxor_spec, Z.ldiff_spec. destruct (Z.testbit n i) eqn:B.
    + rewrite andb_false_r. destruct (Z.ltb_spec i 16) as [Q|Q]; [rewrite Z.ones_spec_low by lia; reflexivity|]. exfalso. rewrite <- (Z.mod_small n (2 ^ 16)) in B by exact N. rewrite Z.mod_pow2_bits_high in B by lia. discriminate B.
    + rewrite andb_true_r. apply xorb_false_l.
  - apply Z.ldiff_ones_r_low; [lia|]. destruct (Z.eq_dec n 0) as [->|NZ]; [cbn; lia|]. apply Z.log2_lt_pow2; [lia|exact (proj2 N)].
Qed.
Lemma two_bytes : forall x, 0 <= x < 65536 -> field 16 x = bits_of [x mod 256; x / 256].
Proof.
  intros x X. assert (B1 := Z.mod_pos_bound x 256 ltac:(lia)). assert (B2 : 0 <= x / 256 < 256) by (split; [apply Z.div_pos; lia|apply Z.div_lt_upper_bound; lia]). apply low_inj; [reflexivity|]. rewrite low_field_small by exact X. rewrite !low_bits_cons by assumption. change (low (bits_of [])) with 0. assert (D := Z.div_mod x 256 ltac:(lia)). lia.
Qed.
Lemma stored_read : forall a pad data rest, at_bits a (pad ++ field 16 (len data) ++ field 16 (65535 - len data) ++ bits_of data ++ rest) ->
  (List.length pad < 8)%nat -> (List.length rest mod 8 = 0)%nat -> len data < 65536 -> Forall byte data -> num_bits a <= 31 ->
  exists a', parse_uncompressed_block a = Ok a' /\ at_bits a' rest /\ written a' = written a ++ data.
Proof.
  intros a pad data rest A P R L F N31. assert (L0 := len_pos _ data). apply Nat.mod_divide in R; [|lia]. destruct R as [m R]. destruct (whole_bytes m rest ltac:(lia)) as (r & FR & -> & LR).
  rewrite !two_bytes in A by lia. rewrite <- !bits_app in A. set (h0 := len data mod 256) in *. set (h1 := len data / 256) in *. set (g0 := (65535 - len data) mod 256) in *. set (g1 := (65535 - len data) / 256) in *. set (l := [h0; h1] ++ [g0; g1] ++ data ++ r) in *.
  assert (B0 : byte h0) by (apply Z.mod_pos_bound; lia). assert (B1 : byte h1) by (split; [apply Z.div_pos; lia|apply Z.div_lt_upper_bound; lia]). assert (B2 : byte g0) by (apply Z.mod_pos_bound; lia). assert (B3 : byte g1) by (split; [apply Z.div_pos; lia|apply Z.div_lt_upper_bound; lia]).
  assert (FL : Forall byte l). { unfold l. repeat (constructor; [assumption|]). apply Forall_app. split; assumption. }
  unfold parse_uncompressed_block. set (a1 := if num_bits a mod 8 =? 0 then a else snd (zreceive a (num_bits a mod 8))).
  assert (G : at_bits a1 (bits_of l) /\ written a1 = written a /\ exists k, (k <= 3)%nat /\ num_bits a1 = 8 * Z.of_nat k).
  { assert (N := a_num _ _ A). destruct (a_pad _ _ A) as (q & Q0 & Q1 & Q2). rewrite len_app, bits_length in Q1.
    assert (M : num_bits a mod 8 = len pad). { replace (num_bits a) with (len pad + (len l + q - len (input a)) * 8) by lia. rewrite Z_mod_plus_full. apply Z.mod_small. unfold len. lia. }
    assert (DM := Z.div_mod (num_bits a) 8 ltac:(lia)). assert (DP : 0 <= num_bits a / 8 <= 3) by (split; [apply Z.div_pos; lia|apply Z.lt_succ_r, Z.div_lt_upper_bound; lia]).
    unfold a1. rewrite M. destruct (Z.eqb_spec (len pad) 0) as [Z0|NZ].
    - assert (pad = []) by (destruct pad; [reflexivity|unfold len in Z0; cbn in Z0; lia]). subst pad. split; [exact A|]. split; [reflexivity|]. exists (Z.to_nat (num_bits a / 8)). lia.
    - unfold zreceive. destruct (Z.ltb_spec (num_bits a) (len pad)) as [Q|_]; [assert (X := len_pos _ pad); assert (Y := Z.mod_le (num_bits a) 8 ltac:(lia) ltac:(lia)); lia|]. cbn [snd].
      assert (Y := Z.mod_le (num_bits a) 8 ltac:(lia) ltac:(lia)). destruct (shifted a pad _ A ltac:(lia)) as [_ S2]. split; [exact S2|]. split; [reflexivity|]. exists (Z.to_nat (num_bits a / 8)). cbn [shift num_bits]. lia. }
  destruct G as (G1 & G2 & k & K3 & KN). assert (LL : (4 <= List.length l)%nat) by (unfold l; cbn; lia). destruct (drained 4 k a1 l ltac:(lia) ltac:(lia) FL G1 KN) as (a2 & E & D1 & D2 & D3 & D4). rewrite E, D3. rewrite firstn_length, Nat.min_l by lia. rewrite repeat_get by (rewrite skipn_length; lia).
  assert (H4 : firstn k l ++ firstn (4 - k) (skipn k l) = [h0; h1; g0; g1] /\ skipn (4 - k) (skipn k l) = data ++ r).
  { unfold l. destruct k as [|[|[|[|k]]]]; [split; reflexivity| split; reflexivity|split; reflexivity|split; reflexivity|lia]. }
  destruct H4 as [H4 H5]. rewrite H4, H5. assert (E1 : h1 * 256 + h0 = len data) by (unfold h1, h0; assert (X := Z.div_mod (len data) 256 ltac:(lia)); lia). assert (E2 : g1 * 256 + g0 = 65535 - len data) by (unfold g1, g0; assert (X := Z.div_mod (65535 - len data) 256 ltac:(lia)); lia).
  cbv zeta. rewrite E1, E2, complement, Z.eqb_refl by lia. cbn [negb]. rewrite app_length. destruct (Z.ltb_spec (Z.of_nat (List.length data + List.length r)) (len data)) as [Q|_]; [unfold len in Q; lia|].
  assert (TN : Z.to_nat (len data) = List.length data) by (unfold len; lia). rewrite TN. eexists. split; [reflexivity|].
  rewrite firstn_app, skipn_app, firstn_all, skipn_all, Nat.sub_diag. cbn [firstn skipn app]. rewrite app_nil_r. split; [|cbn [written]; congruence].
  rewrite D1, D2. constructor; cbn [num_bits code_buffer input]; [lia|cbn; lia|exact FR|change (2 ^ 0) with 1; lia|]. exists 0. rewrite bits_length. split; [lia|]. split; [lia|left; reflexivity].
Qed.

(** * All blocks *)
Lemma fixed_some : forall c, fixed_literal c <> [].
Proof. intros c E. apply (f_equal (@List.length bool)) in E. unfold fixed_literal in E. destruct (c <=? 143), (c <=? 255), (c <=? 279); rewrite huffman_length in E; discriminate E. Qed.
Lemma received_small : forall n a x bits a', zreceive a (Z.of_nat n) = (x, a') -> at_bits a bits -> 0 < Z.of_nat n <= 8 -> num_bits a' <= 31.
Proof.
  intros n a x bits a' E A N. unfold zreceive in E. injection E as _ <-. cbn [shift num_bits]. destruct (Z.ltb_spec (num_bits a) (Z.of_nat n)) as [Q|Q]; [|assert (X := a_num _ _ A); lia]. destruct (filled a bits A ltac:(lia)) as (F & _). assert (X := a_num _ _ F). lia.
Qed.
Lemma block_read : forall out b after out', block out b after out' -> forall turns a rest, (List.length b <= turns)%nat -> List.length rest = after -> at_bits a (b ++ rest) -> written a = out -> num_bits a <= 31 ->
  exists a', (let (type, a) := zreceive a 2 in
    (if type =? 0 then parse_uncompressed_block a else if type =? 3 then Err IOError else if type =? 1 then
       let* z_length := zbuild_huffman zdefault_length in let* z_distance := zbuild_huffman zdefault_distance in parse_huffman_block turns a z_length z_distance
     else let* r := compute_huffman_codes a in let '(z_length, z_distance, a) := r in parse_huffman_block turns a z_length z_distance)) = Ok a' /\ at_bits a' rest /\ written a' = out'.
Proof.
  intros out b after out' B. destruct B as [out pad data after P R L F|out bits after out' T|out w cl lb ll dl bits after out' LL DL LW FW LC OR OC OL OD LB T]; intros turns a rest TU LR A W N.
  - rewrite <- !app_assoc in A. destruct (received 2 a 0 _ A ltac:(lia) ltac:(cbn; lia)) as (a1 & E1 & A1 & W1). assert (N1 := received_small 2 _ _ _ _ E1 A ltac:(lia)). change (Z.of_nat 2) with 2 in E1. rewrite E1. cbv iota. change (0 =? 0) with true. cbv iota.
    destruct (stored_read a1 pad data rest A1 P ltac:(rewrite LR; exact R) L F N1) as (a2 & E2 & A2 & W2). exists a2. split; [exact E2|]. split; [exact A2|congruence].
  - rewrite <- !app_assoc in A. destruct (received 2 a 1 _ A ltac:(lia) ltac:(cbn; lia)) as (a1 & E1 & A1 & W1). change (Z.of_nat 2) with 2 in E1. rewrite E1. cbv iota. change (1 =? 0) with false. change (1 =? 3) with false. change (1 =? 1) with true. cbv iota.
    destruct tables as (zl & zd & -> & -> & DL & DD). cbn [bind]. rewrite app_length in TU.
    apply (tokens_read _ _ _ _ zl zd DL DD (fun c _ => fixed_some c) _ _ _ T turns a1 rest); [lia|exact A1|congruence].
  - rewrite <- !app_assoc in A. destruct (received 2 a 2 _ A ltac:(lia) ltac:(cbn; lia)) as (a1 & E1 & A1 & W1). change (Z.of_nat 2) with 2 in E1. rewrite E1. cbv iota. change (2 =? 0) with false. change (2 =? 3) with false. change (2 =? 1) with false. cbv iota.
    destruct (codes_read w cl lb ll dl a1 (bits ++ rest) LL DL LW FW LC OR OC OL OD LB A1) as (zl & zd & a2 & E2 & D1 & D2 & NE & A2 & W2). rewrite E2. cbn [bind]. rewrite !app_length in TU.
    apply (tokens_read _ _ _ _ zl zd D1 D2 NE _ _ _ T turns a2 rest); [lia|exact A2|congruence].
Qed.
Lemma blocks_read : forall out bits out', blocks out bits out' -> forall turns a, (List.length bits < turns)%nat -> at_bits a bits -> written a = out ->
  exists a', parse_blocks turns a = Ok a' /\ written a' = out'.
Proof.
  intros out bits out' B. induction B as [out b rest out' B|out b rest mid out' B BS IH]; intros turns a TU A W; (destruct turns as [|turns]; [lia|]); cbn [List.length] in TU; rewrite app_length in TU; cbn [parse_blocks].
  - destruct (received 1 a 1 (b ++ rest) A ltac:(lia) ltac:(cbn; lia)) as (a1 & E1 & A1 & W1). assert (N1 := received_small 1 _ _ _ _ E1 A ltac:(lia)). change (Z.of_nat 1) with 1 in E1. rewrite E1. cbv iota.
    destruct (block_read _ _ _ _ B turns a1 rest ltac:(lia) eq_refl A1 ltac:(congruence) N1) as (a2 & E2 & A2 & W2). destruct (zreceive a1 2) as [ty a1']. rewrite E2. cbn [bind]. change (1 =? 0) with false. exists a2. split; [reflexivity|exact W2].
  - destruct (received 1 a 0 (b ++ rest) A ltac:(lia) ltac:(cbn; lia)) as (a1 & E1 & A1 & W1). assert (N1 := received_small 1 _ _ _ _ E1 A ltac:(lia)). change (Z.of_nat 1) with 1 in E1. rewrite E1. cbv iota.
    destruct (block_read _ _ _ _ B turns a1 rest ltac:(lia) eq_refl A1 ltac:(congruence) N1) as (a2 & E2 & A2 & W2). destruct (zreceive a1 2) as [ty a1']. rewrite E2. cbn [bind]. change (0 =? 0) with true. apply IH; [lia|exact A2|exact W2].
Qed.
Lemma inflated : forall s out, Forall byte s -> blocks [] (bits_of s) out -> inflate false s = Some out.
Proof.
  intros s out F B. unfold inflate, parse_zlib. cbn [bind]. assert (L := bits_length s). unfold len in L.
  destruct (blocks_read _ _ _ B (S (8 * List.length s)) (Zbuf s 0 0 []) ltac:(lia)) as (a & E & W); [|reflexivity|rewrite E; cbn [bind]; rewrite W; reflexivity].
  constructor; cbn [num_bits code_buffer input]; [lia|cbn; lia|exact F|change (2 ^ 0) with 1; lia|]. exists 0. rewrite bits_length. split; [lia|]. split; [lia|left; reflexivity].
Qed.
Lemma stream_inflated : forall s out, stream s out -> inflate true s = Some out.
Proof.
  intros s out (cmf & flg & body & -> & F & M & C & D & B). inversion F as [|? ? _ F1]; subst. inversion F1 as [|? ? _ F2]; subst. assert (I := inflated body out F2 B). unfold inflate, parse_zlib in *. unfold parse_zlib_header. cbn [Png.Model.get8]. rewrite M, C. change (0 =? 0) with true. change (8 =? 8) with true. cbn [negb].
  assert (T : Z.testbit flg 5 = false). { apply Z.testbit_false; [lia|]. exact D. }
  rewrite T. cbn [bind] in *. exact I.
Qed.
