(** Strings: what scan_string accepts, and what dump_escaped writes. *)
From Coq Require Import List Bool ZArith Ascii String Lia.
From Verif.Json Require Import Spec.
From Verif.Json Require Import Model.
From Verif.Json Require Strings Sound.
From Verif.Doc Require Import Model.
From Verif.Text Require Import Model Spec.
Import ListNotations.
Local Open Scope Z_scope.

Lemma code_char : forall z, 0 <= z < 256 -> code (ascii_of_nat (Z.to_nat z)) = z.
Proof. intros z Z. unfold code. rewrite nat_ascii_embedding by lia. lia. Qed.
Lemma char_code : forall c z, code c = z -> c = ascii_of_nat (Z.to_nat z).
Proof. intros c z <-. unfold code. rewrite Nat2Z.id, ascii_nat_embedding. reflexivity. Qed.
Lemma map_code : forall (s : text) l, map code s = l -> s = map (fun z => ascii_of_nat (Z.to_nat z)) l.
Proof. intros s l <-. induction s as [|c s IH]; [reflexivity|]. cbn. rewrite <- IH. f_equal. apply char_code. reflexivity. Qed.

Lemma get_codepoint_ok : forall h u, hex4 h u -> exists a b c d, h = [a; b; c; d] /\ get_codepoint a b c d = Some u /\ 0 <= u < 65536.
Proof.
  intros h u [a b c d w x y z A B C D]. exists a, b, c, d.
  destruct (Strings.hex_value_ok _ _ A) as [EA LA], (Strings.hex_value_ok _ _ B) as [EB LB], (Strings.hex_value_ok _ _ C) as [EC LC], (Strings.hex_value_ok _ _ D) as [ED LD].
  split; [reflexivity|]. unfold get_codepoint. rewrite EA, EB, EC, ED. rewrite !Z.shiftl_mul_pow2 by lia. split; [f_equal; lia|lia].
Qed.
Lemma get_codepoint_sound : forall a b c d u, get_codepoint a b c d = Some u -> hex4 [a; b; c; d] u /\ 0 <= u < 65536.
Proof.
  intros a b c d u H. apply Sound.quadhex_sound. unfold get_codepoint in H. unfold quadhex.
  destruct (hex_value a); [|discriminate]. destruct (hex_value b); [|discriminate]. destruct (hex_value c); [|discriminate]. destruct (hex_value d); [|discriminate].
  rewrite <- H. f_equal. rewrite !Z.shiftl_mul_pow2 by lia. lia.
Qed.
Lemma codepoint_bytes_ok : forall u, 0 <= u < 1114112 -> codepoint_bytes u = utf8 u.
Proof.
  intros u U. unfold codepoint_bytes, utf8, char.
  change 63 with (Z.ones 6). rewrite !Z.land_ones, !Z.shiftr_div_pow2 by lia.
  change (2 ^ 6) with 64. change (2 ^ 12) with 4096. change (2 ^ 18) with 262144.
  assert (L : forall x, 0 <= x < 64 -> Z.lor 128 x = 128 + x) by (intros x X; apply (Strings.lor_add x 2 6); lia).
  assert (M : forall x, 0 <= x < 64 -> Z.lor 192 x = 192 + x) by (intros x X; apply (Strings.lor_add x 3 6); lia).
  assert (N : forall x, 0 <= x < 32 -> Z.lor 224 x = 224 + x) by (intros x X; apply (Strings.lor_add x 7 5); lia).
  assert (O : forall x, 0 <= x < 16 -> Z.lor 240 x = 240 + x) by (intros x X; apply (Strings.lor_add x 15 4); lia).
  destruct (Z.ltb_spec u 128); [reflexivity|].
  destruct (Z.leb_spec u 2047), (Z.ltb_spec u 2048); try lia; [rewrite M, L by (Z.to_euclidean_division_equations; lia); reflexivity|].
  destruct (Z.leb_spec u 65535), (Z.ltb_spec u 65536); try lia.
  - rewrite N, !L by (Z.to_euclidean_division_equations; lia). reflexivity.
  - rewrite O, !L by (Z.to_euclidean_division_equations; lia). reflexivity.
Qed.
Lemma unescape_same : forall c, unescape c = Json.Model.unescape c.
Proof. reflexivity. Qed.

(** * Raw characters *)
Definition tail_ok (c : ascii) (bs : text) : Prop :=
  exists rs, following c = Some rs /\ Forall2 (fun r b => within r b = true) rs bs.
Lemma within_iff : forall r b, within r b = true <-> fst r <= code b <= snd r.
Proof. intros r b. unfold within. rewrite andb_true_iff, !Z.leb_le. reflexivity. Qed.
Ltac cases := repeat (match goal with
  | |- context [?a <? ?b] => destruct (Z.ltb_spec a b)
  | |- context [?a <=? ?b] => destruct (Z.leb_spec a b)
  | |- context [?a =? ?b] => destruct (Z.eqb_spec a b)
  end; cbn [andb orb]; try (exfalso; lia)).
Notation any := (128, 191).
Lemma following_ok : forall c,
  (code c < 128 -> following c = Some []) /\ (194 <= code c <= 223 -> following c = Some [any]) /\
  (code c = 224 -> following c = Some [(160, 191); any]) /\ (225 <= code c <= 236 \/ 238 <= code c <= 239 -> following c = Some [any; any]) /\
  (code c = 237 -> following c = Some [(128, 159); any]) /\ (code c = 240 -> following c = Some [(144, 191); any; any]) /\
  (241 <= code c <= 243 -> following c = Some [any; any; any]) /\ (code c = 244 -> following c = Some [(128, 143); any; any]).
Proof. intros c. unfold following. repeat split; intros H; cases; reflexivity. Qed.
Lemma following_inv : forall c rs, following c = Some rs ->
  code c < 128 /\ rs = [] \/ 194 <= code c <= 223 /\ rs = [any] \/ code c = 224 /\ rs = [(160, 191); any] \/
  (225 <= code c <= 236 \/ 238 <= code c <= 239) /\ rs = [any; any] \/ code c = 237 /\ rs = [(128, 159); any] \/
  code c = 240 /\ rs = [(144, 191); any; any] \/ 241 <= code c <= 243 /\ rs = [any; any; any] \/ code c = 244 /\ rs = [(128, 143); any; any].
Proof. intros c rs. unfold following. cases; intros F; inversion F; clear F; lia || (split; [lia|reflexivity]) || intuition (try lia; auto). Qed.
Lemma utf8_tail : forall u, scalar u -> exists c bs, utf8 u = c :: bs /\ tail_ok c bs /\
  (u < 128 /\ code c = u /\ bs = [] \/ 128 <= u /\ 194 <= code c).
Proof.
  intros u [U S]. unfold utf8.
  assert (M : forall x, 128 <= 128 + x mod 64 <= 191) by (intros x; assert (H := Z.mod_pos_bound x 64); lia).
  assert (CM : forall x, code (ascii_of_nat (Z.to_nat (128 + x mod 64))) = 128 + x mod 64) by (intros x; specialize (M x); apply code_char; lia).
  assert (W : forall a b x, a <= 128 + x mod 64 <= b -> within (a, b) (ascii_of_nat (Z.to_nat (128 + x mod 64))) = true) by (intros a b x H; apply within_iff; rewrite CM; exact H).
  destruct (Z.ltb_spec u 128) as [L1|L1]; [|destruct (Z.ltb_spec u 2048) as [L2|L2]; [|destruct (Z.ltb_spec u 65536) as [L3|L3]]]; cbn [map];
    eexists _, _; (split; [reflexivity|]).
  - rewrite code_char by lia. split; [|left; repeat split; lia]. exists []. split; [|constructor]. apply following_ok. rewrite code_char; lia.
  - assert (A : 194 <= 192 + u / 64 <= 223) by (clear - U L1 L2; Z.to_euclidean_division_equations; lia).
    assert (C : code (ascii_of_nat (Z.to_nat (192 + u / 64))) = 192 + u / 64) by (apply code_char; lia).
    rewrite C. split; [|right; lia]. exists [any]. split; [apply following_ok; lia|]. repeat constructor. apply W, M.
  - assert (A : 224 <= 224 + u / 4096 <= 239) by (clear - U L2 L3; Z.to_euclidean_division_equations; lia).
    assert (C : code (ascii_of_nat (Z.to_nat (224 + u / 4096))) = 224 + u / 4096) by (apply code_char; lia).
    rewrite C. split; [|right; lia]. unfold tail_ok.
    assert (D : u / 4096 = 0 /\ 32 <= u / 64 mod 64 \/ u / 4096 = 13 /\ u / 64 mod 64 < 32 \/ u / 4096 <> 0 /\ u / 4096 <> 13).
    { clear - U S L2 L3. Z.to_euclidean_division_equations; lia. }
    destruct D as [[D E]|[[D E]|[D E]]].
    + exists [(160, 191); any]. split; [apply following_ok; lia|]. repeat constructor; apply W; [specialize (M (u / 64)); lia|apply M].
    + exists [(128, 159); any]. split; [apply following_ok; lia|]. repeat constructor; apply W; [specialize (M (u / 64)); lia|apply M].
    + exists [any; any]. split; [apply following_ok; lia|]. repeat constructor; apply W, M.
  - assert (A : 240 <= 240 + u / 262144 <= 244) by (clear - U L3; Z.to_euclidean_division_equations; lia).
    assert (C : code (ascii_of_nat (Z.to_nat (240 + u / 262144))) = 240 + u / 262144) by (apply code_char; lia).
    rewrite C. split; [|right; lia]. unfold tail_ok.
    assert (D : u / 262144 = 0 /\ 16 <= u / 4096 mod 64 \/ u / 262144 = 4 /\ u / 4096 mod 64 < 16 \/ u / 262144 <> 0 /\ u / 262144 <> 4).
    { clear - U L3. Z.to_euclidean_division_equations; lia. }
    destruct D as [[D E]|[[D E]|[D E]]].
    + exists [(144, 191); any; any]. split; [apply following_ok; lia|]. repeat constructor; apply W; try apply M; specialize (M (u / 4096)); lia.
    + exists [(128, 143); any; any]. split; [apply following_ok; lia|]. repeat constructor; apply W; try apply M; specialize (M (u / 4096)); lia.
    + exists [any; any; any]. split; [apply following_ok; lia|]. repeat constructor; apply W, M.
Qed.
Lemma tail_utf8 : forall c bs, tail_ok c bs -> exists u, scalar u /\ utf8 u = c :: bs /\ (code c < 128 -> u = code c) /\ (128 <= code c -> 128 <= u).
Proof.
  intros c bs (rs & F & W). assert (R := Strings.code_range c). apply following_inv in F.
  assert (K : forall u l, scalar u -> map code (c :: bs) = l -> utf8 u = map (fun z => ascii_of_nat (Z.to_nat z)) l -> (code c < 128 -> u = code c) -> (128 <= code c -> 128 <= u) ->
    exists u, scalar u /\ utf8 u = c :: bs /\ (code c < 128 -> u = code c) /\ (128 <= code c -> 128 <= u)).
  { intros u l S E U A B. exists u. split; [exact S|]. split; [rewrite U; symmetry; apply map_code, E|]. split; assumption. }
  assert (K2 : forall b1, 194 <= code c <= 223 -> 128 <= code b1 <= 191 -> bs = [b1] -> exists u, scalar u /\ utf8 u = c :: bs /\ (code c < 128 -> u = code c) /\ (128 <= code c -> 128 <= u)).
  { intros b1 C B ->. set (u := (code c - 192) * 64 + (code b1 - 128)). apply (K u (map code [c; b1])); [unfold scalar, u; lia|reflexivity| |unfold u; lia|unfold u; lia].
    assert (E1 : u / 64 = code c - 192) by (unfold u; Z.to_euclidean_division_equations; lia). assert (E2 : u mod 64 = code b1 - 128) by (unfold u; Z.to_euclidean_division_equations; lia).
    unfold utf8. destruct (Z.ltb_spec u 128); [unfold u in *; lia|]. destruct (Z.ltb_spec u 2048); [|unfold u in *; lia]. rewrite E1, E2. cbn [map].
    replace (192 + (code c - 192)) with (code c) by lia. replace (128 + (code b1 - 128)) with (code b1) by lia. reflexivity. }
  assert (K3 : forall b1 b2, 224 <= code c <= 239 -> 128 <= code b1 <= 191 -> 128 <= code b2 <= 191 -> (code c = 224 -> 160 <= code b1) -> (code c = 237 -> code b1 <= 159) -> bs = [b1; b2] ->
    exists u, scalar u /\ utf8 u = c :: bs /\ (code c < 128 -> u = code c) /\ (128 <= code c -> 128 <= u)).
  { intros b1 b2 C B1 B2 X1 X2 ->. set (u := (code c - 224) * 4096 + (code b1 - 128) * 64 + (code b2 - 128)).
    assert (U : 2048 <= u < 65536 /\ ~ 55296 <= u <= 57343).
    { unfold u. destruct (Z.eq_dec (code c) 224); [lia|]. destruct (Z.eq_dec (code c) 237); lia. }
    apply (K u (map code [c; b1; b2])); [unfold scalar; lia|reflexivity| |lia|lia].
    assert (E1 : u / 4096 = code c - 224) by (unfold u; Z.to_euclidean_division_equations; lia). assert (E2 : u / 64 mod 64 = code b1 - 128) by (unfold u; Z.to_euclidean_division_equations; lia). assert (E3 : u mod 64 = code b2 - 128) by (unfold u; Z.to_euclidean_division_equations; lia).
    unfold utf8. destruct (Z.ltb_spec u 128); [lia|]. destruct (Z.ltb_spec u 2048); [lia|]. destruct (Z.ltb_spec u 65536); [|lia]. rewrite E1, E2, E3. cbn [map].
    replace (224 + (code c - 224)) with (code c) by lia. replace (128 + (code b1 - 128)) with (code b1) by lia. replace (128 + (code b2 - 128)) with (code b2) by lia. reflexivity. }
  assert (K4 : forall b1 b2 b3, 240 <= code c <= 244 -> 128 <= code b1 <= 191 -> 128 <= code b2 <= 191 -> 128 <= code b3 <= 191 -> (code c = 240 -> 144 <= code b1) -> (code c = 244 -> code b1 <= 143) -> bs = [b1; b2; b3] ->
    exists u, scalar u /\ utf8 u = c :: bs /\ (code c < 128 -> u = code c) /\ (128 <= code c -> 128 <= u)).
  { intros b1 b2 b3 C B1 B2 B3 X1 X2 ->. set (u := (code c - 240) * 262144 + (code b1 - 128) * 4096 + (code b2 - 128) * 64 + (code b3 - 128)).
    assert (U : 65536 <= u < 1114112).
    { unfold u. destruct (Z.eq_dec (code c) 240); [lia|]. destruct (Z.eq_dec (code c) 244); lia. }
    apply (K u (map code [c; b1; b2; b3])); [unfold scalar; lia|reflexivity| |lia|lia].
    assert (E1 : u / 262144 = code c - 240) by (unfold u; Z.to_euclidean_division_equations; lia). assert (E2 : u / 4096 mod 64 = code b1 - 128) by (unfold u; Z.to_euclidean_division_equations; lia).
    assert (E3 : u / 64 mod 64 = code b2 - 128) by (unfold u; Z.to_euclidean_division_equations; lia). assert (E4 : u mod 64 = code b3 - 128) by (unfold u; Z.to_euclidean_division_equations; lia).
    unfold utf8. destruct (Z.ltb_spec u 128); [lia|]. destruct (Z.ltb_spec u 2048); [lia|]. destruct (Z.ltb_spec u 65536); [lia|]. rewrite E1, E2, E3, E4. cbn [map].
    replace (240 + (code c - 240)) with (code c) by lia. replace (128 + (code b1 - 128)) with (code b1) by lia. replace (128 + (code b2 - 128)) with (code b2) by lia. replace (128 + (code b3 - 128)) with (code b3) by lia. reflexivity. }
  destruct F as [[Z ->]|[[Z ->]|[[Z ->]|[[Z ->]|[[Z ->]|[[Z ->]|[[Z ->]|[Z ->]]]]]]]];
    repeat match goal with H : Forall2 _ (_ :: _) _ |- _ => inversion H; clear H; subst | H : Forall2 _ [] _ |- _ => inversion H; clear H; subst end;
    repeat match goal with H : within _ _ = true |- _ => apply within_iff in H; cbn [fst snd] in H end;
    try (eapply K2; [..|reflexivity]; lia); try (eapply K3; [..|reflexivity]; lia); try (eapply K4; [..|reflexivity]; lia).
  apply (K (code c) [code c]); [unfold scalar; lia|reflexivity| |lia|lia]. unfold utf8. destruct (Z.ltb_spec (code c) 128); [reflexivity|lia].
Qed.

(** One step of scan_string at a raw character. *)
Lemma scan_raw : forall c bs out s, tail_ok c bs -> 32 <= code c -> code c <> 34 -> code c <> 92 ->
  scan_string out ((c :: bs) ++ s) = scan_string (out ++ c :: bs) s.
Proof.
  intros c bs out s (rs & F & W) A B C. cbn [app scan_string].
  destruct (Ascii.eqb_spec c """") as [->|_]; [exfalso; apply B; reflexivity|]. destruct (Ascii.eqb_spec c "\") as [->|_]; [exfalso; apply C; reflexivity|].
  destruct (Z.ltb_spec (code c) 32); [lia|]. rewrite F.
  destruct W as [|r1 b1 rs bs W1 W]; [reflexivity|]. destruct W as [|r2 b2 rs bs W2 W]; cbn [app]; [rewrite W1; reflexivity|].
  destruct W as [|r3 b3 rs bs W3 W]; cbn [app]; [rewrite W1, W2; reflexivity|]. destruct W as [|r4 b4 rs bs W4 W]; cbn [app]; [rewrite W1, W2, W3; reflexivity|].
  exfalso. apply following_inv in F. destruct F as [[_ F]|[[_ F]|[[_ F]|[[_ F]|[[_ F]|[[_ F]|[[_ F]|[_ F]]]]]]]]; discriminate F.
Qed.

Lemma scan_uni : forall out a b c d s, scan_string out (lit "\u" ++ [a; b; c; d] ++ s) =
  match get_codepoint a b c d with
  | None => None
  | Some u =>
      if (55296 <=? u) && (u <=? 56319) then
        match s with
        | b :: v :: g1 :: g2 :: g3 :: g4 :: s =>
            if Ascii.eqb b "\" && Ascii.eqb v "u" then
              match get_codepoint g1 g2 g3 g4 with
              | Some u2 =>
                  if (56320 <=? u2) && (u2 <=? 57343) then scan_string (out ++ codepoint_bytes (Z.shiftl u 10 + u2 - 56613888)) s else None
              | None => None
              end
            else None
        | _ => None
        end
      else if (56320 <=? u) && (u <=? 57343) then None
      else scan_string (out ++ codepoint_bytes u) s
  end.
Proof. reflexivity. Qed.

Lemma scan_chars : forall s t, chars s t -> forall out rest, scan_string out (s ++ lit """" ++ rest) = Some (out ++ t, rest).
Proof.
  intros s t C. induction C as [|u s t S A B C K IH|e b s t E C IH|h u s t H S C IH|h u g w s t H G S W C IH]; intros out rest.
  - cbn. rewrite app_nil_r. reflexivity.
  - destruct (utf8_tail u S) as (c & bs & E & T & R). rewrite E, <- app_assoc. rewrite scan_raw; [rewrite IH, <- app_assoc; reflexivity|exact T| | |]; lia.
  - cbn [app scan_string]. cbn [Ascii.eqb Bool.eqb]. cbv iota.
    rewrite unescape_same, (Strings.unescape_ok e b E), IH, <- app_assoc. reflexivity.
  - destruct (get_codepoint_ok h u H) as (a & b & c & d & -> & Q & U). rewrite <- !app_assoc, scan_uni, Q.
    assert (X : (55296 <=? u) && (u <=? 56319) = false) by (apply not_true_iff_false; intros X; apply andb_prop in X; destruct X as [X Y]; apply Z.leb_le in X, Y; lia).
    assert (Y : (56320 <=? u) && (u <=? 57343) = false) by (apply not_true_iff_false; intros Y; apply andb_prop in Y; destruct Y as [Y Z]; apply Z.leb_le in Y, Z; lia).
    rewrite X, Y, IH, <- app_assoc, codepoint_bytes_ok by lia. reflexivity.
  - destruct (get_codepoint_ok h u H) as (a & b & c & d & -> & Q & U). destruct (get_codepoint_ok g w G) as (a' & b' & c' & d' & -> & Q' & U').
    rewrite <- !app_assoc, scan_uni, Q. set (x := s ++ lit """" ++ rest) in *.
    change (lit "\u" ++ [a'; b'; c'; d'] ++ x) with ("\"%char :: "u"%char :: a' :: b' :: c' :: d' :: x).
    destruct (Z.leb_spec 55296 u); [|lia]. destruct (Z.leb_spec u 56319); [|lia]. cbn [andb Ascii.eqb Bool.eqb]. rewrite Q'. destruct (Z.leb_spec 56320 w); [|lia]. destruct (Z.leb_spec w 57343); [|lia]. cbn [andb].
    assert (X : Z.shiftl u 10 + w - 56613888 = 65536 + 1024 * (u - 55296) + (w - 56320)) by (rewrite Z.shiftl_mul_pow2 by lia; change (2 ^ 10) with 1024; lia).
    rewrite X. unfold x. rewrite IH, <- app_assoc, codepoint_bytes_ok by lia. reflexivity.
Qed.

Lemma string_sound : forall n s out t rest, (List.length s <= n)%nat -> scan_string out s = Some (t, rest) ->
  exists cs u, s = cs ++ lit """" ++ rest /\ chars cs u /\ t = out ++ u.
Proof.
  induction n as [|n IH]; intros s out t rest L H.
  { destruct s; [discriminate|cbn in L; lia]. }
  destruct s as [|c s]; [discriminate|]. cbn [List.length] in L. cbn [scan_string] in H.
  destruct (Ascii.eqb_spec c """") as [->|N1].
  { injection H as <- <-. exists [], []. split; [reflexivity|]. split; [constructor|rewrite app_nil_r; reflexivity]. }
  destruct (Ascii.eqb_spec c "\") as [->|N2].
  - destruct s as [|e s]; [discriminate|]. cbn [List.length] in L. destruct (unescape e) as [b|] eqn:UE.
    + apply Sound.unescape_sound in UE. destruct UE as (k & I & ->). apply IH in H; [|lia]. destruct H as (cs & u & -> & C & ->).
      exists ("\"%char :: e :: cs), (ascii_of_nat k :: u). split; [reflexivity|]. split; [apply c_esc; assumption|rewrite <- app_assoc; reflexivity].
    + destruct (Ascii.eqb_spec e "u") as [->|]; [|discriminate].
      destruct s as [|h1 [|h2 [|h3 [|h4 s]]]]; try discriminate. cbn [List.length] in L.
      destruct (get_codepoint h1 h2 h3 h4) as [u|] eqn:QH; [|discriminate]. apply get_codepoint_sound in QH. destruct QH as [H4 HR].
      destruct ((55296 <=? u) && (u <=? 56319)) eqn:S1.
      * apply andb_prop in S1. destruct S1 as [S1 S2]. apply Z.leb_le in S1, S2.
        destruct s as [|b [|v [|g1 [|g2 [|g3 [|g4 s]]]]]]; try discriminate. cbn [List.length] in L.
        destruct (Ascii.eqb_spec b "\") as [->|]; [|discriminate]. destruct (Ascii.eqb_spec v "u") as [->|]; [|discriminate]. cbn [andb] in H.
        destruct (get_codepoint g1 g2 g3 g4) as [u2|] eqn:QG; [|discriminate]. apply get_codepoint_sound in QG. destruct QG as [G4 GR].
        destruct (Z.leb_spec 56320 u2) as [T1|]; [|discriminate]. destruct (Z.leb_spec u2 57343) as [T2|]; [|discriminate]. cbn [andb] in H.
        apply IH in H; [|lia]. destruct H as (cs & w & -> & C & ->).
        exists (lit "\u" ++ [h1; h2; h3; h4] ++ lit "\u" ++ [g1; g2; g3; g4] ++ cs), (utf8 (65536 + 1024 * (u - 55296) + (u2 - 56320)) ++ w).
        split; [reflexivity|]. split; [apply c_pair; try assumption; lia|].
        assert (E : Z.shiftl u 10 + u2 - 56613888 = 65536 + 1024 * (u - 55296) + (u2 - 56320)) by (rewrite Z.shiftl_mul_pow2 by lia; change (2 ^ 10) with 1024; lia).
        rewrite E, codepoint_bytes_ok by lia. rewrite <- app_assoc. reflexivity.
      * destruct ((56320 <=? u) && (u <=? 57343)) eqn:S2; [discriminate|].
        assert (X : ~ 55296 <= u <= 57343).
        { intros X. apply andb_false_iff in S1, S2. rewrite !Z.leb_gt in S1, S2. lia. }
        apply IH in H; [|lia]. destruct H as (cs & w & -> & C & ->).
        exists (lit "\u" ++ [h1; h2; h3; h4] ++ cs), (utf8 u ++ w). split; [reflexivity|]. split; [apply c_uni; [exact H4|exact X|exact C]|].
        rewrite codepoint_bytes_ok by lia. rewrite <- app_assoc. reflexivity.
  - destruct (Z.ltb_spec (code c) 32) as [|LC]; [discriminate|].
    assert (K : forall bs s', s = bs ++ s' -> tail_ok c bs -> scan_string (out ++ c :: bs) s' = Some (t, rest) ->
      exists cs u, c :: s = cs ++ lit """" ++ rest /\ chars cs u /\ t = out ++ u).
    { intros bs s' -> T Q. apply IH in Q; [|rewrite app_length in L; lia]. destruct Q as (cs & w & -> & C & ->).
      destruct (tail_utf8 c bs T) as (u & S & E & U1 & U2). exists (utf8 u ++ cs), (utf8 u ++ w).
      split; [rewrite E; cbn [app]; rewrite <- app_assoc; reflexivity|]. split; [|rewrite E, <- app_assoc; reflexivity].
      assert (code c <> 34) by (intros X; apply N1, Strings.code_inj; exact X). assert (code c <> 92) by (intros X; apply N2, Strings.code_inj; exact X).
      destruct (Z_lt_le_dec (code c) 128) as [Y|Y]; [specialize (U1 Y)|specialize (U2 Y)]; apply c_raw; assumption || lia. }
    destruct (following c) as [[|r1 [|r2 [|r3 [|r4 rs]]]]|] eqn:F; try discriminate.
    + apply (K [] s); [reflexivity| |exact H]. exists []. split; [exact F|constructor].
    + destruct s as [|b1 s]; [discriminate|]. destruct (within r1 b1) eqn:W1; [|discriminate]. apply (K [b1] s); [reflexivity| |exact H]. exists [r1]. split; [exact F|repeat constructor; assumption].
    + destruct s as [|b1 [|b2 s]]; try discriminate. destruct (within r1 b1) eqn:W1; [|discriminate]. destruct (within r2 b2) eqn:W2; [|discriminate].
      apply (K [b1; b2] s); [reflexivity| |exact H]. exists [r1; r2]. split; [exact F|repeat constructor; assumption].
    + destruct s as [|b1 [|b2 [|b3 s]]]; try discriminate. destruct (within r1 b1) eqn:W1; [|discriminate]. destruct (within r2 b2) eqn:W2; [|discriminate]. destruct (within r3 b3) eqn:W3; [|discriminate].
      apply (K [b1; b2; b3] s); [reflexivity| |exact H]. exists [r1; r2; r3]. split; [exact F|repeat constructor; assumption].
Qed.

(** * Writing *)
Lemma escape_utf8 : forall u s t, scalar u -> chars s t -> chars (flat_map escape (utf8 u) ++ s) (utf8 u ++ t).
Proof.
  intros u s t S C. destruct (utf8_tail u S) as (c & bs & E & T & R).
  assert (PL : forall d, 93 <= code d -> escape d = [d]).
  { intros d D. unfold escape. cases. reflexivity. }
  destruct R as [(U & CU & ->)|(U & CU)].
  - rewrite E. cbn [flat_map]. rewrite app_nil_r.
    assert (EC : escape c = [c] /\ 32 <= u /\ u <> 34 /\ u <> 92 \/
      (exists e b, In (e, b) escapes /\ escape c = ["\"%char; e] /\ c = ascii_of_nat b) \/
      (exists h, escape c = lit "\u" ++ h /\ hex4 h u)).
    { assert (K : forall z, code c = z -> c = ascii_of_nat (Z.to_nat z)) by (intros z Z; apply char_code, Z).
      unfold escape. rewrite CU.
      destruct (Z.eqb_spec u 34) as [X|N1]; [right; left; eexists; eexists; repeat split; [left; reflexivity|rewrite X in CU; exact (K _ CU)]|].
      destruct (Z.eqb_spec u 92) as [X|N2]; [right; left; eexists; eexists; repeat split; [right; left; reflexivity|rewrite X in CU; exact (K _ CU)]|].
      destruct (Z.eqb_spec u 8) as [X|_]; [right; left; eexists; eexists; repeat split; [do 3 right; left; reflexivity|rewrite X in CU; exact (K _ CU)]|].
      destruct (Z.eqb_spec u 12) as [X|_]; [right; left; eexists; eexists; repeat split; [do 4 right; left; reflexivity|rewrite X in CU; exact (K _ CU)]|].
      destruct (Z.eqb_spec u 10) as [X|_]; [right; left; eexists; eexists; repeat split; [do 5 right; left; reflexivity|rewrite X in CU; exact (K _ CU)]|].
      destruct (Z.eqb_spec u 13) as [X|_]; [right; left; eexists; eexists; repeat split; [do 6 right; left; reflexivity|rewrite X in CU; exact (K _ CU)]|].
      destruct (Z.eqb_spec u 9) as [X|_]; [right; left; eexists; eexists; repeat split; [do 7 right; left; reflexivity|rewrite X in CU; exact (K _ CU)]|].
      destruct (Z.ltb_spec u 32) as [X|X]; [|left; repeat split; assumption].
      right. right. eexists. split; [reflexivity|]. destruct S as [[U0 _] _].
      assert (HD : forall z, 0 <= z < 16 -> hexdigit (hex_char z) (Z.to_nat z)).
      { intros z Z. rewrite <- (Z2Nat.id z) at 1 by lia. assert (LZ : (Z.to_nat z < 16)%nat) by lia. generalize dependent (Z.to_nat z). clear.
        intros n L. left. do 16 (destruct n as [|n]; [reflexivity|]). lia. }
      change 15 with (Z.ones 4). rewrite !Z.land_ones, !Z.shiftr_div_pow2 by lia. change (2 ^ 4) with 16. change (2 ^ 8) with 256. change (2 ^ 12) with 4096.
      set (d1 := u / 4096 mod 16). set (d2 := u / 256 mod 16). set (d3 := u / 16 mod 16). set (d4 := u mod 16).
      assert (B : 0 <= d1 < 16 /\ 0 <= d2 < 16 /\ 0 <= d3 < 16 /\ 0 <= d4 < 16) by (unfold d1, d2, d3, d4; repeat split; apply Z.mod_pos_bound; lia).
      replace u with (4096 * Z.of_nat (Z.to_nat d1) + 256 * Z.of_nat (Z.to_nat d2) + 16 * Z.of_nat (Z.to_nat d3) + Z.of_nat (Z.to_nat d4)).
      - constructor; apply HD; lia.
      - rewrite !Z2Nat.id by lia. unfold d1, d2, d3, d4. Z.to_euclidean_division_equations; lia. }
    destruct EC as [(EC & A & B & D)|[(e & b & I & EC & B)|(h & EC & H)]]; rewrite EC.
    + change [c] with (c :: []). rewrite <- E. apply c_raw; assumption.
    + rewrite B. apply (c_esc e b s t I C).
    + rewrite <- app_assoc. change [c] with (c :: []). rewrite <- E. apply c_uni; [exact H|lia|exact C].
  - assert (X : flat_map escape (utf8 u) = utf8 u).
    { assert (F : Forall (fun d => 93 <= code d) (utf8 u)).
      { unfold utf8. destruct (Z.ltb_spec u 128); [lia|]. destruct S as [[U0 U1] _].
        destruct (Z.ltb_spec u 2048); [|destruct (Z.ltb_spec u 65536)]; cbn [map]; repeat constructor; rewrite code_char; Z.to_euclidean_division_equations; lia. }
      clear E. induction F as [|d l D F IH]; [reflexivity|]. cbn [flat_map]. rewrite IH, (PL d D). reflexivity. }
    rewrite X. apply c_raw; [exact S|lia|lia|lia|exact C].
Qed.
Lemma escape_valid : forall s, valid_utf8 s -> chars (flat_map escape s) s.
Proof.
  intros s (us & F & ->). induction F as [|u us S F IH]; [constructor|]. cbn [flat_map]. rewrite flat_map_app. apply escape_utf8; [exact S|exact IH].
Qed.
(** The string between the quotation marks is read as it was, or not at all. *)
Lemma utf8_ascii : forall u, 0 <= u < 128 -> utf8 u = [ascii_of_nat (Z.to_nat u)].
Proof. intros u U. unfold utf8. destruct (Z.ltb_spec u 128); [reflexivity|lia]. Qed.
Lemma chars_valid : forall s t, chars s t -> valid_utf8 t.
Proof.
  assert (CO : forall u t, scalar u -> valid_utf8 t -> valid_utf8 (utf8 u ++ t)).
  { intros u t S (us & F & ->). exists (u :: us). split; [constructor; assumption|reflexivity]. }
  intros s t C. induction C as [|u s t S A B C K IH|e b s t E C IH|h u s t H S C IH|h u g w s t H G S W C IH].
  - exists []. split; [constructor|reflexivity].
  - apply CO; assumption.
  - assert (B : (b < 128)%nat) by (cbn in E; repeat (destruct E as [E|E]; [injection E as _ <-; repeat constructor|]); destruct E).
    change (ascii_of_nat b :: t) with ([ascii_of_nat b] ++ t). replace [ascii_of_nat b] with (utf8 (Z.of_nat b)); [apply CO; [unfold scalar; lia|exact IH]|].
    rewrite utf8_ascii by lia. rewrite Nat2Z.id. reflexivity.
  - destruct (get_codepoint_ok h u H) as (_ & _ & _ & _ & _ & _ & U). apply CO; [unfold scalar; lia|exact IH].
  - apply CO; [unfold scalar; lia|exact IH].
Qed.

(** Only valid UTF-8 is read again. *)
Lemma escape_low : forall c, code c < 128 -> exists d x, escape c = d :: x /\ code d < 128.
Proof.
  intros c C. unfold escape.
  repeat match goal with |- context [if ?b then _ else _] => destruct b end; eexists _, _; (split; [reflexivity|]); reflexivity || exact C.
Qed.
Lemma escape_high : forall c, 128 <= code c -> escape c = [c].
Proof. intros c C. unfold escape. cases. reflexivity. Qed.
Lemma high_head : forall s rest b x, flat_map escape s ++ lit """" ++ rest = b :: x -> 128 <= code b ->
  exists s', s = b :: s' /\ x = flat_map escape s' ++ lit """" ++ rest.
Proof.
  intros [|c s] rest b x E B.
  - injection E as <- _. exfalso. apply B. reflexivity.
  - cbn [flat_map] in E. destruct (Z_lt_le_dec (code c) 128) as [L|L].
    + destruct (escape_low c L) as (d & y & D & LD). rewrite D in E. injection E as <- _. lia.
    + rewrite (escape_high c L) in E. injection E as <- <-. exists s. split; reflexivity.
Qed.
Lemma valid_cons : forall u s, scalar u -> valid_utf8 s -> valid_utf8 (utf8 u ++ s).
Proof. intros u t S (us & F & ->). exists (u :: us). split; [constructor; assumption|reflexivity]. Qed.
Lemma within_high : forall c rs bs, following c = Some rs -> Forall2 (fun r b => within r b = true) rs bs -> Forall (fun b => 128 <= code b) bs.
Proof.
  intros c rs bs F W. assert (R : Forall (fun r => 128 <= fst r) rs).
  { apply following_inv in F. destruct F as [[_ ->]|[[_ ->]|[[_ ->]|[[_ ->]|[[_ ->]|[[_ ->]|[[_ ->]|[_ ->]]]]]]]]; repeat constructor; cbn; lia. }
  clear F. induction W as [|r b rs' bs' W1 W IH]; [constructor|]. inversion R; subst. apply within_iff in W1. constructor; [lia|]. apply IH; assumption.
Qed.
Lemma string_valid : forall n s, (List.length s <= n)%nat -> forall out rest p, scan_string out (flat_map escape s ++ lit """" ++ rest) = Some p -> valid_utf8 s.
Proof.
  induction n as [|n IH]; intros s L out rest p H.
  { destruct s; [|cbn in L; lia]. exists []. split; [constructor|reflexivity]. }
  destruct s as [|c s]; [exists []; split; [constructor|reflexivity]|]. cbn [List.length] in L.
  destruct (Z_lt_le_dec (code c) 128) as [C|C].
  - assert (U : utf8 (code c) = [c]) by (rewrite utf8_ascii by (assert (X := Strings.code_range c); lia); rewrite <- (char_code c (code c)) by reflexivity; reflexivity).
    assert (S : scalar (code c)) by (assert (X := Strings.code_range c); unfold scalar; lia).
    change (c :: s) with ([c] ++ s). rewrite <- U. apply valid_cons; [exact S|].
    assert (E := escape_utf8 (code c) [] [] S c_nil). rewrite U in E. cbn [flat_map app] in E, H. rewrite !app_nil_r in E.
    assert (K : forall s1 t1, chars s1 t1 -> forall out s2, scan_string out (s1 ++ s2) = scan_string (out ++ t1) s2).
    { clear. intros s t C. induction C as [|u s t S A B C K IH|e b s t E C IH|h u s t H S C IH|h u g w s t H G S W C IH]; intros out rest.
      - cbn. rewrite app_nil_r. reflexivity.
      - destruct (utf8_tail u S) as (c & bs & E & T & R). rewrite E, <- app_assoc. rewrite scan_raw; [rewrite IH, <- app_assoc; reflexivity|exact T| | |]; lia.
      - cbn [app scan_string]. cbn [Ascii.eqb Bool.eqb]. cbv iota. rewrite unescape_same, (Strings.unescape_ok e b E), IH, <- app_assoc. reflexivity.
      - destruct (get_codepoint_ok h u H) as (a & b & c & d & -> & Q & U). rewrite <- !app_assoc, scan_uni, Q.
        assert (X : (55296 <=? u) && (u <=? 56319) = false) by (apply not_true_iff_false; intros X; apply andb_prop in X; destruct X as [X Y]; apply Z.leb_le in X, Y; lia).
        assert (Y : (56320 <=? u) && (u <=? 57343) = false) by (apply not_true_iff_false; intros Y; apply andb_prop in Y; destruct Y as [Y Z]; apply Z.leb_le in Y, Z; lia).
        rewrite X, Y, IH, <- app_assoc, codepoint_bytes_ok by lia. reflexivity.
      - destruct (get_codepoint_ok h u H) as (a & b & c & d & -> & Q & U). destruct (get_codepoint_ok g w G) as (a' & b' & c' & d' & -> & Q' & U').
        rewrite <- !app_assoc, scan_uni, Q. set (x := s ++ rest) in *.
        change (lit "\u" ++ [a'; b'; c'; d'] ++ x) with ("\"%char :: "u"%char :: a' :: b' :: c' :: d' :: x).
        destruct (Z.leb_spec 55296 u); [|lia]. destruct (Z.leb_spec u 56319); [|lia]. cbn [andb Ascii.eqb Bool.eqb]. rewrite Q'. destruct (Z.leb_spec 56320 w); [|lia]. destruct (Z.leb_spec w 57343); [|lia]. cbn [andb].
        assert (X : Z.shiftl u 10 + w - 56613888 = 65536 + 1024 * (u - 55296) + (w - 56320)) by (rewrite Z.shiftl_mul_pow2 by lia; change (2 ^ 10) with 1024; lia).
        rewrite X. unfold x. rewrite IH, <- app_assoc, codepoint_bytes_ok by lia. reflexivity. }
    rewrite <- app_assoc in H. rewrite (K _ _ E) in H. apply (IH s ltac:(lia) _ _ _ H).
  - cbn [flat_map] in H. rewrite (escape_high c C), <- app_assoc in H. cbn [app scan_string] in H.
    destruct (Ascii.eqb_spec c """") as [->|_]; [exfalso; apply C; reflexivity|]. destruct (Ascii.eqb_spec c "\") as [->|_]; [exfalso; apply C; reflexivity|].
    destruct (Z.ltb_spec (code c) 32); [lia|].
    assert (K : forall bs x, flat_map escape s ++ lit """" ++ rest = bs ++ x -> tail_ok c bs -> scan_string (out ++ c :: bs) x = Some p -> valid_utf8 (c :: s)).
    { intros bs x E (rs & F & W) Q. assert (HI := within_high c rs bs F W).
      assert (D : exists s', s = bs ++ s' /\ x = flat_map escape s' ++ lit """" ++ rest).
      { clear - E HI. revert s E. induction HI as [|b bs B HI IHB]; intros s E; [exists s; split; [reflexivity|symmetry; exact E]|].
        destruct (high_head s rest b (bs ++ x) E B) as (s' & -> & E'). destruct (IHB s' (eq_sym E')) as (s2 & -> & X). exists s2. split; [reflexivity|exact X]. }
      destruct D as (s' & -> & ->). destruct (tail_utf8 c bs (ex_intro _ rs (conj F W))) as (u & S & U & _). change (c :: bs ++ s') with ((c :: bs) ++ s'). rewrite <- U. apply valid_cons; [exact S|].
      apply (IH s' ltac:(rewrite app_length in L; lia) _ _ _ Q). }
    set (x := flat_map escape s ++ lit """" ++ rest) in *. clearbody x.
    destruct (following c) as [[|r1 [|r2 [|r3 [|r4 rs]]]]|] eqn:F; try discriminate.
    + apply (K [] x); [reflexivity| |exact H]. exists []. split; [exact F|constructor].
    + destruct x as [|b1 x]; [discriminate|]. destruct (within r1 b1) eqn:W1; [|discriminate]. apply (K [b1] x); [reflexivity| |exact H]. exists [r1]. split; [exact F|repeat constructor; assumption].
    + destruct x as [|b1 [|b2 x]]; try discriminate. destruct (within r1 b1) eqn:W1; [|discriminate]. destruct (within r2 b2) eqn:W2; [|discriminate].
      apply (K [b1; b2] x); [reflexivity| |exact H]. exists [r1; r2]. split; [exact F|repeat constructor; assumption].
    + destruct x as [|b1 [|b2 [|b3 x]]]; try discriminate. destruct (within r1 b1) eqn:W1; [|discriminate]. destruct (within r2 b2) eqn:W2; [|discriminate]. destruct (within r3 b3) eqn:W3; [|discriminate].
      apply (K [b1; b2; b3] x); [reflexivity| |exact H]. exists [r1; r2; r3]. split; [exact F|repeat constructor; assumption].
Qed.
