(** What the parser accepts is JSON with numbers in a wider sense; fuel; errors. *)
From Coq Require Import List Bool ZArith QArith Qabs Ascii String Lia Sorting.Sorted.
From Verif.Base Require Import Py.
From Verif.Round Require Import Model Spec Rounding.
From Verif.Json Require Import Model Spec Strings Numbers Grammar.
Import ListNotations.
Local Open Scope Z_scope.

(** * Strings *)
Lemma hex_sound : forall c z, hex_value c = Some z -> exists v, hexdigit c v /\ z = Z.of_nat v.
Proof.
  assert (B : forall c, match hex_value c with None => True | Some z => hexdigit c (Z.to_nat z) /\ z = Z.of_nat (Z.to_nat z) end).
  { intros [[] [] [] [] [] [] [] []]; try exact I; (split; [(left; reflexivity) || (right; reflexivity)|reflexivity]). }
  intros c z H. specialize (B c). rewrite H in B. exists (Z.to_nat z). exact B.
Qed.
Lemma quadhex_sound : forall a b c d u, quadhex a b c d = Some u -> hex4 [a; b; c; d] u /\ 0 <= u < 65536.
Proof.
  intros a b c d u H. unfold quadhex in H.
  destruct (hex_value a) as [w|] eqn:A; [|discriminate]. destruct (hex_value b) as [x|] eqn:B; [|discriminate].
  destruct (hex_value c) as [y|] eqn:C; [|discriminate]. destruct (hex_value d) as [z|] eqn:D; [|discriminate]. injection H as <-.
  apply hex_sound in A, B, C, D. destruct A as (w' & A & ->), B as (x' & B & ->), C as (y' & C & ->), D as (z' & D & ->).
  assert (K := hex4_intro _ _ _ _ _ _ _ _ A B C D). assert (R : 0 <= ((Z.of_nat w' * 16 + Z.of_nat x') * 16 + Z.of_nat y') * 16 + Z.of_nat z' < 65536).
  { apply hex_value_ok in A, B, C, D. lia. }
  split; [|exact R].
  replace (((Z.of_nat w' * 16 + Z.of_nat x') * 16 + Z.of_nat y') * 16 + Z.of_nat z') with (4096 * Z.of_nat w' + 256 * Z.of_nat x' + 16 * Z.of_nat y' + Z.of_nat z') by ring. exact K.
Qed.
Lemma unescape_sound : forall e b, unescape e = Some b -> exists n, In (e, n) escapes /\ b = ascii_of_nat n.
Proof.
  intros e b H. unfold unescape in H.
  repeat match type of H with (if Ascii.eqb e ?x then _ else _) = _ => destruct (Ascii.eqb_spec e x) as [->|]; [injection H as <-; eexists; split; [cbn; repeat ((left; reflexivity) || right)|reflexivity]|] end.
  discriminate.
Qed.

Lemma string_sound : forall m s out t rest, (List.length s <= m)%nat -> parse_string out s = (t, Some rest) ->
  exists cs u, s = cs ++ lit """" ++ rest /\ chars cs u /\ t = out ++ u.
Proof.
  induction m as [|m IH]; intros s out t rest L H.
  - destruct s; [discriminate|cbn in L; lia].
  - destruct s as [|c s]; [discriminate|]. cbn [List.length] in L. cbn [parse_string] in H.
    destruct (Z.ltb_spec (code c) 32) as [|R]; [discriminate|].
    destruct (Ascii.eqb_spec c """") as [->|Q]; [injection H as <- <-; exists [], []; split; [reflexivity|split; [constructor|rewrite app_nil_r; reflexivity]]|].
    destruct (Ascii.eqb_spec c "\") as [->|B].
    + destruct s as [|e s]; [discriminate|]. cbn [List.length] in L. destruct (unescape e) as [b|] eqn:U.
      * apply IH in H; [|lia]. destruct H as (cs & u & -> & C & ->). apply unescape_sound in U. destruct U as (n & I & ->).
        exists ("\"%char :: e :: cs), (ascii_of_nat n :: u). split; [reflexivity|]. split; [apply c_esc; assumption|rewrite <- app_assoc; reflexivity].
      * destruct (Ascii.eqb_spec e "u") as [->|]; [|discriminate].
        destruct s as [|h1 [|h2 [|h3 [|h4 s]]]]; try discriminate. cbn [List.length] in L.
        destruct (quadhex h1 h2 h3 h4) as [u|] eqn:QH; [|discriminate]. apply quadhex_sound in QH. destruct QH as [H4 HR].
        destruct (Z.leb_spec 55296 u) as [S1|S1]; cbn [andb] in H; [destruct (Z.leb_spec u 57343) as [S2|S2]|].
        -- destruct (Z.leb_spec 56320 u) as [|S3]; [discriminate|].
           destruct s as [|b [|v [|g1 [|g2 [|g3 [|g4 s]]]]]]; try discriminate. cbn [List.length] in L.
           destruct (Ascii.eqb_spec b "\") as [->|]; [|discriminate]. destruct (Ascii.eqb_spec v "u") as [->|]; [|discriminate]. cbn [andb] in H.
           destruct (quadhex g1 g2 g3 g4) as [u2|] eqn:QG; [|discriminate]. apply quadhex_sound in QG. destruct QG as [G4 GR].
           destruct (Z.leb_spec 56320 u2) as [T1|]; [|discriminate]. destruct (Z.leb_spec u2 57343) as [T2|]; [|discriminate]. cbn [andb] in H.
           apply IH in H; [|lia]. destruct H as (cs & w & -> & C & ->).
           exists (lit "\u" ++ [h1; h2; h3; h4] ++ lit "\u" ++ [g1; g2; g3; g4] ++ cs), (utf8 (65536 + 1024 * (u - 55296) + (u2 - 56320)) ++ w).
           split; [reflexivity|]. split; [apply c_pair; try assumption; lia|].
           assert (E : Z.lor (Z.shiftl (u - 55296) 10) (Z.land (u2 - 56320) 1023) + 65536 = 65536 + 1024 * (u - 55296) + (u2 - 56320)).
           { change 1023 with (Z.ones 10). rewrite Z.land_ones, Z.shiftl_mul_pow2 by lia. rewrite Z.mod_small by lia. rewrite lor_add by lia. lia. }
           rewrite E, push_ok by lia. rewrite <- app_assoc. reflexivity.
        -- apply IH in H; [|lia]. destruct H as (cs & w & -> & C & ->).
           exists (lit "\u" ++ [h1; h2; h3; h4] ++ cs), (utf8 u ++ w). split; [reflexivity|]. split; [apply c_uni; [exact H4|lia|exact C]|].
           rewrite push_ok by lia. rewrite <- app_assoc. reflexivity.
        -- apply IH in H; [|lia]. destruct H as (cs & w & -> & C & ->).
           exists (lit "\u" ++ [h1; h2; h3; h4] ++ cs), (utf8 u ++ w). split; [reflexivity|]. split; [apply c_uni; [exact H4|lia|exact C]|].
           rewrite push_ok by lia. rewrite <- app_assoc. reflexivity.
    + apply IH in H; [|lia]. destruct H as (cs & u & -> & C & ->). exists (c :: cs), (c :: u).
      split; [reflexivity|]. split; [apply c_raw; assumption|rewrite <- app_assoc; reflexivity].
Qed.

(** * Numbers *)
Lemma span_sound : forall p s a b, span p s = (a, b) -> s = a ++ b /\ Forall (fun c => p c = true) a /\ head_not p b.
Proof.
  intros p s. induction s as [|c s IH]; intros a b H; cbn [span] in H.
  - injection H as <- <-. split; [reflexivity|split; [constructor|exact I]].
  - destruct (p c) eqn:P.
    + destruct (span p s) as [a' b']. injection H as <- <-. destruct (IH a' b' eq_refl) as (-> & A & B). split; [reflexivity|]. split; [constructor; assumption|exact B].
    + injection H as <- <-. split; [reflexivity|]. split; [constructor|exact P].
Qed.
Lemma in_number_stop : forall s, head_not in_number s -> stop s.
Proof.
  intros [|c s] H; [exact I|]. cbn in *. intros K. repeat (destruct K as [<-|K]; [discriminate H|]). destruct K.
Qed.
Lemma sign_sound : forall a g r, sign a = (g, r) -> (forall r', a <> "+"%char :: r') ->
  exists neg, a = minus neg ++ r /\ g = (if neg then -1 else 1) /\ (neg = false -> sign r = (1, r)).
Proof.
  intros a g r H N. destruct a as [|c a].
  - injection H as <- <-. exists false. split; [reflexivity|]. split; reflexivity.
  - cbn [sign] in H. destruct (Ascii.eqb_spec c "-") as [->|M].
    + injection H as <- <-. exists true. split; [reflexivity|]. split; [reflexivity|discriminate].
    + destruct (Ascii.eqb_spec c "+") as [->|P]; [exfalso; apply (N a); reflexivity|]. injection H as <- <-. exists false. split; [reflexivity|]. split; [reflexivity|].
      intros _. cbn [sign]. destruct (Ascii.eqb_spec c "-"); [contradiction|]. destruct (Ascii.eqb_spec c "+"); [contradiction|reflexivity].
Qed.
Lemma signed_mult : forall (neg : bool) n, (if neg then -1 else 1) * n = signed neg n.
Proof. intros [] n; unfold signed; lia. Qed.
Lemma int64_ok : forall z, (- 2 ^ 63 <=? z) && (z <? 2 ^ 63) = true <-> int64 z.
Proof. intros z. unfold int64. rewrite andb_true_iff, Z.leb_le, Z.ltb_lt. reflexivity. Qed.
Lemma exponent_sound : forall et e, exponent_of et = Some e -> exp_part et e.
Proof.
  intros [|c et] e H; cbn [exponent_of] in H; [injection H as <-; constructor|].
  destruct (Ascii.eqb c "e" || Ascii.eqb c "E") eqn:M; [|discriminate].
  assert (MK : In [c] [lit "e"; lit "E"]). { apply orb_prop in M. destruct M as [M|M]; apply Ascii.eqb_eq in M; subst c; cbn; auto. }
  destruct (sign et) as [h s] eqn:S. destruct (span is_digit s) as [ds r] eqn:SP. destruct ds as [|d ds]; [discriminate|]. destruct r; [|discriminate]. injection H as <-.
  apply span_sound in SP. destruct SP as (-> & A & _). rewrite app_nil_r in S. change (c :: et) with ([c] ++ et).
  assert (V := value_numeral _ A). destruct et as [|x et]; [discriminate|]. cbn [sign] in S. destruct (Ascii.eqb_spec x "-") as [->|].
  - injection S as <- ->. replace (-1 * value_of (d :: ds)) with (- value_of (d :: ds)) by lia. apply (x_minus [c] (d :: ds)); [exact MK|discriminate|exact V].
  - destruct (Ascii.eqb_spec x "+") as [->|].
    + injection S as <- ->. rewrite Z.mul_1_l. apply (x_plus [c] (lit "+") (d :: ds)); [exact MK|right; left; reflexivity|discriminate|exact V].
    + injection S as <- -> ->. rewrite Z.mul_1_l. apply (x_plus [c] [] (d :: ds)); [exact MK|left; reflexivity|discriminate|exact V].
Qed.
Lemma decimal_sound : forall a n e, decimal_text a = Some (n, e) -> (forall r', a <> "+"%char :: r') ->
  (forall c r, a = c :: r -> is_digit c = true \/ c = "-"%char) ->
  exists neg i m ft f et x k, a = minus neg ++ i ++ ft ++ et /\ numeral i m /\ (neg = true \/ i <> []) /\ i ++ f <> [] /\
    loose_frac ft f /\ exp_part et x /\ numeral (i ++ f) k /\ n = signed neg k /\ e = x - Z.of_nat (List.length f).
Proof.
  intros a n e H NP HD. unfold decimal_text in H. destruct (sign a) as [g r] eqn:S. apply sign_sound in S; [|exact NP]. destruct S as (neg & -> & -> & SN).
  destruct (span is_digit r) as [i s1] eqn:S1. apply span_sound in S1. destruct S1 as (-> & AI & H1).
  set (fs := match s1 with c :: s' => if Ascii.eqb c "." then span is_digit s' else ([], s1) | [] => ([], []) end) in H.
  assert (FS : exists ft, s1 = ft ++ snd fs /\ loose_frac ft (fst fs)).
  { destruct s1 as [|c s1]; [exists []; split; [reflexivity|constructor]|]. unfold fs. destruct (Ascii.eqb_spec c ".") as [->|].
    - destruct (span is_digit s1) as [f s2] eqn:S2. apply span_sound in S2. destruct S2 as (-> & AF & _). exists (lit "." ++ f). split; [reflexivity|].
      apply (lf_some f (value_of f)), value_numeral, AF.
    - exists []. split; [reflexivity|constructor]. }
  destruct fs as [f et] eqn:FE. cbn [fst snd] in FS. destruct FS as (ft & -> & LF).
  assert (AF : all_digits f) by apply (loose_digits ft f LF).
  assert (NE : i ++ f <> []) by (destruct (i ++ f); [discriminate|discriminate]).
  assert (X : exists x, exponent_of et = Some x /\ n = signed neg (value_of (i ++ f)) /\ e = x - Z.of_nat (List.length f)).
  { destruct (i ++ f) as [|d m] eqn:IF; [contradiction|]. rewrite <- IF in *. clear d m IF. rewrite signed_mult in H. destruct et as [|c et].
    - injection H as <- <-. exists 0. split; [reflexivity|]. split; [reflexivity|lia].
    - unfold exponent_of. destruct (Ascii.eqb c "e" || Ascii.eqb c "E"); [|discriminate]. destruct (sign et) as [h s]. destruct (span is_digit s) as [[|d ds] [|y z]]; try discriminate.
      injection H as <- <-. eexists. split; [reflexivity|]. split; reflexivity. }
  destruct X as (x & EX & -> & ->). apply exponent_sound in EX.
  exists neg, i, (value_of i), ft, f, et, x, (value_of (i ++ f)). split; [reflexivity|]. split; [apply value_numeral, AI|]. split.
  - destruct neg; [left; reflexivity|right]. intros ->. cbn [minus app] in HD. destruct (ft ++ et) as [|c t] eqn:T.
    + apply app_eq_nil in T. destruct T as [-> ->]. apply NE. inversion LF. reflexivity.
    + destruct (HD c t eq_refl) as [D| ->]; [cbn in H1; congruence|]. specialize (SN eq_refl). cbn in SN. discriminate SN.
  - split; [exact NE|]. split; [exact LF|]. split; [exact EX|]. split; [apply value_numeral, Forall_app; split; assumption|]. split; reflexivity.
Qed.

Lemma number_sound : forall out c s v rest, parse_number out (c :: s) = Ok (v, Some rest) -> (is_digit c = true \/ c = "-"%char) ->
  exists t, c :: s = t ++ rest /\ loose t v /\ stop rest.
Proof.
  intros out c s v rest H D. unfold parse_number in H. destruct (span in_number (c :: s)) as [a b] eqn:SP. apply span_sound in SP. destruct SP as (E & _ & HN).
  apply in_number_stop in HN.
  assert (IN : in_number c = true) by (destruct D as [D| ->]; [apply digit_in_number, D|reflexivity]).
  assert (HD : forall d r, a = d :: r -> is_digit d = true \/ d = "-"%char) by (intros d r ->; injection E as <- _; exact D).
  assert (NP : forall r', a <> "+"%char :: r') by (intros r' ->; destruct (HD _ _ eq_refl); discriminate).
  destruct (strtoimax a) as [z|] eqn:SI.
  - injection H as <- <-. exists a. split; [exact E|]. split; [|exact HN]. unfold strtoimax in SI. destruct (sign a) as [g r] eqn:SG. apply sign_sound in SG; [|exact NP].
    destruct SG as (neg & -> & -> & _). destruct (span is_digit r) as [ds x] eqn:SD. apply span_sound in SD. destruct SD as (-> & AD & _).
    destruct ds as [|d ds]; [discriminate|]. destruct x; [|discriminate]. rewrite signed_mult in SI. destruct (_ && _) eqn:B; [|discriminate]. injection SI as <-. apply int64_ok in B.
    rewrite app_nil_r. apply l_int; [discriminate|apply value_numeral, AD|exact B].
  - destruct (strtod a) as [r|] eqn:SD; [|discriminate]. destruct r as [x|]; [|discriminate]. cbn [bind] in H. injection H as <- <-. exists a. split; [exact E|]. split; [|exact HN].
    unfold strtod in SD. destruct (decimal_text a) as [[n e]|] eqn:DT; [|discriminate]. apply decimal_sound in DT; [|exact NP|exact HD].
    destruct DT as (neg & i & m & ft & f & et & y & k & -> & NI & N & NE & LF & EP & NK & -> & ->).
    destruct (Qle_bool (2 ^ 1024) (Qabs (round (inject_Z (signed neg k) * ten (y - Z.of_nat (List.length f)))))) eqn:OV; [discriminate|]. injection SD as <-.
    eapply l_num; [exact NI|exact N|exact NE|exact LF|exact EP|exact NK| |reflexivity|apply round_ok| |apply round_red].
    + intros T I64. apply app_eq_nil in T. destruct T as [-> ->]. inversion LF; subst f. rewrite !app_nil_r in *. rewrite (strtoimax_int neg i k NE NK) in SI.
      apply int64_ok in I64. rewrite I64 in SI. discriminate.
    + destruct (Qlt_le_dec (Qabs (round (inject_Z (signed neg k) * ten (y - Z.of_nat (List.length f))))) (2 ^ 1024)) as [|C]; [assumption|].
      apply Qle_bool_iff in C. congruence.
Qed.

(** * Values *)
Lemma skip_sound : forall s, exists w, s = w ++ skip_ws s /\ white w.
Proof.
  induction s as [|c s (w & E & W)]; [exists []; split; [reflexivity|constructor]|]. cbn [skip_ws]. destruct (is_blank c) eqn:B.
  - exists (c :: w). split; [cbn; f_equal; exact E|]. constructor; [apply blank_ok, B|exact W].
  - exists []. split; [reflexivity|constructor].
Qed.
Lemma expect_sound : forall c s r, expect c s = Some r -> exists w, s = w ++ c :: r /\ white w.
Proof.
  intros c s r H. unfold expect in H. destruct (skip_sound s) as (w & E & W). destruct (skip_ws s) as [|d s']; [discriminate|].
  destruct (Ascii.eqb_spec c d) as [->|]; [|discriminate]. injection H as ->. exists w. split; assumption.
Qed.
Lemma match_sound : forall p s r, match_text p s = Some r -> s = p ++ r.
Proof.
  induction p as [|c p IH]; intros s r H; cbn in H; [injection H as ->; reflexivity|]. destruct s as [|d s]; [discriminate|].
  destruct (Ascii.eqb_spec c d) as [->|]; [|discriminate]. apply IH in H. subst s. reflexivity.
Qed.
Lemma fold_object : forall l, object_of l (fold_left (fun o m => oset (fst m) (snd m) o) l []).
Proof.
  intros l. induction l as [|m l IH] using rev_ind; [split; [constructor|reflexivity]|]. rewrite fold_left_app. cbn [fold_left]. destruct IH as [S L]. split.
  - apply oset_sorted, S.
  - intros k. rewrite lookup_oset, L, rev_app_distr. destruct m as [k' v]. reflexivity.
Qed.

Lemma sound : forall n,
  (forall out s v rest, parse_at n out s = Ok (v, Some rest) -> exists w t, s = w ++ t ++ rest /\ white w /\ json loose t v /\ ends v rest) /\
  (forall a s v rest, items n a s = Ok (v, Some rest) -> exists t l, s = t ++ lit "]" ++ rest /\ elements loose t l /\ v = JArr (a ++ l)) /\
  (forall o s v rest, members n o s = Ok (v, Some rest) -> exists t l, s = t ++ lit "}" ++ rest /\ pairs loose t l /\
     v = JObj (fold_left (fun o m => oset (fst m) (snd m) o) l o)).
Proof.
  induction n as [|n (IHp & IHi & IHm)]; [split; [|split]; discriminate|]. split; [|split].
  - intros out s v rest H. cbn [parse_at] in H. destruct (skip_sound s) as (w & E & W). destruct (skip_ws s) as [|c s']; [discriminate|].
    assert (K : forall t, c :: s' = t ++ rest -> json loose t v -> ends v rest -> exists w t, s = w ++ t ++ rest /\ white w /\ json loose t v /\ ends v rest).
    { intros t T J X. exists w, t. split; [rewrite E, T; reflexivity|]. split; [exact W|]. split; assumption. }
    destruct (Ascii.eqb_spec c "n") as [->|_].
    { destruct (match_text (lit "ull") s') as [r|] eqn:M; [|discriminate]. injection H as <- <-. apply match_sound in M. subst s'. apply (K (lit "null")); [reflexivity|constructor|exact I]. }
    destruct (Ascii.eqb_spec c "f") as [->|_].
    { destruct (match_text (lit "alse") s') as [r|] eqn:M; [|discriminate]. injection H as <- <-. apply match_sound in M. subst s'. apply (K (lit "false")); [reflexivity|constructor|exact I]. }
    destruct (Ascii.eqb_spec c "t") as [->|_].
    { destruct (match_text (lit "rue") s') as [r|] eqn:M; [|discriminate]. injection H as <- <-. apply match_sound in M. subst s'. apply (K (lit "true")); [reflexivity|constructor|exact I]. }
    destruct (Ascii.eqb_spec c """") as [->|_].
    { destruct (parse_string [] s') as [t r] eqn:S. injection H as <- ->. apply (string_sound (List.length s')) in S; [|lia]. destruct S as (cs & u & -> & C & ->).
      apply (K (lit """" ++ cs ++ lit """")); [cbn [lit list_ascii_of_string app]; rewrite <- app_assoc; reflexivity|apply j_str, C|exact I]. }
    destruct (Ascii.eqb_spec c "[") as [->|_].
    { destruct (expect "]" s') as [r|] eqn:X.
      - injection H as <- ->. apply expect_sound in X. destruct X as (w0 & -> & W0). apply (K (lit "[" ++ w0 ++ lit "]")); [cbn [lit list_ascii_of_string app]; rewrite <- app_assoc; reflexivity|apply j_arr0, W0|exact I].
      - apply IHi in H. destruct H as (t & l & -> & EL & ->). apply (K (lit "[" ++ t ++ lit "]")); [cbn [lit list_ascii_of_string app]; rewrite <- app_assoc; reflexivity|apply j_arr, EL|exact I]. }
    destruct (Ascii.eqb_spec c "{") as [->|_].
    { destruct (expect "}" s') as [r|] eqn:X.
      - injection H as <- ->. apply expect_sound in X. destruct X as (w0 & -> & W0). apply (K (lit "{" ++ w0 ++ lit "}")); [cbn [lit list_ascii_of_string app]; rewrite <- app_assoc; reflexivity|apply j_obj0, W0|exact I].
      - apply IHm in H. destruct H as (t & l & -> & EL & ->). apply (K (lit "{" ++ t ++ lit "}")); [cbn [lit list_ascii_of_string app]; rewrite <- app_assoc; reflexivity| |exact I].
        apply (j_obj loose t l); [exact EL|apply fold_object]. }
    destruct (is_digit c || Ascii.eqb c "-") eqn:D; [|discriminate].
    apply number_sound in H; [|apply orb_prop in D; destruct D as [D|D]; [left; exact D|right; apply Ascii.eqb_eq, D]].
    destruct H as (t & T & LO & ST). apply (K t T); [constructor; exact LO|]. destruct v; exact I || exact ST.
  - intros a s v rest H. cbn [items] in H. destruct (parse_at n JNull s) as [[x [r|]]|] eqn:P; [|discriminate|discriminate]. cbn [bind] in H.
    apply IHp in P. destruct P as (w & t & -> & W & J & X). destruct (expect "," r) as [r'|] eqn:C.
    + apply expect_sound in C. destruct C as (w' & -> & W'). apply IHi in H. destruct H as (t' & l & -> & EL & ->).
      exists (w ++ t ++ w' ++ lit "," ++ t'), (x :: l). split; [rewrite <- !app_assoc; reflexivity|]. split; [apply e_more; assumption|rewrite <- app_assoc; reflexivity].
    + injection H as <- C'. apply expect_sound in C'. destruct C' as (w' & -> & W').
      exists (w ++ t ++ w'), [x]. split; [rewrite <- !app_assoc; reflexivity|]. split; [apply e_one; assumption|reflexivity].
  - intros o s v rest H. cbn [members] in H. destruct (expect """" s) as [s1|] eqn:Q; [|discriminate]. apply expect_sound in Q. destruct Q as (w & -> & W).
    destruct (parse_string [] s1) as [k [s2|]] eqn:PS; [|discriminate]. apply (string_sound (List.length s1)) in PS; [|lia]. destruct PS as (ks & u & -> & CK & ->). cbn [app] in H.
    destruct (expect ":" s2) as [s3|] eqn:X3; [|discriminate]. apply expect_sound in X3. destruct X3 as (w1 & -> & W1).
    destruct (parse_at n (match oget u o with Some v => v | None => JNull end) s3) as [[x [r|]]|] eqn:P; [|discriminate|discriminate]. cbn [bind] in H.
    apply IHp in P. destruct P as (w2 & t & -> & W2 & J & X). destruct (expect "," r) as [r'|] eqn:C.
    + apply expect_sound in C. destruct C as (w' & -> & W'). apply IHm in H. destruct H as (t' & l & -> & EL & ->).
      exists (w ++ lit """" ++ ks ++ lit """" ++ w1 ++ lit ":" ++ w2 ++ t ++ w' ++ lit "," ++ t'), ((u, x) :: l).
      split; [cbn [lit list_ascii_of_string app]; repeat (rewrite <- app_assoc; cbn [app]); reflexivity|]. split; [apply p_more; assumption|reflexivity].
    + injection H as <- C'. apply expect_sound in C'. destruct C' as (w' & -> & W').
      exists (w ++ lit """" ++ ks ++ lit """" ++ w1 ++ lit ":" ++ w2 ++ t ++ w'), [(u, x)].
      split; [cbn [lit list_ascii_of_string app]; repeat (rewrite <- app_assoc; cbn [app]); reflexivity|]. split; [apply p_one; assumption|reflexivity].
Qed.

(** * Fuel *)
Lemma shorter : forall n out s v rest, parse_at n out s = Ok (v, Some rest) -> (List.length rest < List.length s)%nat.
Proof.
  intros n out s v rest H. apply (proj1 (sound n)) in H. destruct H as (w & t & -> & _ & J & _). apply json_open in J. destruct J as (c & r & -> & _).
  rewrite !app_length. cbn. lia.
Qed.
Lemma expect_shorter : forall c s r, expect c s = Some r -> (List.length r < List.length s)%nat.
Proof. intros c s r H. apply expect_sound in H. destruct H as (w & -> & _). rewrite app_length. cbn. lia. Qed.
Lemma skip_shorter : forall s, (List.length (skip_ws s) <= List.length s)%nat.
Proof. intros s. destruct (skip_sound s) as (w & E & _). rewrite E at 2. rewrite app_length. lia. Qed.
Lemma string_shorter : forall s out t r, parse_string out s = (t, Some r) -> (List.length r < List.length s)%nat.
Proof. intros s out t r H. apply (string_sound (List.length s)) in H; [|lia]. destruct H as (cs & u & -> & _ & _). rewrite !app_length. cbn. lia. Qed.

Lemma fuel_step : forall n,
  (forall out s, (2 * List.length s + 1 <= n)%nat -> parse_at (S n) out s = parse_at n out s) /\
  (forall a s, (2 * List.length s + 2 <= n)%nat -> items (S n) a s = items n a s) /\
  (forall o s, (2 * List.length s + 2 <= n)%nat -> members (S n) o s = members n o s).
Proof.
  induction n as [|n (IHp & IHi & IHm)]; [split; [|split]; intros; lia|]. split; [|split].
  - intros out s L. assert (K := skip_shorter s). set (m := S n). cbn [parse_at]. unfold m. cbn [parse_at]. destruct (skip_ws s) as [|c s']; [reflexivity|]. cbn [List.length] in K.
    rewrite (IHi [] s') by lia. rewrite (IHm [] s') by lia. reflexivity.
  - intros a s L. set (m := S n). cbn [items]. unfold m. cbn [items]. rewrite IHp by lia. destruct (parse_at n JNull s) as [[x [r|]]|] eqn:P; [|reflexivity|reflexivity]. cbn [bind].
    apply shorter in P. destruct (expect "," r) as [r'|] eqn:C; [|reflexivity]. apply expect_shorter in C. apply IHi. lia.
  - intros o s L. set (m := S n). cbn [members]. unfold m. cbn [members]. destruct (expect """" s) as [s1|] eqn:Q; [|reflexivity]. apply expect_shorter in Q.
    destruct (parse_string [] s1) as [k [s2|]] eqn:PS; [|reflexivity]. apply string_shorter in PS. destruct (expect ":" s2) as [s3|] eqn:X; [|reflexivity]. apply expect_shorter in X.
    rewrite IHp by lia. destruct (parse_at n _ s3) as [[x [r|]]|] eqn:P; [|reflexivity|reflexivity]. cbn [bind].
    apply shorter in P. destruct (expect "," r) as [r'|] eqn:C; [|reflexivity]. apply expect_shorter in C. apply IHm. lia.
Qed.
Lemma fuel_enough : forall n out s, (2 * List.length s + 1 <= n)%nat -> parse_at n out s = parse_at (2 * List.length s + 2) out s.
Proof.
  assert (K : forall j out s, parse_at (2 * List.length s + 1 + j) out s = parse_at (2 * List.length s + 1) out s).
  { intros j out s. induction j as [|j IH]; [rewrite Nat.add_0_r; reflexivity|]. rewrite Nat.add_succ_r. rewrite <- IH. apply (proj1 (fuel_step _)). lia. }
  intros n out s L. replace n with (2 * List.length s + 1 + (n - (2 * List.length s + 1)))%nat by lia. rewrite K.
  replace (2 * List.length s + 2)%nat with (2 * List.length s + 1 + 1)%nat by lia. rewrite K. reflexivity.
Qed.

(** * Errors *)
Lemma only_overflow : forall n,
  (forall out s e, parse_at n out s = Err e -> e = OverflowError) /\
  (forall a s e, items n a s = Err e -> e = OverflowError) /\
  (forall o s e, members n o s = Err e -> e = OverflowError).
Proof.
  induction n as [|n (IHp & IHi & IHm)]; [split; [|split]; discriminate|]. split; [|split].
  - intros out s e H. cbn [parse_at] in H. destruct (skip_ws s) as [|c s']; [discriminate|].
    destruct (Ascii.eqb c "n"); [destruct (match_text _ s'); discriminate|]. destruct (Ascii.eqb c "f"); [destruct (match_text _ s'); discriminate|].
    destruct (Ascii.eqb c "t"); [destruct (match_text _ s'); discriminate|]. destruct (Ascii.eqb c """"); [destruct (parse_string [] s'); discriminate|].
    destruct (Ascii.eqb c "["); [destruct (expect "]" s'); [discriminate|apply (IHi _ _ _ H)]|].
    destruct (Ascii.eqb c "{"); [destruct (expect "}" s'); [discriminate|apply (IHm _ _ _ H)]|].
    destruct (is_digit c || Ascii.eqb c "-"); [|discriminate]. unfold parse_number in H. destruct (span in_number (c :: s')) as [a b].
    destruct (strtoimax a); [discriminate|]. destruct (strtod a) as [r|] eqn:D; [|discriminate]. unfold strtod in D. destruct (decimal_text a) as [[x y]|]; [|discriminate]. injection D as <-.
    destruct (Qle_bool _ _); [|discriminate]. injection H as <-. reflexivity.
  - intros a s e H. cbn [items] in H. destruct (parse_at n JNull s) as [[x r]|e'] eqn:P; [|injection H as <-; apply (IHp _ _ _ P)]. cbn [bind] in H.
    destruct r as [r|]; [|discriminate]. destruct (expect "," r) as [r'|]; [apply (IHi _ _ _ H)|discriminate].
  - intros o s e H. cbn [members] in H. destruct (expect """" s) as [s1|]; [|discriminate]. destruct (parse_string [] s1) as [k [s2|]]; [|discriminate].
    destruct (expect ":" s2) as [s3|]; [|discriminate]. destruct (parse_at n _ s3) as [[x r]|e'] eqn:P; [|injection H as <-; apply (IHp _ _ _ P)]. cbn [bind] in H.
    destruct r as [r|]; [|discriminate]. destruct (expect "," r) as [r'|]; [apply (IHm _ _ _ H)|discriminate].
Qed.
