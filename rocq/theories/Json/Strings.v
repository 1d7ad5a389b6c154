(** Strings, keys and objects. *)
From Coq Require Import List Bool ZArith Ascii String Sorting.Sorted Lia.
From Verif.Json Require Import Model Spec.
Import ListNotations.
Local Open Scope Z_scope.

Lemma code_range : forall c, 0 <= code c < 256.
Proof. intros c. unfold code. assert (H := nat_ascii_bounded c). lia. Qed.
Lemma code_inj : forall c d, code c = code d -> c = d.
Proof.
  intros c d H. unfold code in H. apply Nat2Z.inj in H.
  rewrite <- (ascii_nat_embedding c), <- (ascii_nat_embedding d), H. reflexivity.
Qed.

Lemma hex_value_ok : forall c v, hexdigit c v -> hex_value c = Some (Z.of_nat v) /\ (v < 16)%nat.
Proof.
  intros c v H. assert (L : (v < 16)%nat) by (destruct H as [H|H]; (assert (N : nth_error _ v <> None) by (rewrite H; discriminate)); apply nth_error_Some in N; exact N).
  split; [|exact L].
  do 16 (destruct v as [|v]; [destruct H as [H|H]; injection H as <-; reflexivity|]). lia.
Qed.

Lemma quadhex_ok : forall h u, hex4 h u -> exists a b c d, h = [a; b; c; d] /\ quadhex a b c d = Some u /\ 0 <= u < 65536.
Proof.
  intros h u [a b c d w x y z A B C D]. exists a, b, c, d.
  destruct (hex_value_ok _ _ A) as [EA LA], (hex_value_ok _ _ B) as [EB LB], (hex_value_ok _ _ C) as [EC LC], (hex_value_ok _ _ D) as [ED LD].
  split; [reflexivity|]. unfold quadhex. rewrite EA, EB, EC, ED. split; [f_equal; lia|lia].
Qed.

Lemma lor_add : forall a n k, 0 <= a < 2 ^ k -> 0 <= k -> Z.lor (n * 2 ^ k) a = n * 2 ^ k + a.
Proof.
  intros a n k A K. assert (E : Z.land (n * 2 ^ k) a = 0); [|rewrite <- Z.lxor_lor, <- Z.add_nocarry_lxor by exact E; reflexivity]. apply Z.bits_inj'. intros i I. rewrite Z.land_spec, Z.bits_0.
  destruct (Z_lt_le_dec i k).
  - rewrite Z.mul_pow2_bits_low by lia. reflexivity.
  - destruct (Z.eq_dec a 0) as [->|N]; [rewrite Z.bits_0; apply andb_false_r|].
    rewrite (Z.bits_above_log2 a i); [apply andb_false_r|lia|]. apply Z.lt_le_trans with k; [|lia]. apply Z.log2_lt_pow2; lia.
Qed.

Lemma push_ok : forall u, 0 <= u < 1114112 -> push_codepoint u = utf8 u.
Proof.
  intros u U. unfold push_codepoint, utf8, char.
  change 63 with (Z.ones 6). rewrite !Z.land_ones, !Z.shiftr_div_pow2 by lia.
  change (2 ^ 6) with 64. change (2 ^ 12) with 4096. change (2 ^ 18) with 262144.
  assert (L : forall x, 0 <= x < 64 -> Z.lor 128 x = 128 + x) by (intros x X; apply (lor_add x 2 6); lia).
  assert (M : forall x, 0 <= x < 64 -> Z.lor 192 x = 192 + x) by (intros x X; apply (lor_add x 3 6); lia).
  assert (N : forall x, 0 <= x < 32 -> Z.lor 224 x = 224 + x) by (intros x X; apply (lor_add x 7 5); lia).
  assert (O : forall x, 0 <= x < 16 -> Z.lor 240 x = 240 + x) by (intros x X; apply (lor_add x 15 4); lia).
  destruct (Z.ltb_spec u 128); [reflexivity|].
  destruct (Z.ltb_spec u 2048); [rewrite M, L by (Z.to_euclidean_division_equations; lia); reflexivity|].
  destruct (Z.ltb_spec u 65536).
  - rewrite N, !L by (Z.to_euclidean_division_equations; lia). reflexivity.
  - rewrite O, !L by (Z.to_euclidean_division_equations; lia). reflexivity.
Qed.

Lemma unescape_ok : forall e b, In (e, b) escapes -> unescape e = Some (ascii_of_nat b).
Proof. intros e b H. repeat (destruct H as [H|H]; [injection H as <- <-; reflexivity|]). destruct H. Qed.

Lemma parse_chars : forall s t, chars s t -> forall out rest, parse_string out (s ++ lit """" ++ rest) = (out ++ t, Some rest).
Proof.
  intros s t C. induction C as [|c s t R Q B C IH|e b s t E C IH|h u s t H S C IH|h u g w s t H G S W C IH]; intros out rest.
  - cbn. rewrite app_nil_r. reflexivity.
  - cbn [app parse_string]. destruct (Z.ltb_spec (code c) 32); [lia|]. destruct (Ascii.eqb_spec c """"); [contradiction|].
    destruct (Ascii.eqb_spec c "\"); [contradiction|]. rewrite IH, <- app_assoc. reflexivity.
  - cbn [app parse_string]. change (code "\" <? 32) with false. cbn [Ascii.eqb Bool.eqb]. cbv iota.
    rewrite (unescape_ok e b E), IH, <- app_assoc. reflexivity.
  - destruct (quadhex_ok h u H) as (a & b & c & d & -> & Q & U). cbn [lit list_ascii_of_string app parse_string].
    change (code "\" <? 32) with false. change (unescape "u") with (@None ascii). cbn [Ascii.eqb Bool.eqb]. cbv iota. rewrite Q.
    assert (X : (55296 <=? u) && (u <=? 57343) = false).
    { apply not_true_iff_false. intros X. apply andb_prop in X. destruct X as [X Y]. apply Z.leb_le in X, Y. lia. }
    rewrite X. specialize (IH (out ++ push_codepoint u) rest). cbn [lit list_ascii_of_string app] in IH. rewrite IH.
    rewrite <- app_assoc, push_ok by lia. reflexivity.
  - destruct (quadhex_ok h u H) as (a & b & c & d & -> & Q & U). destruct (quadhex_ok g w G) as (a' & b' & c' & d' & -> & Q' & U').
    cbn [lit list_ascii_of_string app parse_string].
    change (code "\" <? 32) with false. change (unescape "u") with (@None ascii). cbn [Ascii.eqb Bool.eqb]. cbv iota. rewrite Q.
    destruct (Z.leb_spec 55296 u); [|lia]. destruct (Z.leb_spec u 57343); [|lia]. destruct (Z.leb_spec 56320 u); [lia|].
    cbn [andb]. rewrite Q'. destruct (Z.leb_spec 56320 w); [|lia]. destruct (Z.leb_spec w 57343); [|lia]. cbn [andb].
    specialize (IH (out ++ push_codepoint (Z.lor (Z.shiftl (u - 55296) 10) (Z.land (w - 56320) 1023) + 65536)) rest).
    cbn [lit list_ascii_of_string app] in IH. rewrite IH.
    assert (X : Z.lor (Z.shiftl (u - 55296) 10) (Z.land (w - 56320) 1023) + 65536 = 65536 + 1024 * (u - 55296) + (w - 56320)).
    { change 1023 with (Z.ones 10). rewrite Z.land_ones, Z.mod_small by (change (2 ^ 10) with 1024; lia).
      rewrite Z.shiftl_mul_pow2 by lia. rewrite lor_add by (change (2 ^ 10) with 1024; lia). change (2 ^ 10) with 1024. lia. }
    rewrite X, <- app_assoc, push_ok by lia. reflexivity.
Qed.

Lemma escape_chars : forall c s t, chars s t -> chars (escape c ++ s) (c :: t).
Proof.
  intros c s t C.
  assert (R : escape c = [c] /\ 32 <= code c /\ c <> """"%char /\ c <> "\"%char \/
    (exists e b, In (e, b) escapes /\ escape c = ["\"%char; e] /\ c = ascii_of_nat b) \/
    (exists h u, escape c = lit "\u" ++ h /\ hex4 h u /\ 0 <= u < 128 /\ c = ascii_of_nat (Z.to_nat u))).
  { unfold escape. destruct (Ascii.eqb_spec c """") as [->|N1]; [right; left; eexists; eexists; repeat split; [left; reflexivity|reflexivity]|].
    destruct (Ascii.eqb_spec c "\") as [->|N2]; [right; left; eexists; eexists; repeat split; [right; left; reflexivity|reflexivity]|].
    destruct (Ascii.eqb_spec c "/") as [->|N3]; [right; left; eexists; eexists; repeat split; [do 2 right; left; reflexivity|reflexivity]|].
    assert (K : forall z, code c = z -> c = char z).
    { intros z Z. unfold char. rewrite <- Z. unfold code. rewrite Nat2Z.id, ascii_nat_embedding. reflexivity. }
    destruct (Z.eqb_spec (code c) 8) as [E|_]; [right; left; eexists; eexists; repeat split; [do 3 right; left; reflexivity|exact (K _ E)]|].
    destruct (Z.eqb_spec (code c) 12) as [E|_]; [right; left; eexists; eexists; repeat split; [do 4 right; left; reflexivity|exact (K _ E)]|].
    destruct (Z.eqb_spec (code c) 10) as [E|_]; [right; left; eexists; eexists; repeat split; [do 5 right; left; reflexivity|exact (K _ E)]|].
    destruct (Z.eqb_spec (code c) 13) as [E|_]; [right; left; eexists; eexists; repeat split; [do 6 right; left; reflexivity|exact (K _ E)]|].
    destruct (Z.eqb_spec (code c) 9) as [E|_]; [right; left; eexists; eexists; repeat split; [do 7 right; left; reflexivity|exact (K _ E)]|].
    destruct ((code c <? 32) || (code c =? 127)) eqn:S.
    - right. right. assert (B := code_range c).
      assert (X : code c / 16 < 8 /\ 0 <= code c < 128).
      { apply orb_prop in S. destruct S as [S|S]; [apply Z.ltb_lt in S|apply Z.eqb_eq in S]; Z.to_euclidean_division_equations; lia. }
      assert (HD : forall z, 0 <= z < 16 -> hexdigit (hex_char z) (Z.to_nat z)).
      { intros z Z. rewrite <- (Z2Nat.id z) at 1 by lia. assert (L : (Z.to_nat z < 16)%nat) by lia. generalize dependent (Z.to_nat z). clear.
        intros n L. left. do 16 (destruct n as [|n]; [reflexivity|]). lia. }
      exists ["0"; "0"; hex_char (code c / 16); hex_char (code c mod 16)]%char, (code c). split; [reflexivity|]. split.
      + replace (code c) with (4096 * Z.of_nat 0 + 256 * Z.of_nat 0 + 16 * Z.of_nat (Z.to_nat (code c / 16)) + Z.of_nat (Z.to_nat (code c mod 16))) at 3.
        * constructor; [left; reflexivity|left; reflexivity|apply HD; Z.to_euclidean_division_equations; lia|apply HD; Z.to_euclidean_division_equations; lia].
        * rewrite !Z2Nat.id by (Z.to_euclidean_division_equations; lia). Z.to_euclidean_division_equations; lia.
      + split; [lia|]. apply K. reflexivity.
    - left. apply orb_false_iff in S. destruct S as [S _]. apply Z.ltb_ge in S. repeat split; assumption. }
  destruct R as [(E & L & N1 & N2)|[(e & b & I & E & B)|(h & u & E & H & U & B)]]; rewrite E.
  - apply c_raw; assumption.
  - rewrite B. apply (c_esc e b s t I C).
  - rewrite <- app_assoc. replace (c :: t) with (utf8 u ++ t); [apply c_uni; [exact H|lia|exact C]|].
    unfold utf8. destruct (Z.ltb_spec u 128); [|lia]. cbn [map app]. rewrite <- B. reflexivity.
Qed.
Lemma escape_all : forall s, chars (flat_map escape s) s.
Proof. induction s as [|c s IH]; [constructor|]. apply escape_chars, IH. Qed.

(** Keys. *)
Lemma less_ok : forall a b, less a b = true <-> key_lt a b.
Proof.
  induction a as [|x a IH]; intros [|y b]; cbn [less].
  - split; [discriminate|]. intros H; inversion H.
  - split; [intros _; constructor|reflexivity].
  - split; [discriminate|]. intros H; inversion H.
  - split.
    + intros H. apply orb_prop in H. destruct H as [H|H]; [constructor; apply Z.ltb_lt, H|].
      apply andb_prop in H. destruct H as [E H]. apply Z.eqb_eq, code_inj in E. subst y. apply k_tail, IH, H.
    + intros H. apply orb_true_iff. inversion H; subst; [left; apply Z.ltb_lt; assumption|].
      right. rewrite Z.eqb_refl. apply IH. assumption.
Qed.
Lemma key_irrefl : forall a, ~ key_lt a a.
Proof. induction a as [|x a IH]; intros H; inversion H; [lia|]. apply IH. assumption. Qed.
Lemma key_trans : forall a b c, key_lt a b -> key_lt b c -> key_lt a c.
Proof.
  intros a b c H. revert c. induction H as [x s|x y s t L|x s t L IH]; intros u K; inversion K; subst.
  - constructor. - constructor.
  - constructor. lia. - constructor. exact L.
  - constructor. assumption. - apply k_tail, IH. assumption.
Qed.
Lemma key_total : forall a b, a <> b -> less a b = false -> key_lt b a.
Proof.
  induction a as [|x a IH]; intros [|y b] N L.
  - contradiction. - discriminate. - constructor.
  - cbn in L. apply orb_false_iff in L. destruct L as [L1 L2]. apply Z.ltb_ge in L1.
    destruct (Z.eqb_spec (code x) (code y)) as [E|E]; [|constructor; lia].
    apply code_inj in E. subst y. apply k_tail, IH; [congruence|exact L2].
Qed.

Lemma oget_lookup : forall k o, oget k o = lookup k o.
Proof. intros k o. induction o as [|[k' v] o IH]; [reflexivity|]. cbn. rewrite IH. reflexivity. Qed.
Lemma lookup_oset : forall k v o k', lookup k' (oset k v o) = if list_eq_dec ascii_dec k' k then Some v else lookup k' o.
Proof.
  intros k v o k'. induction o as [|[x w] o IH]; cbn [oset lookup].
  - reflexivity.
  - destruct (list_eq_dec ascii_dec k x) as [->|N].
    + cbn [lookup]. destruct (list_eq_dec ascii_dec k' x); reflexivity.
    + destruct (less k x); cbn [lookup]; [reflexivity|]. rewrite IH.
      destruct (list_eq_dec ascii_dec k' x) as [->|]; [|reflexivity].
      destruct (list_eq_dec ascii_dec x k) as [->|]; [contradiction|reflexivity].
Qed.
Lemma oset_In : forall k v o m, In m (oset k v o) -> m = (k, v) \/ In m o.
Proof.
  intros k v o m. induction o as [|[x w] o IH]; cbn [oset].
  - intros [H|[]]. left. symmetry. exact H.
  - destruct (list_eq_dec ascii_dec k x) as [->|N].
    + intros [H|H]; [left; symmetry; exact H|right; right; exact H].
    + destruct (less k x).
      * intros [H|H]; [left; symmetry; exact H|right; exact H].
      * intros [H|H]; [right; left; exact H|]. destruct (IH H); [left; assumption|right; right; assumption].
Qed.
Lemma oset_sorted : forall k v o, StronglySorted before o -> StronglySorted before (oset k v o).
Proof.
  intros k v o S. induction S as [|[x w] o S IH F]; cbn [oset].
  - repeat constructor.
  - destruct (list_eq_dec ascii_dec k x) as [->|N].
    + constructor; [exact S|]. exact F.
    + destruct (less k x) eqn:L.
      * apply less_ok in L. constructor; [constructor; assumption|]. constructor; [exact L|].
        eapply Forall_impl; [|exact F]. intros [y z] B. unfold before in *. cbn in *. eapply key_trans; eassumption.
      * constructor; [exact IH|]. apply Forall_forall. intros m I. apply oset_In in I. destruct I as [->|I].
        -- apply key_total; assumption.
        -- rewrite Forall_forall in F. apply F, I.
Qed.
Lemma lookup_none : forall k o, Forall (before (k, JNull)) o -> lookup k o = None.
Proof.
  intros k o F. induction F as [|[x w] o B F IH]; [reflexivity|]. cbn. destruct (list_eq_dec ascii_dec k x) as [->|]; [|exact IH].
  exfalso. apply (key_irrefl x B).
Qed.
Lemma sorted_unique : forall o o', StronglySorted before o -> StronglySorted before o' ->
  (forall k, lookup k o = lookup k o') -> o = o'.
Proof.
  intros o o' S. revert o'. induction S as [|[k v] o S IH F]; intros o' S' E.
  - destruct o' as [|[k v] o']; [reflexivity|]. specialize (E k). cbn in E. destruct (list_eq_dec ascii_dec k k); [discriminate|contradiction].
  - destruct o' as [|[k' v'] o'].
    + specialize (E k). cbn in E. destruct (list_eq_dec ascii_dec k k); [discriminate|contradiction].
    + inversion S' as [|? ? S2 F2]; subst.
      assert (K : k = k').
      { destruct (list_eq_dec ascii_dec k k') as [|N]; [assumption|exfalso].
        destruct (less k k') eqn:L.
        - apply less_ok in L. assert (X := E k). cbn in X. destruct (list_eq_dec ascii_dec k k); [|contradiction].
          destruct (list_eq_dec ascii_dec k k'); [contradiction|]. rewrite lookup_none in X; [discriminate|].
          eapply Forall_impl; [|exact F2]. intros [y z] B. unfold before in *. cbn in *. eapply key_trans; eassumption.
        - apply key_total in L; [|exact N]. assert (X := E k'). cbn in X. destruct (list_eq_dec ascii_dec k' k'); [|contradiction].
          destruct (list_eq_dec ascii_dec k' k) as [->|]; [contradiction|]. rewrite lookup_none in X; [discriminate|].
          eapply Forall_impl; [|exact F]. intros [y z] B. unfold before in *. cbn in *. eapply key_trans; eassumption. }
      subst k'. assert (V : v = v').
      { specialize (E k). cbn in E. destruct (list_eq_dec ascii_dec k k); [congruence|contradiction]. }
      subst v'. f_equal. apply IH; [exact S2|]. intros x. specialize (E x). cbn in E.
      destruct (list_eq_dec ascii_dec x k) as [->|]; [|exact E]. rewrite !lookup_none; [reflexivity| |].
      * eapply Forall_impl; [|exact F2]. intros [y z] B. exact B.
      * eapply Forall_impl; [|exact F]. intros [y z] B. exact B.
Qed.
Lemma object_fold : forall l o, object_of l o -> fold_left (fun o m => oset (fst m) (snd m) o) l [] = o.
Proof.
  intros l o [S L]. apply sorted_unique; [|exact S|].
  - clear. cut (forall o, StronglySorted before o -> StronglySorted before (fold_left (fun o m => oset (fst m) (snd m) o) l o)).
    { intros H. apply H. constructor. }
    induction l as [|m l IH]; intros o S; [exact S|]. cbn. apply IH, oset_sorted, S.
  - intros k. rewrite L. clear. rewrite <- fold_left_rev_right. induction (rev l) as [|[x v] r IH]; [reflexivity|].
    cbn [fold_right lookup fst snd]. rewrite lookup_oset, IH. reflexivity.
Qed.
Lemma object_sorted : forall o, StronglySorted before o -> object_of o o.
Proof.
  intros o S. split; [exact S|]. intros k.
  assert (A : forall a b, lookup k (a ++ b) = match lookup k a with Some v => Some v | None => lookup k b end).
  { intros a b. induction a as [|[x v] a IH]; [reflexivity|]. cbn. destruct (list_eq_dec ascii_dec k x); [reflexivity|exact IH]. }
  induction S as [|[x v] o S IH F]; [reflexivity|]. cbn [rev]. rewrite A, <- IH. cbn.
  destruct (list_eq_dec ascii_dec k x) as [->|]; [|destruct (lookup k o); reflexivity].
  rewrite lookup_none; [reflexivity|]. eapply Forall_impl; [|exact F]. intros [y z] B. exact B.
Qed.
