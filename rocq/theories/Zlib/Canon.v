(** Codes from lengths. *)
From Coq Require Import List Bool ZArith Znumtheory Lia.
From Verif.Base Require Import Py.
From Verif.Zlib Require Import Model.
From Verif.Zlib Require Import Spec.
From Verif.Zlib Require Import Bits.
Import ListNotations.
Local Open Scope Z_scope.

(** * Bits the other way round *)
Lemma huffman_len : forall n x, len (huffman n x) = Z.of_nat n.
Proof. intros. unfold len. rewrite huffman_length. reflexivity. Qed.
Lemma field_split : forall n m x, field (n + m) x = field n x ++ field m (x / 2 ^ Z.of_nat n).
Proof.
  intros n m x. unfold field. rewrite seq_app, map_app. f_equal. rewrite <- (Nat.add_0_r (0 + n)). cbn [Nat.add]. transitivity (map (fun i => Z.testbit x (Z.of_nat (n + i))) (seq 0 m)).
  - rewrite Nat.add_0_r. clear. revert n. enough (G : forall a n, map (fun i => Z.testbit x (Z.of_nat i)) (seq (n + a) m) = map (fun i => Z.testbit x (Z.of_nat (n + i))) (seq a m)) by (intros n; rewrite <- (G 0%nat n), Nat.add_0_r; reflexivity).
    induction m as [|m IH]; intros a n; [reflexivity|]. cbn [seq map]. f_equal. rewrite <- IH. f_equal. f_equal. lia.
  - apply map_ext. intros i. rewrite Z.div_pow2_bits by lia. f_equal. lia.
Qed.
Lemma huffman_split : forall n m x, huffman (n + m) x = huffman m (x / 2 ^ Z.of_nat n) ++ huffman n x.
Proof. intros. unfold huffman. rewrite field_split, rev_app_distr. reflexivity. Qed.
(** The first bits of [v], from the high bit on. *)
Definition top (s : nat) (v : Z) : Z := low (huffman s v).
Lemma top_range : forall s v, 0 <= top s v < 2 ^ Z.of_nat s.
Proof. intros s v. assert (R := low_range (huffman s v)). rewrite huffman_len in R. exact R. Qed.
Lemma top_shorter : forall s m v, top (s + m) v / 2 ^ Z.of_nat m = top s v.
Proof.
  intros s m v. unfold top. rewrite huffman_split, low_app, huffman_len. rewrite Z.add_comm, Z.mul_comm, Z.div_add_l by (apply Z.pow_nonzero; lia). rewrite Z.div_small; [lia|]. exact (top_range m _).
Qed.
Lemma field_mod : forall n x, field n (x mod 2 ^ Z.of_nat n) = field n x.
Proof. intros n x. apply low_inj; [rewrite !field_length; reflexivity|]. rewrite !low_field. apply Z.mod_mod, Z.pow_nonzero; lia. Qed.
Lemma top_top : forall s v, top s (top s v) = v mod 2 ^ Z.of_nat s.
Proof.
  intros s v. unfold top at 1. rewrite <- low_field. f_equal. unfold huffman. rewrite <- (rev_involutive (field s v)). f_equal. apply low_inj; [rewrite rev_length, !field_length; reflexivity|]. rewrite low_field_small by apply top_range. reflexivity.
Qed.
Lemma top_zero : forall s, top s 0 = 0.
Proof. intros s. assert (T := top_top s 0). rewrite Z.mod_0_l in T by (apply Z.pow_nonzero; lia). unfold top, huffman, field. transitivity (low (repeat false s)). - f_equal. transitivity (rev (repeat false s)); [f_equal|]. + clear. generalize 0%nat. induction s as [|s IH]; intros a; [reflexivity|]. cbn [seq map repeat]. rewrite Z.testbit_0_l, IH. reflexivity. + clear. induction s as [|s IH]; [reflexivity|]. cbn [repeat rev]. rewrite IH. clear. induction s as [|s IH]; [reflexivity|]. cbn [repeat app]. rewrite IH. reflexivity. - clear. induction s as [|s IH]; [reflexivity|]. cbn [repeat low fold_right]. change (fold_right _ 0 ?l) with (low l). rewrite IH. reflexivity. Qed.
Lemma starts : forall s c v, 0 <= c < 2 ^ Z.of_nat s -> (v mod 2 ^ Z.of_nat s = top s c <-> top s v = c).
Proof.
  intros s c v C. split; intros H.
  - rewrite <- (Z.mod_small c (2 ^ Z.of_nat s)), <- top_top, <- H by exact C. unfold top, huffman. rewrite field_mod. reflexivity.
  - rewrite <- H, top_top. reflexivity.
Qed.
Lemma reverse16 : forall v, 0 <= v < 65536 -> bitreverse16 v = top 16 v.
Proof.
  intros v V. assert (G : forallb (fun i => forallb (fun j => let v := i * 256 + j in bitreverse16 v =? top 16 v) (upto 256)) (upto 256) = true) by (vm_compute; reflexivity).
  rewrite forallb_forall in G. assert (D := Z.div_mod v 256 ltac:(lia)). assert (M := Z.mod_pos_bound v 256 ltac:(lia)). assert (Q : 0 <= v / 256 < 256) by (split; [apply Z.div_pos; lia|apply Z.div_lt_upper_bound; lia]).
  specialize (G (v / 256) (upto_in 256 _ Q)). cbv beta in G. rewrite forallb_forall in G. specialize (G (v mod 256) (upto_in 256 _ M)). cbv zeta beta in G. replace (v / 256 * 256 + v mod 256) with v in G by lia. apply Z.eqb_eq in G. exact G.
Qed.
Lemma reversed : forall s c, (s <= 16)%nat -> 0 <= c < 2 ^ Z.of_nat s -> bit_reverse c (Z.of_nat s) = top s c.
Proof.
  intros s c S C. assert (P : 2 ^ Z.of_nat s <= 65536) by (change 65536 with (2 ^ 16); apply Z.pow_le_mono_r; lia). unfold bit_reverse. rewrite reverse16 by lia. rewrite Z.shiftr_div_pow2 by lia. replace 16%nat with (s + (16 - s))%nat at 1 by lia. replace (16 - Z.of_nat s) with (Z.of_nat (16 - s)) by lia. apply top_shorter.
Qed.

(** * Sums over lengths *)
Section code.
Variable l : list Z.
Definition count (s : Z) (l : list Z) : Z := Z.of_nat (List.length (List.filter (Z.eqb s) l)).
Definition below (s : Z) (l : list Z) : Z := total (map (fun t => if (0 <? t) && (t <? s) then 2 ^ (15 - t) else 0) l).
Definition fewer (s : Z) (l : list Z) : Z := total (map (fun t => if (0 <? t) && (t <? s) then 1 else 0) l).
Lemma count_cons : forall s t k, count s (t :: k) = (if s =? t then 1 else 0) + count s k.
Proof. intros. unfold count. cbn [List.filter]. destruct (s =? t); cbn [List.length]; lia. Qed.
Lemma count_app : forall s a b, count s (a ++ b) = count s a + count s b.
Proof. intros s a b. induction a as [|t a IH]; [reflexivity|]. cbn [app]. rewrite !count_cons, IH. lia. Qed.
Lemma count_pos : forall s k, 0 <= count s k. Proof. intros. unfold count. lia. Qed.
Lemma below_step : forall s k, 0 < s -> below (s + 1) k = below s k + count s k * 2 ^ (15 - s).
Proof.
  intros s k S. induction k as [|t k IH]; [reflexivity|]. rewrite count_cons. unfold below, total in *. cbn [map fold_right]. rewrite IH. destruct (Z.ltb_spec 0 t), (Z.ltb_spec t (s + 1)), (Z.ltb_spec t s), (Z.eqb_spec s t); cbn [andb]; subst; try lia.
Qed.
Lemma fewer_step : forall s k, 0 < s -> fewer (s + 1) k = fewer s k + count s k.
Proof.
  intros s k S. induction k as [|t k IH]; [reflexivity|]. rewrite count_cons. unfold fewer, total in *. cbn [map fold_right]. rewrite IH. destruct (Z.ltb_spec 0 t), (Z.ltb_spec t (s + 1)), (Z.ltb_spec t s), (Z.eqb_spec s t); cbn [andb]; subst; try lia.
Qed.
Lemma below_mono : forall s t k, 0 < s <= t -> below s k <= below t k.
Proof.
  intros s t k [S T]. induction k as [|u k IH]; [cbn; lia|]. unfold below, total in *. cbn [map fold_right]. assert (0 <= 2 ^ (15 - u)) by (apply Z.pow_nonneg; lia). destruct (Z.ltb_spec 0 u), (Z.ltb_spec u s), (Z.ltb_spec u t); cbn [andb]; lia.
Qed.
Lemma fewer_mono : forall s t k, 0 < s <= t -> fewer s k <= fewer t k.
Proof.
  intros s t k [S T]. induction k as [|u k IH]; [cbn; lia|]. unfold fewer, total in *. cbn [map fold_right]. destruct (Z.ltb_spec 0 u), (Z.ltb_spec u s), (Z.ltb_spec u t); cbn [andb]; lia.
Qed.
Lemma below_one : forall k, below 1 k = 0.
Proof. induction k as [|u k IH]; [reflexivity|]. unfold below, total in *. cbn [map fold_right]. rewrite IH. destruct (Z.ltb_spec 0 u), (Z.ltb_spec u 1); cbn [andb]; lia. Qed.
Lemma fewer_one : forall k, fewer 1 k = 0.
Proof. induction k as [|u k IH]; [reflexivity|]. unfold fewer, total in *. cbn [map fold_right]. rewrite IH. destruct (Z.ltb_spec 0 u), (Z.ltb_spec u 1); cbn [andb]; lia. Qed.

Hypothesis OK : sizes_ok l.
Lemma room : below 16 l <= 32768.
Proof.
  destruct OK as [F T]. change (2 ^ 15) with 32768 in T. replace (below 16 l) with (total (map (fun s => if s =? 0 then 0 else 2 ^ (15 - s)) l)); [exact T|]. clear T OK. unfold below, total. induction F as [|t k R F IH]; [reflexivity|]. cbn [map fold_right]. rewrite IH. f_equal. destruct (Z.ltb_spec 0 t), (Z.ltb_spec t 16), (Z.eqb_spec t 0); cbn [andb]; subst; lia.
Qed.
(** First codes and symbols. *)
Definition first_code (s : Z) : Z := below s l / 2 ^ (15 - s).
Lemma pow_pos : forall k, 0 <= k -> 0 < 2 ^ k. Proof. intros. apply Z.pow_pos_nonneg; lia. Qed.
Lemma pow_step : forall i, 0 <= i < 15 -> 2 ^ (15 - i) = 2 * 2 ^ (15 - (i + 1)).
Proof. intros i I. rewrite <- Z.pow_succ_r by lia. f_equal. lia. Qed.
Lemma first_code_whole : forall i, 1 <= i <= 15 -> first_code i * 2 ^ (15 - i) = below i l.
Proof.
  assert (G : forall n : nat, (n <= 14)%nat -> exists q, below (Z.of_nat n + 1) l = q * 2 ^ (15 - (Z.of_nat n + 1))).
  { induction n as [|n IH]; intros N; [exists 0; rewrite below_one; lia|]. destruct IH as [q Q]; [lia|]. exists (2 * (q + count (Z.of_nat n + 1) l)). replace (Z.of_nat (S n)) with (Z.of_nat n + 1) by lia. rewrite below_step, Q by lia. rewrite (pow_step (Z.of_nat n + 1)) by lia. lia. }
  intros i I. destruct (G (Z.to_nat (i - 1)) ltac:(lia)) as [q Q]. replace (Z.of_nat (Z.to_nat (i - 1)) + 1) with i in Q by lia. unfold first_code. rewrite Q. rewrite Z.div_mul; [reflexivity|]. assert (X := pow_pos (15 - i) ltac:(lia)). lia.
Qed.
Lemma first_code_step : forall i, 1 <= i < 15 -> first_code (i + 1) = (first_code i + count i l) * 2.
Proof.
  intros i I. assert (A := first_code_whole i ltac:(lia)). assert (B := first_code_whole (i + 1) ltac:(lia)). rewrite below_step in B by lia. rewrite <- A in B. rewrite (pow_step i) in B by lia. assert (X := pow_pos (15 - (i + 1)) ltac:(lia)). nia.
Qed.
Lemma sizes_count : forall i, 0 < i -> sizes l i = count i l.
Proof. intros i I. unfold sizes, count. destruct (Z.eqb_spec i 0); [lia|reflexivity]. Qed.
Lemma last_code : forall i, 1 <= i <= 15 -> first_code i + count i l <= 2 ^ i.
Proof.
  intros i I. assert (A := first_code_whole i I). assert (B := below_step i l ltac:(lia)). assert (C := below_mono (i + 1) 16 l ltac:(lia)). assert (R := room). assert (X := pow_pos (15 - i) ltac:(lia)). assert (Y : 2 ^ i * 2 ^ (15 - i) = 32768) by (rewrite <- Z.pow_add_r by lia; replace (i + (15 - i)) with 15 by lia; reflexivity). nia.
Qed.
Lemma below_pos : forall s k, 0 <= below s k.
Proof. intros s k. induction k as [|t k IH]; [cbn; lia|]. unfold below, total in *. cbn [map fold_right]. assert (0 <= 2 ^ (15 - t)) by (apply Z.pow_nonneg; lia). destruct (_ && _); lia. Qed.
Lemma first_code_pos : forall i, 1 <= i <= 15 -> 0 <= first_code i.
Proof. intros i I. apply Z.div_pos; [apply below_pos|]. apply pow_pos. lia. Qed.

Definition looped (z : zhuffman) (n : Z) : Prop := forall i, 1 <= i < n -> firstcode z i = first_code i /\ maxcode z i = 2 * below (i + 1) l /\ firstsymbol z i = fewer i l.
Lemma code_loop_ok : forall n i z, 1 <= i -> i + Z.of_nat n = 16 -> looped z i -> fast z = (fun _ => 0) -> size z = (fun _ => None) -> value z = (fun _ => None) ->
  forall code, (n <> 0%nat -> code = first_code i) -> exists z', code_loop l (map (fun k => i + Z.of_nat k) (seq 0 n)) code (fewer i l) z = Ok z' /\ looped z' 16 /\ fast z' = (fun _ => 0) /\ size z' = (fun _ => None) /\ value z' = (fun _ => None).
Proof.
  induction n as [|n IH]; intros i z I N C F S V code E.
  - exists z. split; [reflexivity|]. replace 16 with i by lia. split; [exact C|]. split; [exact F|]. split; assumption.
  - cbn [seq map code_loop]. rewrite Z.add_0_r. cbv zeta. rewrite (E ltac:(discriminate)). rewrite sizes_count by lia.
    assert (LC := last_code i ltac:(lia)). destruct (Z.leb_spec (2 ^ i) (first_code i + count i l - 1)) as [Q|_]; [lia|]. rewrite andb_false_r.
    replace (map (fun k => i + Z.of_nat k) (seq 1 n)) with (map (fun k => i + 1 + Z.of_nat k) (seq 0 n)) by (rewrite <- seq_shift, map_map; apply map_ext; intros k; lia). rewrite <- fewer_step by lia. apply IH; [lia|lia| |exact F|exact S|exact V|].
    + intros j J. cbn [firstcode maxcode firstsymbol]. unfold set. destruct (Z.eqb_spec j i) as [->|NE]; [|apply C; lia]. split; [reflexivity|]. split; [|reflexivity]. rewrite below_step, <- first_code_whole by lia. replace (16 - i) with (Z.succ (15 - i)) by lia. rewrite Z.pow_succ_r by lia. lia.
    + intros NZ. symmetry. apply first_code_step. lia.
Qed.

(** * Symbols *)
Definition sz (c : Z) : Z := size_of l c.
Definition rank (c : Z) : Z := count (sz c) (firstn (Z.to_nat c) l).
Definition code_of (c : Z) : Z := first_code (sz c) + rank c.
Definition place (c : Z) : Z := fewer (sz c) l + rank c.
Definition has (c : Z) : Prop := 0 <= c < len l /\ 0 < sz c.
Lemma nth_split_at : forall c, 0 <= c < len l -> l = firstn (Z.to_nat c) l ++ sz c :: skipn (S (Z.to_nat c)) l.
Proof.
  intros c C. unfold sz, size_of. rewrite <- (firstn_skipn (Z.to_nat c) l) at 1. f_equal. unfold len in C. assert (L : (Z.to_nat c < List.length l)%nat) by lia. revert L. generalize (Z.to_nat c). clear. intros n. revert l. induction n as [|n IH]; intros [|t k] L; cbn [List.length] in L; try lia; [reflexivity|]. cbn [skipn nth]. apply IH. lia.
Qed.
Lemma sz_range : forall c, has c -> 1 <= sz c <= 15.
Proof. intros c [C S]. assert (R := proj1 (Forall_forall _ _) (proj1 OK) (sz c)). assert (I : In (sz c) l) by (apply nth_In; unfold len in C; lia). specialize (R I). cbv beta in R. lia. Qed.
Lemma rank_range : forall c, has c -> 0 <= rank c < count (sz c) l.
Proof. intros c [C S]. assert (P1 := count_pos (sz c) (firstn (Z.to_nat c) l)). assert (P2 := count_pos (sz c) (skipn (Datatypes.S (Z.to_nat c)) l)). assert (E := f_equal (count (sz c)) (nth_split_at c C)). rewrite count_app, count_cons, Z.eqb_refl in E. unfold rank. lia. Qed.
Lemma rank_less : forall c d, 0 <= c < d -> d < len l -> sz c = sz d -> rank c < rank d.
Proof.
  intros c d C D E. unfold rank. rewrite <- E. assert (X : firstn (Z.to_nat d) l = firstn (Z.to_nat c) l ++ sz c :: firstn (Z.to_nat d - S (Z.to_nat c)) (skipn (S (Z.to_nat c)) l)).
  { rewrite (nth_split_at c) at 1 by lia. rewrite firstn_app, firstn_length. unfold len in D. rewrite Nat.min_l by lia. rewrite firstn_all2 by (rewrite firstn_length; lia). f_equal. replace (Z.to_nat d - Z.to_nat c)%nat with (S (Z.to_nat d - S (Z.to_nat c))) by lia. reflexivity. }
  rewrite X, count_app, count_cons, Z.eqb_refl. assert (P := count_pos (sz c) (firstn (Z.to_nat d - S (Z.to_nat c)) (skipn (S (Z.to_nat c)) l))). lia.
Qed.
Lemma code_range : forall c, has c -> 0 <= code_of c < 2 ^ sz c.
Proof. intros c H. assert (S := sz_range c H). assert (R := rank_range c H). assert (L := last_code (sz c) S). assert (P := first_code_pos (sz c) S). unfold code_of. lia. Qed.
Lemma interval : forall c, has c -> below (sz c) l <= code_of c * 2 ^ (15 - sz c) /\ (code_of c + 1) * 2 ^ (15 - sz c) <= below (sz c + 1) l.
Proof. intros c H. assert (S := sz_range c H). assert (R := rank_range c H). assert (W := first_code_whole (sz c) S). rewrite below_step by lia. assert (X := pow_pos (15 - sz c) ltac:(lia)). unfold code_of. nia. Qed.
(** No code begins another. *)
Lemma disjoint : forall c d k, has c -> has d -> k / 2 ^ (15 - sz c) = code_of c -> k / 2 ^ (15 - sz d) = code_of d -> c = d.
Proof.
  intros c d k HC HD EC ED. assert (SC := sz_range c HC). assert (SD := sz_range d HD). assert (IC := interval c HC). assert (ID := interval d HD). assert (XC := pow_pos (15 - sz c) ltac:(lia)). assert (XD := pow_pos (15 - sz d) ltac:(lia)).
  assert (KC : code_of c * 2 ^ (15 - sz c) <= k < (code_of c + 1) * 2 ^ (15 - sz c)) by (assert (D := Z.div_mod k (2 ^ (15 - sz c)) ltac:(lia)); assert (M := Z.mod_pos_bound k (2 ^ (15 - sz c)) XC); rewrite EC in D; lia).
  assert (KD : code_of d * 2 ^ (15 - sz d) <= k < (code_of d + 1) * 2 ^ (15 - sz d)) by (assert (D := Z.div_mod k (2 ^ (15 - sz d)) ltac:(lia)); assert (M := Z.mod_pos_bound k (2 ^ (15 - sz d)) XD); rewrite ED in D; lia).
  destruct (Z.lt_trichotomy (sz c) (sz d)) as [L|[E|L]].
  - assert (M := below_mono (sz c + 1) (sz d) l ltac:(lia)). lia.
  - rewrite E in *. assert (CE : code_of c = code_of d) by (rewrite <- EC; exact ED). unfold code_of in CE. rewrite E in CE. destruct HC as [HC _], HD as [HD _]. destruct (Z.lt_trichotomy c d) as [LT|[EQ|LT]]; [assert (R := rank_less c d ltac:(lia) ltac:(lia) E); lia|exact EQ|assert (R := rank_less d c ltac:(lia) ltac:(lia) (eq_sym E)); lia].
  - assert (M := below_mono (sz d + 1) (sz c) l ltac:(lia)). lia.
Qed.
Lemma place_inj : forall c d, has c -> has d -> place c = place d -> c = d.
Proof.
  intros c d HC HD E. assert (SC := sz_range c HC). assert (SD := sz_range d HD). assert (RC := rank_range c HC). assert (RD := rank_range d HD). assert (FC := fewer_step (sz c) l ltac:(lia)). assert (FD := fewer_step (sz d) l ltac:(lia)). unfold place in E.
  destruct (Z.lt_trichotomy (sz c) (sz d)) as [L|[S|L]]; [assert (M := fewer_mono (sz c + 1) (sz d) l ltac:(lia)); lia| |assert (M := fewer_mono (sz d + 1) (sz c) l ltac:(lia)); lia].
  rewrite S in *. destruct HC as [HC _], HD as [HD _]. destruct (Z.lt_trichotomy c d) as [LT|[EQ|LT]]; [assert (R := rank_less c d ltac:(lia) ltac:(lia) S); lia|exact EQ|assert (R := rank_less d c ltac:(lia) ltac:(lia) (eq_sym S)); lia].
Qed.

(** * The tables *)
Lemma set_fast_at : forall r f j step v b, 0 < step -> 0 <= j -> 512 <= j + Z.of_nat r * step -> 0 <= b < 512 ->
  set_fast r f j step v b = if (j <=? b) && ((b - j) mod step =? 0) then v else f b.
Proof.
  induction r as [|r IH]; intros f j step v b S J R B; cbn [set_fast].
  - destruct (Z.leb_spec j b); [lia|reflexivity].
  - destruct (Z.ltb_spec j 512) as [L|L]; [|destruct (Z.leb_spec j b); [lia|reflexivity]]. rewrite IH by lia. unfold set. destruct (Z.eqb_spec b j) as [->|NE].
    + rewrite Z.leb_refl, Z.sub_diag, Z.mod_0_l by lia. cbn [andb]. change (0 =? 0) with true. destruct (Z.leb_spec (j + step) j); [lia|reflexivity].
    + destruct (Z.leb_spec (j + step) b) as [L1|L1], (Z.leb_spec j b) as [L2|L2]; try lia; cbn [andb].
      * replace (b - j) with (b - (j + step) + 1 * step) by lia. rewrite Z_mod_plus_full. reflexivity.
      * rewrite Z.mod_small by lia. destruct (Z.eqb_spec (b - j) 0); [lia|reflexivity].
      * reflexivity.
Qed.
Lemma set_fast_ok : forall f s c v b, (1 <= s <= 9)%nat -> 0 <= c < 2 ^ Z.of_nat s -> 0 <= b < 512 ->
  set_fast 512 f (bit_reverse c (Z.of_nat s)) (2 ^ Z.of_nat s) v b = if top s b =? c then v else f b.
Proof.
  intros f s c v b S C B. rewrite reversed by lia. assert (T := top_range s c). assert (P : 1 <= 2 ^ Z.of_nat s) by (assert (X := pow_pos (Z.of_nat s) ltac:(lia)); lia). rewrite set_fast_at by (try lia; change (Z.of_nat 512) with 512; nia).
  assert (ST := starts s c b C). set (q := 2 ^ Z.of_nat s) in *. set (t := top s c) in *.
  assert (EQ : (t <=? b) && ((b - t) mod q =? 0) = (b mod q =? t)).
  { assert (D := Z.div_mod b q ltac:(lia)). assert (M := Z.mod_pos_bound b q ltac:(lia)). destruct (Z.eqb_spec (b mod q) t) as [E|E].
    - apply andb_true_iff. split; [apply Z.leb_le; assert (0 <= b / q) by (apply Z.div_pos; lia); nia|]. apply Z.eqb_eq. replace (b - t) with (0 + b / q * q) by lia. rewrite Z_mod_plus_full. apply Z.mod_0_l. lia.
    - apply andb_false_iff. right. apply Z.eqb_neq. intros Z0. apply E. apply Z.mod_divide in Z0; [|lia]. destruct Z0 as [k K]. replace b with (t + k * q) by lia. rewrite Z_mod_plus_full. apply Z.mod_small. exact T. }
  rewrite EQ. destruct (Z.eqb_spec (b mod q) t) as [E|E], (Z.eqb_spec (top s b) c) as [E2|E2]; try reflexivity; tauto.
Qed.
Record filled_to (z : zhuffman) (n : Z) : Prop := {
  ft_code : forall i, 1 <= i < 16 -> firstcode z i = first_code i /\ maxcode z i = 2 * below (i + 1) l /\ firstsymbol z i = fewer i l;
  ft_fast : forall b c, 0 <= b < 512 -> has c -> c < n -> sz c <= 9 -> top (Z.to_nat (sz c)) b = code_of c -> fast z b = sz c * 512 + c;
  ft_none : forall b, 0 <= b < 512 -> (forall c, has c -> c < n -> sz c <= 9 -> top (Z.to_nat (sz c)) b <> code_of c) -> fast z b = 0;
  ft_symbol : forall c, has c -> c < n -> size z (place c) = Some (sz c) /\ value z (place c) = Some c }.
Lemma top_15 : forall s b, 1 <= s <= 15 -> top 15 b / 2 ^ (15 - s) = top (Z.to_nat s) b.
Proof. intros s b S. rewrite <- (top_shorter (Z.to_nat s) (15 - Z.to_nat s) b). replace (Z.to_nat s + (15 - Z.to_nat s))%nat with 15%nat by lia. f_equal. f_equal. lia. Qed.
Lemma symbols_ok : forall rest pre z nc, l = pre ++ rest -> filled_to z (len pre) -> (forall s, 1 <= s <= 15 -> nc s = first_code s + count s pre) -> filled_to (symbol_loop rest (len pre) nc z) (len l).
Proof.
  induction rest as [|s rest IH]; intros pre z nc E F N; [rewrite app_nil_r in E; subst pre; exact F|]. cbn [symbol_loop].
  assert (CL : 0 <= len pre < len l) by (rewrite E, len_app; unfold len; cbn [List.length]; lia). set (c := len pre) in *.
  assert (FN : firstn (Z.to_nat c) l = pre) by (rewrite E; unfold c, len; rewrite Nat2Z.id, firstn_app, Nat.sub_diag, firstn_all; cbn [firstn]; apply app_nil_r).
  assert (SZ : sz c = s) by (unfold sz, size_of; rewrite E; unfold c, len; rewrite Nat2Z.id, app_nth2, Nat.sub_diag by lia; reflexivity).
  assert (E' : l = (pre ++ [s]) ++ rest) by (rewrite <- app_assoc; exact E). assert (LP : len (pre ++ [s]) = c + 1) by (rewrite len_app; reflexivity).
  assert (R0 := proj1 (Forall_forall _ _) (proj1 OK) s ltac:(rewrite E; apply in_or_app; right; left; reflexivity)). cbv beta in R0.
  destruct (Z.eqb_spec s 0) as [Z0|NZ].
  - rewrite <- LP. apply IH; [exact E'| |].
    + rewrite LP. assert (NC : forall d, has d -> d < c + 1 -> d < c) by (intros d [HD SD] L; destruct (Z.eq_dec d c) as [->|X]; lia). destruct F as [F1 F2 F3 F4]. constructor; [exact F1| | |].
      * intros b d B H L. apply F2; auto.
      * intros b B H. apply F3; [exact B|]. intros d HD L. apply H; [exact HD|lia].
      * intros d H L. apply F4; auto.
    + intros t T. rewrite N, count_app, count_cons by exact T. destruct (Z.eqb_spec t s); [lia|]. unfold count at 3. cbn. lia.
  - assert (HC : has c) by (split; [exact CL|lia]). assert (SR : 1 <= s <= 15) by lia. assert (RK : rank c = count s pre) by (unfold rank; rewrite SZ, FN; reflexivity). assert (CO : nc s = code_of c) by (rewrite N by exact SR; unfold code_of; rewrite SZ, RK; reflexivity).
    destruct F as [F1 F2 F3 F4]. destruct (F1 s ltac:(lia)) as (G1 & G2 & G3). rewrite G1, G3, CO. replace (code_of c - first_code s + fewer s l) with (place c) by (unfold place, code_of; rewrite SZ; lia).
    assert (CR := code_range c HC). rewrite SZ in CR.
    assert (FA : forall b, 0 <= b < 512 -> (if s <=? 9 then set_fast 512 (fast z) (bit_reverse (code_of c) s) (2 ^ s) (s * 512 + c) else fast z) b = if (s <=? 9) && (top (Z.to_nat s) b =? code_of c) then s * 512 + c else fast z b).
    { intros b B. destruct (Z.leb_spec s 9) as [S9|S9]; [|reflexivity]. cbn [andb]. replace s with (Z.of_nat (Z.to_nat s)) at 1 2 by lia. apply set_fast_ok; [lia|rewrite Z2Nat.id by lia; exact CR|exact B]. }
    rewrite <- LP. apply IH; [exact E'| |].
    + rewrite LP. constructor; cbn [firstcode maxcode firstsymbol fast size value]; [exact F1| | |].
      * intros b d B HD L S9 T. rewrite FA by exact B. destruct (Z.eq_dec d c) as [->|NE].
        -- rewrite SZ in *. destruct (Z.leb_spec s 9); [|lia]. rewrite T, Z.eqb_refl. reflexivity.
        -- destruct (Z.leb_spec s 9) as [S9'|S9']; cbn [andb]; [|apply F2; try assumption; lia]. destruct (Z.eqb_spec (top (Z.to_nat s) b) (code_of c)) as [Q|_]; [|apply F2; try assumption; lia]. exfalso. apply NE. apply (disjoint d c (top 15 b) HD HC); rewrite top_15 by (try apply sz_range; assumption); [exact T|rewrite SZ; exact Q].
      * intros b B H. rewrite FA by exact B. destruct (Z.leb_spec s 9) as [S9|S9]; cbn [andb].
        -- destruct (Z.eqb_spec (top (Z.to_nat s) b) (code_of c)) as [Q|_]; [exfalso; apply (H c HC ltac:(lia)); rewrite SZ; [exact S9|exact Q]|]. apply F3; [exact B|]. intros d HD L. apply H; [exact HD|lia].
        -- apply F3; [exact B|]. intros d HD L. apply H; [exact HD|lia].
      * intros d HD L. unfold set. destruct (Z.eqb_spec (place d) (place c)) as [Q|Q].
        -- apply (place_inj d c HD HC) in Q. subst d. rewrite SZ. split; reflexivity.
        -- apply F4; [exact HD|]. destruct (Z.eq_dec d c) as [->|X]; [contradiction|lia].
    + intros t T. unfold set. rewrite count_app, count_cons. destruct (Z.eqb_spec t s) as [->|NE]; [|rewrite N by exact T; unfold count at 3; cbn; lia]. unfold code_of. rewrite SZ, RK. unfold count at 3. cbn. lia.
Qed.
Lemma built : exists z, zbuild_huffman l = Ok z /\ filled_to z (len l).
Proof.
  unfold zbuild_huffman. assert (X : existsb (fun i => 2 ^ i <? sizes l i) lengths = false).
  { apply not_true_is_false. intros E. apply existsb_exists in E. destruct E as (i & I & L). apply Z.ltb_lt in L. assert (R : 1 <= i <= 15) by (unfold lengths in I; cbn [In] in I; lia). rewrite sizes_count in L by lia. assert (A := last_code i R). assert (B := first_code_pos i R). lia. }
  rewrite X. change lengths with (map (fun k => 1 + Z.of_nat k) (seq 0 15)).
  match goal with |- context [code_loop _ _ _ _ ?z0] => destruct (code_loop_ok 15 1 z0 ltac:(lia) eq_refl ltac:(intros i I; lia) eq_refl eq_refl eq_refl 0) as (z & E & C & F & S & V) end.
  { intros _. unfold first_code. rewrite below_one. reflexivity. }
  rewrite fewer_one in E. rewrite E. cbn [bind]. eexists. split; [reflexivity|]. apply (symbols_ok l [] _ _ eq_refl).
  - constructor; cbn [firstcode maxcode firstsymbol fast size value].
    + intros i I. unfold set. destruct (Z.eqb_spec i 16); [lia|]. apply C. lia.
    + intros b c _ [H _] L. unfold len in L. cbn in L. lia.
    + intros b _ _. rewrite F. reflexivity.
    + intros c [H _] L. unfold len in L. cbn in L. lia.
  - intros s SR. cbn [firstcode]. destruct (C s ltac:(lia)) as (-> & _). unfold count. cbn. lia.
Qed.
(** * The codes of the specification *)
Lemma start_sum : forall d s k pre, total (map (fun c => if (0 <? size_of (pre ++ k) c) && ((size_of (pre ++ k) c <? s) || ((size_of (pre ++ k) c =? s) && (c <? d))) then 2 ^ (15 - size_of (pre ++ k) c) else 0) (map Z.of_nat (seq (List.length pre) (List.length k))))
  = below s k + (if 0 <? s then count s (firstn (Z.to_nat (d - len pre)) k) * 2 ^ (15 - s) else 0).
Proof.
  intros d s. induction k as [|t k IH]; intros pre; [cbn [List.length seq map total fold_right below]; rewrite firstn_nil; unfold count; cbn; destruct (0 <? s); reflexivity|]. cbn [List.length seq map total fold_right]. change (fold_right Z.add 0) with total.
  assert (T : size_of (pre ++ t :: k) (Z.of_nat (List.length pre)) = t) by (unfold size_of; rewrite Nat2Z.id, app_nth2, Nat.sub_diag by lia; reflexivity). rewrite T. specialize (IH (pre ++ [t])). rewrite app_length in IH. cbn [List.length] in IH. rewrite Nat.add_1_r in IH. rewrite <- app_assoc in IH. cbn [app] in IH. rewrite IH. clear IH. rewrite len_app. change (len [t]) with 1. fold (len pre).
  change (below s (t :: k)) with ((if (0 <? t) && (t <? s) then 2 ^ (15 - t) else 0) + below s k).
  destruct (Z.ltb_spec (len pre) d) as [L|L].
  - replace (Z.to_nat (d - len pre)) with (S (Z.to_nat (d - (len pre + 1)))) by lia. cbn [firstn]. rewrite count_cons. destruct (Z.ltb_spec 0 t), (Z.ltb_spec t s), (Z.eqb_spec t s), (Z.eqb_spec s t), (Z.ltb_spec 0 s); cbn [andb orb]; subst; try lia.
  - replace (Z.to_nat (d - len pre)) with 0%nat by lia. replace (Z.to_nat (d - (len pre + 1))) with 0%nat by lia. cbn [firstn]. destruct (Z.ltb_spec 0 t), (Z.ltb_spec t s), (Z.eqb_spec t s), (Z.ltb_spec 0 s); cbn [andb orb]; subst; try lia.
Qed.
Lemma canonical_code : forall c, has c -> canonical l c = huffman (Z.to_nat (sz c)) (code_of c).
Proof.
  intros c H. assert (S := sz_range c H). assert (X := pow_pos (15 - sz c) ltac:(lia)). unfold canonical. fold (sz c). f_equal. unfold start_of, symbols.
  transitivity ((below (sz c) l + rank c * 2 ^ (15 - sz c)) / 2 ^ (15 - sz c)).
  - f_equal. assert (G := start_sum c (sz c) l []). cbn [app List.length] in G. change (len []) with 0 in G. rewrite Z.sub_0_r in G. destruct (Z.ltb_spec 0 (sz c)) as [_|Q] in G; [|lia]. exact G.
  - rewrite <- (first_code_whole (sz c) S). rewrite <- Z.mul_add_distr_r, Z.div_mul by lia. reflexivity.
Qed.
Lemma build_decodes : len l <= 512 -> exists z, zbuild_huffman l = Ok z /\ decodes z has (canonical l) /\ forall c, has c -> canonical l c <> [].
Proof.
  intros L512. destruct built as (z & B & [F1 F2 F3 F4]). exists z. split; [exact B|]. split; [|intros c H E; apply (f_equal (@List.length bool)) in E; rewrite canonical_code, huffman_length in E by exact H; assert (S := sz_range c H); cbn in E; lia].
  intros a c bits H A. assert (S := sz_range c H). assert (CR := code_range c H). rewrite canonical_code in A by exact H.
  unfold zhuffman_decode. set (a1 := if num_bits a <? 16 then fill_bits a else a).
  assert (G : at_bits a1 (huffman (Z.to_nat (sz c)) (code_of c) ++ bits) /\ 16 <= num_bits a1 /\ written a1 = written a).
  { unfold a1. destruct (Z.ltb_spec (num_bits a) 16) as [Y|Y]; [|split; [exact A|split; [exact Y|reflexivity]]]. destruct (filled a _ A ltac:(lia)) as (G1 & G2 & G3). split; [exact G1|]. split; [lia|exact G3]. }
  destruct G as (G1 & G2 & G3). assert (LH : len (huffman (Z.to_nat (sz c)) (code_of c)) = sz c) by (rewrite huffman_len; lia). destruct (shifted a1 _ bits G1 ltac:(lia)) as [S1 S2]. rewrite LH in S1, S2. set (v := code_buffer a1) in *.
  assert (T : top (Z.to_nat (sz c)) v = code_of c) by (apply starts; rewrite ?Z2Nat.id by lia; [exact CR|exact S1]).
  assert (B9 : 0 <= v mod 512 < 512) by (apply Z.mod_pos_bound; lia).
  assert (TM : forall s, 1 <= s <= 9 -> top (Z.to_nat s) (v mod 512) = top (Z.to_nat s) v).
  { intros s SR. unfold top, huffman. f_equal. f_equal. rewrite <- (field_mod _ (v mod 512)), <- (field_mod _ v). f_equal. symmetry. apply Znumtheory.Zmod_div_mod; [apply pow_pos; lia|lia|]. exists (2 ^ (9 - s)). rewrite Z2Nat.id by lia. rewrite <- Z.pow_add_r by lia. replace (9 - s + s) with 9 by lia. reflexivity. }
  exists (shift (sz c) a1). split; [|split; [exact S2|exact G3]]. cbv zeta. destruct (Z.le_gt_cases (sz c) 9) as [S9|S9].
  - rewrite (F2 (v mod 512) c B9 H ltac:(apply H) S9) by (rewrite TM by lia; exact T). destruct H as [H _]. destruct (Z.eqb_spec (sz c * 512 + c) 0) as [Q|_]; [lia|]. do 2 f_equal; [|f_equal].
    + rewrite Z.add_comm, Z_mod_plus_full. apply Z.mod_small. lia.
    + rewrite Z.div_add_l by lia. rewrite (Z.div_small c) by lia. lia.
  - rewrite (F3 (v mod 512) B9).
    2: { intros d HD _ D9 Q. assert (DS := sz_range d HD). rewrite TM in Q by lia. assert (E : c = d) by (apply (disjoint c d (top 15 v) H HD); rewrite top_15 by lia; assumption). subst d. lia. }
    change (0 =? 0) with true. cbv iota. unfold zhuffman_decode_slowpath. fold v. assert (V16 : 0 <= v mod 65536 < 65536) by (apply Z.mod_pos_bound; lia).
    assert (RV : bit_reverse (v mod 65536) 16 = top 16 v) by (transitivity (top 16 (v mod 65536)); [exact (reversed 16 _ ltac:(lia) V16)|]; unfold top, huffman; f_equal; f_equal; exact (field_mod 16 v)). rewrite RV. set (k := top 16 v). cbv zeta.
    assert (K : k / 2 ^ (16 - sz c) = code_of c). { unfold k. rewrite <- T. rewrite <- (top_shorter (Z.to_nat (sz c)) (16 - Z.to_nat (sz c)) v). replace (Z.to_nat (sz c) + (16 - Z.to_nat (sz c)))%nat with 16%nat by lia. f_equal. f_equal. lia. }
    assert (IV := interval c H). assert (P16 : 2 ^ (16 - sz c) = 2 * 2 ^ (15 - sz c)) by (rewrite <- Z.pow_succ_r by lia; f_equal; lia). assert (X := pow_pos (15 - sz c) ltac:(lia)).
    assert (KB : 2 * below (sz c) l <= k < 2 * below (sz c + 1) l). { assert (D := Z.div_mod k (2 ^ (16 - sz c)) ltac:(lia)). assert (M := Z.mod_pos_bound k (2 ^ (16 - sz c)) ltac:(lia)). rewrite K in D. rewrite P16 in D, M. lia. }
    assert (FD : find (fun s => k <? maxcode z s) [10; 11; 12; 13; 14; 15] = Some (sz c)).
    { assert (Q : forall s, 10 <= s <= 15 -> (k <? maxcode z s) = (sz c <=? s)).
      { intros s SR. destruct (F1 s ltac:(lia)) as (_ & -> & _). destruct (Z.leb_spec (sz c) s) as [Y|Y].
        - apply Z.ltb_lt. assert (M := below_mono (sz c + 1) (s + 1) l ltac:(lia)). lia.
        - apply Z.ltb_ge. assert (M := below_mono (s + 1) (sz c) l ltac:(lia)). lia. }
      cbn [find]. rewrite !Q by lia. assert (C6 : sz c = 10 \/ sz c = 11 \/ sz c = 12 \/ sz c = 13 \/ sz c = 14 \/ sz c = 15) by lia. destruct C6 as [->|[->|[->|[->|[->| ->]]]]]; reflexivity. }
    rewrite FD, K. destruct (F1 (sz c) ltac:(lia)) as (E1 & _ & E3). rewrite E1, E3. replace (code_of c - first_code (sz c) + fewer (sz c) l) with (place c) by (unfold place, code_of; lia). destruct (F4 c H ltac:(apply H)) as [V1 V2]. rewrite V1, V2, Z.eqb_refl. reflexivity.
Qed.
End code.

(** * Lengths, and the blocks that bring their own codes *)
Fixpoint put (order : list nat) (w l : list Z) : list Z :=
  match order, w with
  | i :: order, s :: w => put order w (firstn i l ++ [s] ++ skipn (S i) l)
  | _, _ => l
  end.
Lemma code_lengths_read : forall order w a l rest, (List.length w <= List.length order)%nat -> Forall (fun s => 0 <= s <= 7) w -> at_bits a (flat_map (field 3) w ++ rest) ->
  exists a', code_lengths order (len w) a l = (put order w l, a') /\ at_bits a' rest /\ written a' = written a.
Proof.
  induction order as [|i order IH]; intros w a l rest L F A.
  - destruct w; [|cbn in L; lia]. exists a. split; [reflexivity|]. split; [exact A|reflexivity].
  - destruct w as [|s w]; [exists a; split; [reflexivity|]; split; [exact A|reflexivity]|]. inversion F as [|? ? R7 F']; subst. cbn [flat_map] in A. rewrite <- app_assoc in A. cbn [code_lengths put]. replace (len (s :: w)) with (len w + 1) by (unfold len; cbn [List.length]; lia). destruct (Z.leb_spec (len w + 1) 0) as [Q|_]; [unfold len in Q; lia|].
    destruct (received 3 a s _ A ltac:(lia) ltac:(cbn; lia)) as (a1 & E1 & A1 & W1). change (Z.of_nat 3) with 3 in E1. rewrite E1. cbv iota. replace (len w + 1 - 1) with (len w) by lia. cbn [List.length] in L. destruct (IH w a1 (firstn i l ++ [s] ++ skipn (S i) l) rest ltac:(lia) F' A1) as (a2 & E2 & A2 & W2). exists a2. split; [exact E2|]. split; [exact A2|congruence].
Qed.
Lemma put_order : forall w cl, (List.length w <= 19)%nat -> List.length cl = 19%nat -> (forall k, (k < 19)%nat -> nth (nth k length_order 0%nat) cl 0 = nth k w 0) -> put length_dezigzag w (repeat 0 19) = cl.
Proof.
  intros w cl L C H. do 19 (destruct cl as [|? cl]; [discriminate C|]). destruct cl; [|discriminate C]. clear C.
  assert (H0 := H 0%nat ltac:(lia)). assert (H1 := H 1%nat ltac:(lia)). assert (H2 := H 2%nat ltac:(lia)). assert (H3 := H 3%nat ltac:(lia)). assert (H4 := H 4%nat ltac:(lia)). assert (H5 := H 5%nat ltac:(lia)). assert (H6 := H 6%nat ltac:(lia)). assert (H7 := H 7%nat ltac:(lia)). assert (H8 := H 8%nat ltac:(lia)). assert (H9 := H 9%nat ltac:(lia)). assert (H10 := H 10%nat ltac:(lia)). assert (H11 := H 11%nat ltac:(lia)). assert (H12 := H 12%nat ltac:(lia)). assert (H13 := H 13%nat ltac:(lia)). assert (H14 := H 14%nat ltac:(lia)). assert (H15 := H 15%nat ltac:(lia)). assert (H16 := H 16%nat ltac:(lia)). assert (H17 := H 17%nat ltac:(lia)). assert (H18 := H 18%nat ltac:(lia)). clear H. cbn [nth length_order] in H0, H1, H2, H3, H4, H5, H6, H7, H8, H9, H10, H11, H12, H13, H14, H15, H16, H17, H18. rewrite H0, H1, H2, H3, H4, H5, H6, H7, H8, H9, H10, H11, H12, H13, H14, H15, H16, H17, H18. clear - L.
  do 19 (destruct w as [|? w]; [reflexivity|]). destruct w; [reflexivity|cbn in L; lia].
Qed.
Lemma lengths_grow : forall has code l bits after, length_codes has code l bits after -> (List.length l <= List.length after)%nat.
Proof. intros has code l bits after H. induction H; try rewrite app_length in IHlength_codes; cbn in *; lia. Qed.
Lemma lengths_read : forall z cl, decodes z (used cl) (canonical cl) -> len cl = 19 ->
  forall l bits after, length_codes (used cl) (canonical cl) l bits after -> forall turns a rest, (List.length after - List.length l <= turns)%nat -> at_bits a (bits ++ rest) ->
  exists a', read_lengths turns (len after) z a l = Ok (after, a') /\ at_bits a' rest /\ written a' = written a.
Proof.
  intros z cl D C l bits after H. induction H as [l|l c bits after R U H IH|l x bits after N U X H IH|l x bits after U X H IH|l x bits after U X H IH]; intros turns a rest T A.
  - exists a. split; [|split; [exact A|reflexivity]]. destruct turns; cbn [read_lengths]; fold (len l); rewrite Z.leb_refl; reflexivity.
  - assert (G := lengths_grow _ _ _ _ _ H). rewrite app_length in G. cbn [List.length] in G. destruct turns as [|turns]; [lia|]. rewrite <- app_assoc in A. destruct (D a c _ U A) as (a1 & E1 & A1 & W1). cbn [read_lengths]. destruct (Z.leb_spec (len after) (Z.of_nat (List.length l))) as [Q|_]; [unfold len in Q; lia|]. rewrite E1. cbn [bind]. destruct (Z.leb_spec 19 c) as [Q|_]; [lia|]. destruct (Z.ltb_spec c 16) as [_|Q]; [|lia].
    destruct (IH turns a1 rest) as (a2 & E2 & A2 & W2); [rewrite app_length; cbn [List.length]; lia|exact A1|]. exists a2. split; [exact E2|]. split; [exact A2|congruence].
  - assert (G := lengths_grow _ _ _ _ _ H). rewrite app_length, repeat_length in G. destruct turns as [|turns]; [lia|]. rewrite <- !app_assoc in A. destruct (D a 16 _ U A) as (a1 & E1 & A1 & W1). cbn [read_lengths]. destruct (Z.leb_spec (len after) (Z.of_nat (List.length l))) as [Q|_]; [unfold len in Q; lia|]. rewrite E1. cbn [bind]. change (19 <=? 16) with false. change (16 <? 16) with false. change (16 =? 16) with true. cbv iota.
    destruct (received 2 a1 x _ A1 ltac:(lia) ltac:(cbn; lia)) as (a2 & E2 & A2 & W2). change (Z.of_nat 2) with 2 in E2. rewrite E2. cbv iota.
    destruct (IH turns a2 rest) as (a3 & E3 & A3 & W3); [rewrite app_length, repeat_length; lia|exact A2|]. exists a3. split; [|split; [exact A3|congruence]].
    destruct (Z.ltb_spec (len after - Z.of_nat (List.length l)) (x + 3)) as [Q|_]; [unfold len in Q; lia|]. rewrite (Z.add_comm x 3). destruct l as [|l0 l]; [contradiction|]. exact E3.
  - assert (G := lengths_grow _ _ _ _ _ H). rewrite app_length, repeat_length in G. destruct turns as [|turns]; [lia|]. rewrite <- !app_assoc in A. destruct (D a 17 _ U A) as (a1 & E1 & A1 & W1). cbn [read_lengths]. destruct (Z.leb_spec (len after) (Z.of_nat (List.length l))) as [Q|_]; [unfold len in Q; lia|]. rewrite E1. cbn [bind]. change (19 <=? 17) with false. change (17 <? 16) with false. change (17 =? 16) with false. change (17 =? 17) with true. cbv iota.
    destruct (received 3 a1 x _ A1 ltac:(lia) ltac:(cbn; lia)) as (a2 & E2 & A2 & W2). change (Z.of_nat 3) with 3 in E2. rewrite E2. cbv iota.
    destruct (IH turns a2 rest) as (a3 & E3 & A3 & W3); [rewrite app_length, repeat_length; lia|exact A2|]. exists a3. split; [|split; [exact A3|congruence]].
    destruct (Z.ltb_spec (len after - Z.of_nat (List.length l)) (x + 3)) as [Q|_]; [unfold len in Q; lia|]. rewrite (Z.add_comm x 3). exact E3.
  - assert (G := lengths_grow _ _ _ _ _ H). rewrite app_length, repeat_length in G. destruct turns as [|turns]; [lia|]. rewrite <- !app_assoc in A. destruct (D a 18 _ U A) as (a1 & E1 & A1 & W1). cbn [read_lengths]. destruct (Z.leb_spec (len after) (Z.of_nat (List.length l))) as [Q|_]; [unfold len in Q; lia|]. rewrite E1. cbn [bind]. change (19 <=? 18) with false. change (18 <? 16) with false. change (18 =? 16) with false. change (18 =? 17) with false. cbv iota.
    destruct (received 7 a1 x _ A1 ltac:(lia) ltac:(cbn; lia)) as (a2 & E2 & A2 & W2). change (Z.of_nat 7) with 7 in E2. rewrite E2. cbv iota.
    destruct (IH turns a2 rest) as (a3 & E3 & A3 & W3); [rewrite app_length, repeat_length; lia|exact A2|]. exists a3. split; [|split; [exact A3|congruence]].
    destruct (Z.ltb_spec (len after - Z.of_nat (List.length l)) (x + 11)) as [Q|_]; [unfold len in Q; lia|]. rewrite (Z.add_comm x 11). exact E3.
Qed.
Lemma codes_read : forall w cl lb ll dl a rest,
  257 <= len ll <= 288 -> 1 <= len dl <= 32 -> (4 <= List.length w <= 19)%nat -> Forall (fun s => 0 <= s <= 7) w ->
  List.length cl = 19%nat -> (forall k, (k < 19)%nat -> nth (nth k length_order 0%nat) cl 0 = nth k w 0) ->
  sizes_ok cl -> sizes_ok ll -> sizes_ok dl -> length_codes (used cl) (canonical cl) [] lb (ll ++ dl) ->
  at_bits a (field 5 (len ll - 257) ++ field 5 (len dl - 1) ++ field 4 (len w - 4) ++ flat_map (field 3) w ++ lb ++ rest) ->
  exists zl zd a', compute_huffman_codes a = Ok (zl, zd, a') /\ decodes zl (used ll) (canonical ll) /\ decodes zd (used dl) (canonical dl) /\
    (forall c, used ll c -> canonical ll c <> []) /\ at_bits a' rest /\ written a' = written a.
Proof.
  intros w cl lb ll dl a rest LL DL LW FW LC OR OC OL OD LB A.
  destruct (received 5 a _ _ A ltac:(lia) ltac:(cbn; lia)) as (a1 & E1 & A1 & W1). change (Z.of_nat 5) with 5 in E1.
  destruct (received 5 a1 _ _ A1 ltac:(lia) ltac:(cbn; lia)) as (a2 & E2 & A2 & W2). change (Z.of_nat 5) with 5 in E2.
  destruct (received 4 a2 _ _ A2 ltac:(lia) ltac:(unfold len; cbn; lia)) as (a3 & E3 & A3 & W3). change (Z.of_nat 4) with 4 in E3.
  destruct (code_lengths_read length_dezigzag w a3 (repeat 0 19) _ ltac:(cbn [length_dezigzag List.length]; lia) FW A3) as (a4 & E4 & A4 & W4). rewrite (put_order w cl ltac:(lia) LC OR) in E4.
  assert (C19 : len cl = 19) by (unfold len; rewrite LC; reflexivity).
  destruct (build_decodes cl OC ltac:(lia)) as (z & B & D & _). destruct (build_decodes ll OL ltac:(lia)) as (zl & BL & DLL & NL). destruct (build_decodes dl OD ltac:(lia)) as (zd & BD & DDD & _).
  assert (T : (List.length (ll ++ dl) - List.length (@nil Z) <= 320)%nat) by (rewrite app_length; unfold len in LL, DL; cbn [List.length]; lia).
  destruct (lengths_read z cl D C19 _ _ _ LB 320%nat a4 rest T A4) as (a5 & E5 & A5 & W5). clear T.
  exists zl, zd, a5. split; [|split; [exact DLL|split; [exact DDD|split; [exact NL|split; [exact A5|congruence]]]]].
  unfold compute_huffman_codes. revert E5. generalize 320%nat. intros t E5. rewrite E1. cbv iota. rewrite E2. cbv iota. rewrite E3. cbv iota zeta. replace (len w - 4 + 4) with (len w) by lia. rewrite E4. cbv iota. rewrite B. cbn [bind]. rewrite len_app in E5. replace (len ll - 257 + 257) with (len ll) by lia. replace (len dl - 1 + 1) with (len dl) by lia. rewrite E5. cbn [bind].
  replace (Z.to_nat (len ll)) with (List.length ll) by (unfold len; lia). rewrite firstn_app, Nat.sub_diag, firstn_all, skipn_app, Nat.sub_diag, skipn_all. cbn [firstn skipn]. rewrite app_nil_r. cbn [app]. rewrite BL. cbn [bind]. rewrite BD. reflexivity.
Qed.
