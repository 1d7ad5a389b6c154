(** Writing numbers: seventeen digits are enough. *)
From Coq Require Import List Bool ZArith QArith Qpower Qabs Qround Ascii String Lia Lqa.
From Verif.Base Require Import Py.
From Verif.Round Require Import Model Spec Rounding.
From Verif.Json Require Import Model Spec Strings Numbers.
Import ListNotations.
Local Open Scope Z_scope.

(** * Digits *)
Lemma digits_of_ok : forall fuel z, 0 <= z < 2 ^ Z.of_nat fuel -> (0 < fuel)%nat ->
  all_digits (digits_of fuel z) /\ value_of (digits_of fuel z) = z /\ digits_of fuel z <> [] /\
  (0 < z -> exists c s, digits_of fuel z = c :: s /\ c <> "0"%char).
Proof.
  induction fuel as [|n IH]; intros z Z F; [lia|]. cbn [digits_of]. destruct (Z.ltb_spec z 10) as [L|L].
  - destruct (digit_char_ok z ltac:(lia)) as [D C]. split; [repeat constructor; exact D|]. split; [unfold value_of; cbn [fold_left]; rewrite C; lia|].
    split; [discriminate|]. intros P. exists (digit_char z), []. split; [reflexivity|]. intros E. rewrite E in C. change (code "0") with 48 in C. lia.
  - rewrite Nat2Z.inj_succ, Z.pow_succ_r in Z by lia.
    assert (N : (0 < n)%nat). { destruct n; [cbn in Z; lia|lia]. }
    destruct (IH (z / 10)) as (A & V & NE & H); [Z.to_euclidean_division_equations; lia|exact N|].
    destruct (digit_char_ok (z mod 10)) as [D C]; [Z.to_euclidean_division_equations; lia|].
    split; [apply Forall_app; split; [exact A|repeat constructor; exact D]|]. split; [rewrite value_snoc, V, C; Z.to_euclidean_division_equations; lia|].
    split; [destruct (digits_of n (z / 10)); discriminate|]. intros _. destruct H as (c & s & E & NC); [Z.to_euclidean_division_equations; lia|].
    exists c, (s ++ [digit_char (z mod 10)]). rewrite E. split; [reflexivity|exact NC].
Qed.
Lemma decimal_ok : forall z, 0 <= z -> all_digits (decimal z) /\ value_of (decimal z) = z /\ decimal z <> [] /\
  (0 < z -> exists c s, decimal z = c :: s /\ c <> "0"%char).
Proof.
  intros z Z. apply digits_of_ok; [|lia]. split; [exact Z|]. rewrite Nat2Z.inj_succ, Z2Nat.id by apply Z.log2_nonneg.
  destruct (Z.eq_dec z 0) as [->|N]; [reflexivity|]. apply Z.log2_spec. lia.
Qed.
Lemma decimal_length : forall z L, 10 ^ Z.of_nat L <= z < 10 ^ Z.of_nat (S L) -> List.length (decimal z) = S L.
Proof.
  intros z L Z. assert (P := Z.pow_pos_nonneg 10 (Z.of_nat L)). destruct (decimal_ok z ltac:(lia)) as (A & V & N & H).
  destruct H as (c & s & E & NC); [lia|]. assert (B := value_bound _ A). rewrite E in A. assert (B' := value_head c s A NC). rewrite <- E in B'. rewrite V in B, B'.
  rewrite E in *. cbn [List.length] in *.
  destruct (Nat.lt_trichotomy (List.length s) L) as [X|[->|X]]; [exfalso|reflexivity|exfalso].
  - assert (10 ^ Z.of_nat (S (List.length s)) <= 10 ^ Z.of_nat L) by (apply Z.pow_le_mono_r; lia). lia.
  - assert (10 ^ Z.of_nat (S L) <= 10 ^ Z.of_nat (List.length s)) by (apply Z.pow_le_mono_r; lia). lia.
Qed.
Lemma zeros_digits : forall j, all_digits (repeat "0"%char j).
Proof. intros j. apply Forall_forall. intros c H. apply repeat_spec in H. subst c. reflexivity. Qed.
Lemma zeros_value : forall j, value_of (repeat "0"%char j) = 0.
Proof. induction j as [|j IH]; [reflexivity|]. cbn [repeat]. rewrite value_cons, IH. change (code "0") with 48. lia. Qed.
Lemma value_zeros : forall a j, value_of (a ++ repeat "0"%char j) = value_of a * 10 ^ Z.of_nat j.
Proof. intros a j. rewrite value_app, zeros_value, repeat_length. lia. Qed.
Lemma decimal_shift : forall z j, 0 < z -> decimal (z * 10 ^ Z.of_nat j) = decimal z ++ repeat "0"%char j.
Proof.
  intros z j P. assert (PJ : 0 < 10 ^ Z.of_nat j) by (apply Z.pow_pos_nonneg; lia).
  destruct (decimal_ok z ltac:(lia)) as (A & V & N & H). destruct (H P) as (c & s & E & NC).
  destruct (decimal_ok (z * 10 ^ Z.of_nat j) ltac:(nia)) as (A' & V' & N' & H').
  apply value_unique; [exact A'|apply Forall_app; split; [exact A|apply zeros_digits]| |rewrite V', value_zeros, V; reflexivity].
  rewrite app_length, repeat_length. assert (L := value_bound _ A). rewrite E in A. assert (L' := value_head c s A NC). rewrite <- E, V in *. rewrite E in *. cbn [List.length] in *.
  replace (S (List.length s) + j)%nat with (S (List.length s + j)) by lia. apply decimal_length.
  rewrite Nat2Z.inj_add, Z.pow_add_r by lia. split; [nia|]. replace (S (List.length s + j)) with (S (List.length s) + j)%nat by lia.
  rewrite Nat2Z.inj_add, Z.pow_add_r by lia. nia.
Qed.
Lemma decimal_int_part : forall z, 0 <= z -> int_part (decimal z) /\ numeral (decimal z) z.
Proof.
  intros z Z. destruct (decimal_ok z Z) as (A & V & N & H). assert (M := value_numeral _ A). rewrite V in M. split; [|exact M].
  split; [exact N|]. split; [exists z; exact M|]. destruct (Z.eq_dec z 0) as [->|NZ]; [left; reflexivity|]. right. intros c s' E.
  destruct H as (d & t & E' & ND); [lia|]. rewrite E in E'. injection E' as -> ->. exact ND.
Qed.

Lemma print_int_ok : forall z, integer (print_int z) z.
Proof.
  intros z. unfold print_int. destruct (Z.ltb_spec z 0) as [L|L].
  - destruct (decimal_int_part (- z) ltac:(lia)) as [P N]. replace z with (signed true (- z)) at 2 by (cbn; lia).
    apply (integer_intro true); assumption.
  - destruct (decimal_int_part z L) as [P N]. apply (integer_intro false); assumption.
Qed.

(** * Trailing zeros *)
Lemma drop_zeros_ok : forall s, exists j, s = repeat "0"%char j ++ drop_zeros s.
Proof.
  induction s as [|c s [j IH]]; [exists 0%nat; reflexivity|]. cbn [drop_zeros]. destruct (Ascii.eqb_spec c "0") as [->|].
  - exists (S j). cbn. f_equal. exact IH.
  - exists 0%nat. reflexivity.
Qed.
Lemma repeat_rev : forall (A : Type) (a : A) j, rev (repeat a j) = repeat a j.
Proof.
  intros A a j. induction j as [|j IH]; [reflexivity|]. cbn [repeat rev]. rewrite IH. clear. induction j as [|j IH]; [reflexivity|]. cbn. f_equal. exact IH.
Qed.
Lemma strip_ok : forall s, exists j, s = strip s ++ repeat "0"%char j.
Proof.
  intros s. destruct (drop_zeros_ok (rev s)) as [j E]. exists j. unfold strip.
  rewrite <- (rev_involutive s) at 1. rewrite E at 1. rewrite rev_app_distr, repeat_rev. reflexivity.
Qed.
Lemma strip_zeros : forall j, strip (repeat "0"%char j) = [].
Proof. intros j. unfold strip. rewrite repeat_rev. induction j as [|j IH]; [reflexivity|exact IH]. Qed.
Lemma strip_digits : forall s, all_digits s -> all_digits (strip s).
Proof. intros s A. destruct (strip_ok s) as [j E]. rewrite E in A. apply Forall_app in A. apply A. Qed.
Lemma fraction_ok : forall s, all_digits s -> frac_part (fraction s) (strip s).
Proof.
  intros s A. apply strip_digits in A. unfold fraction. destruct (strip s) as [|c f] eqn:E; [constructor|].
  apply (f_some (c :: f) (value_of (c :: f))); [discriminate|apply value_numeral, A].
Qed.

(** * Powers of ten *)
Local Open Scope Q_scope.
Lemma ten_pos : forall e, 0 < ten e.
Proof. intros e. apply Qpower_0_lt. reflexivity. Qed.
Lemma ten_plus : forall a b, ten (a + b) == ten a * ten b.
Proof. intros a b. apply Qpower_plus. discriminate. Qed.
Lemma ten_int : forall n, (0 <= n)%Z -> ten n == inject_Z (10 ^ n).
Proof. intros n H. unfold ten. rewrite Zpower_Qpower by exact H. reflexivity. Qed.
Lemma ten_le : forall a b, (a <= b)%Z -> ten a <= ten b.
Proof. intros a b H. apply Qpower_le_compat_l; [exact H|discriminate]. Qed.
Lemma ten_lt_inv : forall a b, ten a < ten b -> (a < b)%Z.
Proof. intros a b H. destruct (Z_lt_le_dec a b) as [|L]; [assumption|]. apply ten_le in L. lra. Qed.
Lemma ten_inv : forall e, ten (- e) * ten e == 1.
Proof. intros e. rewrite <- ten_plus. replace (- e + e)%Z with 0%Z by lia. reflexivity. Qed.
Lemma two_ten : forall e, (0 <= e)%Z -> two e <= ten e.
Proof.
  intros e H. rewrite two_int, ten_int by exact H. rewrite <- Zle_Qle. apply Z.pow_le_mono_l. lia.
Qed.

Lemma climb_ok : forall fuel k x, ten k <= x -> x < ten (k + Z.of_nat fuel) ->
  ten (climb fuel k x) <= x /\ x < ten (climb fuel k x + 1).
Proof.
  induction fuel as [|n IH]; intros k x L U.
  - cbn in U. replace (k + 0)%Z with k in U by lia. lra.
  - cbn [climb]. destruct (Qle_bool (ten (k + 1)) x) eqn:B.
    + apply Qle_bool_iff in B. apply IH; [exact B|]. replace (k + 1 + Z.of_nat n)%Z with (k + Z.of_nat (S n))%Z by lia. exact U.
    + split; [exact L|]. destruct (Qlt_le_dec x (ten (k + 1))) as [|C]; [assumption|]. apply Qle_bool_iff in C. congruence.
Qed.
Lemma exponent_ok : forall x, 0 < x -> ten (exponent x) <= x /\ x < ten (exponent x + 1).
Proof.
  intros [a b] P. assert (A : (0 < a)%Z) by (unfold Qlt in P; cbn in P; lia). unfold exponent. cbn [Qnum Qden].
  assert (LA := Z.log2_spec a A). assert (LB := Z.log2_spec (Zpos b) ltac:(lia)). assert (NA := Z.log2_nonneg a). assert (NB := Z.log2_nonneg (Zpos b)).
  set (la := Z.log2 a) in *. set (lb := Z.log2 (Zpos b)) in *.
  assert (T1 := two_ten (lb + 1) ltac:(lia)). assert (T2 := two_ten (la + 1) ltac:(lia)). rewrite two_int in T1, T2 by lia.
  assert (E : (a # b) * inject_Z (Zpos b) == inject_Z a). { unfold Qeq, inject_Z, Qmult. cbn. lia. }
  assert (PB : 0 < inject_Z (Zpos b)) by reflexivity.
  assert (LB' : inject_Z (Zpos b) <= inject_Z (2 ^ (lb + 1))) by (rewrite <- Zle_Qle; replace (lb + 1)%Z with (Z.succ lb) by lia; lia).
  assert (LA' : inject_Z a < inject_Z (2 ^ (la + 1))) by (rewrite <- Zlt_Qlt; replace (la + 1)%Z with (Z.succ la) by lia; lia).
  assert (A1 : 1 <= inject_Z a) by (change 1 with (inject_Z 1); rewrite <- Zle_Qle; lia).
  assert (B1 : 1 <= inject_Z (Zpos b)) by (change 1 with (inject_Z 1); rewrite <- Zle_Qle; lia).
  apply climb_ok.
  - assert (I := ten_inv (lb + 1)). assert (TP := ten_pos (- (lb + 1))). replace (- lb - 1)%Z with (- (lb + 1))%Z by lia.
    set (t := ten (- (lb + 1))) in *. set (T := ten (lb + 1)) in *.
    assert (t * inject_Z (Zpos b) <= 1) by nra. nra.
  - rewrite Z2Nat.id by lia. replace (- lb - 1 + (la + lb + 2))%Z with (la + 1)%Z by lia. nra.
Qed.

(** The decimal number with 17 digits. *)
Lemma seventeen_ok : forall x, 0 < x -> let '(n, k) := seventeen x in
  (10 ^ 16 <= n < 10 ^ 17)%Z /\ 2 * Qabs (x - inject_Z n * ten (k - 16)) <= x * ten (-16) /\
  (k = exponent x \/ k = (exponent x + 1)%Z /\ n = (10 ^ 16)%Z).
Proof.
  intros x P. unfold seventeen. destruct (exponent_ok x P) as [L U]. set (k := exponent x) in *.
  destruct (nearest_even_ok (x * ten (16 - k))) as [H _]. set (n := nearest_even (x * ten (16 - k))) in *.
  assert (T := ten_pos (k - 16)). assert (T' := ten_pos (16 - k)).
  assert (I : ten (16 - k) * ten (k - 16) == 1) by (rewrite <- ten_plus; replace (16 - k + (k - 16))%Z with 0%Z by lia; reflexivity).
  assert (B : 2 * Qabs (x - inject_Z n * ten (k - 16)) <= x * ten (-16)).
  { setoid_replace (x - inject_Z n * ten (k - 16)) with ((x * ten (16 - k) - inject_Z n) * ten (k - 16)).
    - rewrite Qabs_Qmult, (Qabs_pos (ten (k - 16))) by lra.
      assert (X : ten (k - 16) <= x * ten (-16)). { unfold Zminus. rewrite ten_plus. apply Qmult_le_compat_r; [exact L|]. apply Qlt_le_weak, ten_pos. }
      nra.
    - transitivity (x * (ten (16 - k) * ten (k - 16)) - inject_Z n * ten (k - 16)); [rewrite I; ring|ring]. }
  assert (N1 : inject_Z (10 ^ 16) <= x * ten (16 - k)).
  { rewrite <- ten_int by lia. replace 16%Z with (k + (16 - k))%Z at 1 by lia. rewrite ten_plus. apply Qmult_le_compat_r; [exact L|apply Qlt_le_weak, T']. }
  assert (N2 : x * ten (16 - k) < inject_Z (10 ^ 17)).
  { rewrite <- ten_int by lia. replace 17%Z with (k + 1 + (16 - k))%Z by lia. rewrite ten_plus. apply Qmult_lt_compat_r; [exact T'|exact U]. }
  apply Qabs_Qle_condition in H. destruct H as [H1 H2].
  assert (G1 : (10 ^ 16 <= n)%Z).
  { assert (X : inject_Z (10 ^ 16) - 1 < inject_Z n) by lra. change 1 with (inject_Z 1) in X. rewrite <- inject_Z_opp in X || idtac.
    unfold Qminus in X. rewrite <- inject_Z_opp, <- inject_Z_plus, <- Zlt_Qlt in X. lia. }
  assert (G2 : (n <= 10 ^ 17)%Z).
  { assert (X : inject_Z n < inject_Z (10 ^ 17) + 1) by lra. change 1 with (inject_Z 1) in X. rewrite <- inject_Z_plus, <- Zlt_Qlt in X. lia. }
  destruct (Z.eqb_spec n (10 ^ 17)) as [E|E].
  - split; [lia|]. split; [|right; split; reflexivity].
    setoid_replace (inject_Z (10 ^ 16) * ten (k + 1 - 16)) with (inject_Z n * ten (k - 16)); [exact B|].
    rewrite E. replace (k + 1 - 16)%Z with (1 + (k - 16))%Z by lia. rewrite ten_plus. change (ten 1) with (inject_Z 10). rewrite Qmult_assoc, <- inject_Z_mult. reflexivity.
  - split; [lia|]. split; [exact B|left; reflexivity].
Qed.

(** * Doubles are far apart *)
Lemma int_gap : forall m n : Z, m <> n -> 1 <= Qabs (inject_Z m - inject_Z n).
Proof.
  intros m n H. unfold Qminus. rewrite <- inject_Z_opp, <- inject_Z_plus.
  change (Qabs (inject_Z (m + - n))) with (inject_Z (Z.abs (m + - n))). change 1 with (inject_Z 1). rewrite <- Zle_Qle. lia.
Qed.
Lemma double_gap : forall x y, double x -> double y -> ~ x == y -> Qabs x * two (-53) <= Qabs (x - y) * (1 + two (-53)).
Proof.
  assert (K : forall m e m' e', (Z.abs m < 2 ^ 53)%Z -> (e <= e')%Z -> ~ inject_Z m * two e == inject_Z m' * two e' ->
    Qabs (inject_Z m * two e) * two (-53) <= Qabs (inject_Z m * two e - inject_Z m' * two e')).
  { intros m e m' e' M E N.
    assert (S : two e' == inject_Z (2 ^ (e' - e)) * two e).
    { rewrite <- two_int by lia. rewrite <- two_plus. replace (e' - e + e)%Z with e' by lia. reflexivity. }
    assert (D : m <> (m' * 2 ^ (e' - e))%Z). { intros X. apply N. rewrite S, X, inject_Z_mult. ring. }
    apply int_gap in D. assert (P := two_pos e).
    setoid_replace (inject_Z m * two e - inject_Z m' * two e') with ((inject_Z m - inject_Z (m' * 2 ^ (e' - e))) * two e) by (rewrite S, inject_Z_mult; ring).
    rewrite !Qabs_Qmult, (Qabs_pos (two e)) by lra. change (Qabs (inject_Z m)) with (inject_Z (Z.abs m)).
    assert (A : inject_Z (Z.abs m) * two (-53) <= 1).
    { assert (I := two_inv 53). change (two (- (53))) with (two (-53)) in I. rewrite (two_int 53) in I by lia.
      assert (L : inject_Z (Z.abs m) <= inject_Z (2 ^ 53)) by (rewrite <- Zle_Qle; lia). assert (Q := two_pos (-53)). rewrite Qmult_comm in I. rewrite <- I. apply Qmult_le_compat_r; lra. }
    set (g := Qabs (inject_Z m - inject_Z (m' * 2 ^ (e' - e)))) in *. nra. }
  intros x y (m & e & M & _ & X) (m' & e' & M' & _ & Y) N. change (x == inject_Z m * two e) in X. change (y == inject_Z m' * two e') in Y.
  assert (Q := two_pos (-53)). assert (AP := Qabs_nonneg (x - y)).
  destruct (Z_le_gt_dec e e') as [E|E].
  - assert (H : Qabs x * two (-53) <= Qabs (x - y)). { rewrite X, Y. apply K; [exact M|exact E|]. rewrite <- X, <- Y. exact N. } nra.
  - assert (H : Qabs y * two (-53) <= Qabs (y - x)).
    { rewrite X, Y. apply K; [exact M'|lia|]. rewrite <- X, <- Y. intros Z. apply N. symmetry. exact Z. }
    rewrite (Qabs_Qminus y x) in H.
    assert (T : Qabs x <= Qabs y + Qabs (x - y)). { setoid_replace x with (y + (x - y)) at 1 by ring. apply Qabs_triangle. }
    nra.
Qed.
Lemma small_ten : ten (-16) * (1 + two (-53)) < two (-53).
Proof. reflexivity. Qed.

Lemma close_double : forall x y, ~ x == 0 -> double x -> double y -> Qabs (x - y) <= Qabs x * ten (-16) -> x == y.
Proof.
  intros x y NZ DX DY H. destruct (Qeq_dec x y) as [|N]; [assumption|exfalso].
  assert (P : 0 < Qabs x). { destruct (Qlt_le_dec 0 (Qabs x)) as [|C]; [assumption|]. exfalso. apply NZ. apply Qabs_Qle_condition in C. lra. }
  assert (G := double_gap x y DX DY N). assert (S := small_ten). assert (Q := two_pos (-53)). set (a := Qabs x) in *.
  assert (X : a * two (-53) <= a * ten (-16) * (1 + two (-53))). { eapply Qle_trans; [exact G|]. apply Qmult_le_compat_r; lra. }
  rewrite <- Qmult_assoc in X. assert (Y : a * (ten (-16) * (1 + two (-53))) < a * two (-53)) by (rewrite !(Qmult_comm a); apply Qmult_lt_compat_r; assumption).
  lra.
Qed.
(** A number this close to a double is rounded to it. *)
Lemma close_round : forall x d, ~ x == 0 -> double x -> 2 * Qabs (x - d) <= Qabs x * ten (-16) -> round d == x.
Proof.
  intros x d P D H. destruct (round_near d x D) as [N _]. symmetry. apply close_double; [exact P|exact D|apply round_double|].
  rewrite (Qabs_Qminus d x) in N. setoid_replace (x - round d) with ((x - d) + (d - round d)) by ring.
  eapply Qle_trans; [apply Qabs_triangle|]. lra.
Qed.

(** * The text of %.17g *)
Local Open Scope Z_scope.
Definition shape (s : text) (q : Q) (plain : bool) : Prop :=
  exists i ft f et e, s = i ++ ft ++ et /\ int_part i /\ frac_part ft f /\ exp_part et e /\
    (q == inject_Z (value_of (i ++ f)) * ten (e - Z.of_nat (List.length f)))%Q /\
    (plain = true <-> ft ++ et = []).

Lemma frac_value : forall i d e, exists j, value_of (i ++ d) = value_of (i ++ strip d) * 10 ^ Z.of_nat j /\
  (inject_Z (value_of (i ++ strip d)) * ten (e - Z.of_nat (List.length (strip d))) == inject_Z (value_of (i ++ d)) * ten (e - Z.of_nat (List.length d)))%Q.
Proof.
  intros i d e. destruct (strip_ok d) as [j E]. exists j.
  assert (V : value_of (i ++ d) = value_of (i ++ strip d) * 10 ^ Z.of_nat j) by (rewrite E at 1; rewrite app_assoc; apply value_zeros).
  split; [exact V|]. assert (L : List.length d = (List.length (strip d) + j)%nat) by (rewrite E at 1; rewrite app_length, repeat_length; reflexivity).
  rewrite V, L, inject_Z_mult, <- ten_int by lia. rewrite <- Qmult_assoc, <- ten_plus.
  replace (Z.of_nat j + (e - Z.of_nat (List.length (strip d) + j))) with (e - Z.of_nat (List.length (strip d))) by lia. reflexivity.
Qed.

Lemma two_digits_ok : forall z, 0 <= z -> two_digits z <> [] /\ numeral (two_digits z) z.
Proof.
  intros z Z. destruct (decimal_ok z Z) as (A & V & N & _). assert (M := value_numeral _ A). rewrite V in M. unfold two_digits.
  destruct (Z.ltb_spec z 10) as [L|L]; [|split; [exact N|exact M]].
  split; [discriminate|]. assert (A' : all_digits ("0"%char :: decimal z)) by (apply Forall_cons; [reflexivity|exact A]).
  apply value_numeral in A'. rewrite value_cons, V in A'. change (code "0") with 48 in A'. replace ((48 - 48) * 10 ^ Z.of_nat (List.length (decimal z)) + z) with z in A' by lia. exact A'.
Qed.
Lemma exponent_part : forall k, exp_part (lit "e" ++ (if k <? 0 then lit "-" else lit "+") ++ two_digits (Z.abs k)) k.
Proof.
  intros k. destruct (two_digits_ok (Z.abs k) ltac:(lia)) as [TD1 TD2]. destruct (Z.ltb_spec k 0) as [L|L].
  - rewrite Z.abs_neq in * by lia. replace k with (- - k) at 2 by lia. apply x_minus; [left; reflexivity|exact TD1|exact TD2].
  - rewrite Z.abs_eq in * by lia. apply x_plus; [left; reflexivity|right; left; reflexivity|exact TD1|exact TD2].
Qed.
Lemma print_g_shape : forall x, (0 < x)%Q -> let '(n, k) := seventeen x in
  exists plain, shape (print_g x) (inject_Z n * ten (k - 16)) plain /\
  (plain = true -> 0 <= k < 17 /\ exists z, n = z * 10 ^ (16 - k)) /\
  (0 <= k < 17 -> (exists z, n = z * 10 ^ (16 - k)) -> plain = true).
Proof.
  intros x P. assert (H := seventeen_ok x P). unfold print_g. destruct (seventeen x) as [n k]. destruct H as (N & _ & _).
  destruct (decimal_ok n ltac:(lia)) as (A & V & NE & HD). destruct HD as (c & t & E & NC); [lia|].
  assert (L : List.length (decimal n) = 17%nat) by (apply decimal_length; cbn; lia).
  assert (FL : forall m, all_digits (firstn m (decimal n))) by (intros m; rewrite <- (firstn_skipn m) in A; apply Forall_app in A; apply A).
  assert (SL : forall m, all_digits (skipn m (decimal n))) by (intros m; rewrite <- (firstn_skipn m) in A; apply Forall_app in A; apply A).
  assert (IP : forall m, int_part (firstn (S m) (decimal n))).
  { intros m. split; [rewrite E; discriminate|]. split; [exists (value_of (firstn (S m) (decimal n))); apply value_numeral, FL|].
    right. intros d s' D. rewrite E in D. cbn in D. injection D as <- _. exact NC. }
  destruct (Z.leb_spec (-4) k) as [K1|K1]; cbn [andb]; [destruct (Z.ltb_spec k 17) as [K2|K2]|].
  - destruct (Z.leb_spec 0 k) as [K0|K0].
    + assert (M : Z.to_nat (k + 1) = S (Z.to_nat k)) by lia. rewrite M. set (m := S (Z.to_nat k)).
      assert (SN : List.length (skipn m (decimal n)) = (17 - m)%nat) by (rewrite skipn_length, L; reflexivity).
      destruct (frac_value (firstn m (decimal n)) (skipn m (decimal n)) 0) as (j & VJ & Q). rewrite firstn_skipn in VJ, Q. rewrite V in VJ, Q.
      exists (match strip (skipn m (decimal n)) with [] => true | _ => false end). split; [|split].
      * exists (firstn m (decimal n)), (fraction (skipn m (decimal n))), (strip (skipn m (decimal n))), [], 0.
        split; [rewrite app_nil_r; reflexivity|]. split; [apply IP|]. split; [apply fraction_ok, SL|]. split; [constructor|]. split.
        -- rewrite Q. rewrite SN. replace (0 - Z.of_nat (17 - m)) with (k - 16) by (subst m; lia). reflexivity.
        -- unfold fraction. destruct (strip (skipn m (decimal n))); split; reflexivity || discriminate.
      * intros PL. split; [lia|]. destruct (strip (skipn m (decimal n))) eqn:ST; [|discriminate]. exists (value_of (firstn m (decimal n))).
        rewrite <- V at 1. rewrite <- (firstn_skipn m (decimal n)) at 1. destruct (strip_ok (skipn m (decimal n))) as [i EI]. rewrite ST in EI. cbn [app] in EI.
        rewrite EI, value_zeros. f_equal. f_equal. rewrite EI, repeat_length in SN. subst i m. lia.
      * intros _ (z & Z). assert (ZP : 0 < z) by (assert (0 < 10 ^ (16 - k)) by (apply Z.pow_pos_nonneg; lia); nia).
        assert (D : decimal n = decimal z ++ repeat "0"%char (Z.to_nat (16 - k))).
        { rewrite <- decimal_shift by exact ZP. rewrite Z2Nat.id by lia. rewrite <- Z. reflexivity. }
        assert (LZ : List.length (decimal z) = m). { rewrite D, app_length, repeat_length in L. subst m. lia. }
        rewrite D, <- LZ, skipn_app, skipn_all, Nat.sub_diag. cbn [app skipn]. rewrite strip_zeros. reflexivity.
    + exists false. set (d := repeat "0"%char (Z.to_nat (- k - 1)) ++ decimal n).
      assert (AD : all_digits d) by (apply Forall_app; split; [apply zeros_digits|exact A]).
      destruct (frac_value (lit "0") d 0) as (j & VJ & Q).
      assert (VD : value_of (lit "0" ++ d) = n). { unfold d. rewrite app_assoc, value_app, V. change (lit "0" ++ repeat "0"%char (Z.to_nat (- k - 1))) with (repeat "0"%char (S (Z.to_nat (- k - 1)))). rewrite zeros_value. lia. }
      split; [|split; [discriminate|lia]].
      exists (lit "0"), (fraction d), (strip d), [], 0. split; [rewrite app_nil_r; reflexivity|].
      split; [split; [discriminate|split; [exists 0; apply (n_snoc [] 0 "0"%char 0%nat n_nil); reflexivity|left; reflexivity]]|].
      split; [apply fraction_ok, AD|]. split; [constructor|]. split.
      * rewrite Q, VD. unfold d. rewrite app_length, repeat_length, L. replace (0 - Z.of_nat (Z.to_nat (- k - 1) + 17)) with (k - 16) by lia. reflexivity.
      * rewrite app_nil_r. unfold fraction. destruct (strip d) eqn:ST; [|split; discriminate]. exfalso.
        rewrite VJ in VD. change (value_of (lit "0" ++ [])) with 0 in VD. lia.
  - exists false. split; [|split; [discriminate|lia]].
    assert (EX := exponent_part k).
    destruct (frac_value (firstn 1 (decimal n)) (skipn 1 (decimal n)) k) as (j & VJ & Q). rewrite firstn_skipn, V in Q.
    exists (firstn 1 (decimal n)), (fraction (skipn 1 (decimal n))), (strip (skipn 1 (decimal n))), (lit "e" ++ (if k <? 0 then lit "-" else lit "+") ++ two_digits (Z.abs k)), k.
    split; [reflexivity|]. split; [apply IP|]. split; [apply fraction_ok, SL|]. split; [exact EX|]. split.
    + rewrite Q, skipn_length, L. reflexivity.
    + split; [discriminate|]. intros X. apply app_eq_nil in X. destruct X as [_ X]. discriminate.
  - exists false. split; [|split; [discriminate|lia]].
    assert (EX := exponent_part k).
    destruct (frac_value (firstn 1 (decimal n)) (skipn 1 (decimal n)) k) as (j & VJ & Q). rewrite firstn_skipn, V in Q.
    exists (firstn 1 (decimal n)), (fraction (skipn 1 (decimal n))), (strip (skipn 1 (decimal n))), (lit "e" ++ (if k <? 0 then lit "-" else lit "+") ++ two_digits (Z.abs k)), k.
    split; [reflexivity|]. split; [apply IP|]. split; [apply fraction_ok, SL|]. split; [exact EX|]. split.
    + rewrite Q, skipn_length, L. reflexivity.
    + split; [discriminate|]. intros X. apply app_eq_nil in X. destruct X as [_ X]. discriminate.
Qed.

(** * Integers below 10^17 *)
Lemma seventeen_int : forall x z, (x == inject_Z z)%Q -> 0 < z < 10 ^ 17 ->
  exists k, 0 <= k < 17 /\ seventeen x = (z * 10 ^ (16 - k), k).
Proof.
  intros x z E Z. assert (P : (0 < x)%Q) by (rewrite E; change 0%Q with (inject_Z 0); rewrite <- Zlt_Qlt; lia).
  destruct (exponent_ok x P) as [L U]. set (k := exponent x) in *.
  assert (K0 : 0 <= k). { assert (X : (ten 0 < ten (k + 1))%Q). { change (ten 0) with (inject_Z 1). eapply Qle_lt_trans; [|exact U]. rewrite E, <- Zle_Qle. lia. } apply ten_lt_inv in X. lia. }
  assert (K1 : k < 17). { apply ten_lt_inv. eapply Qle_lt_trans; [exact L|]. rewrite E, ten_int, <- Zlt_Qlt by lia. lia. }
  exists k. split; [lia|]. unfold seventeen. fold k.
  assert (Q : (x * ten (16 - k) == inject_Z (z * 10 ^ (16 - k)))%Q) by (rewrite E, ten_int, inject_Z_mult by lia; reflexivity).
  assert (N : nearest_even (x * ten (16 - k)) = z * 10 ^ (16 - k)).
  { destruct (nearest_even_ok (x * ten (16 - k))) as [H _]. rewrite Q in H at 1. destruct (Z.eq_dec (nearest_even (x * ten (16 - k))) (z * 10 ^ (16 - k))) as [|D]; [assumption|].
    assert (G := int_gap (z * 10 ^ (16 - k)) (nearest_even (x * ten (16 - k))) ltac:(congruence)). assert (1 <= (1 # 2))%Q by (eapply Qle_trans; [exact G|exact H]). lra. }
  rewrite N. destruct (Z.eqb_spec (z * 10 ^ (16 - k)) (10 ^ 17)) as [C|C]; [|reflexivity]. exfalso.
  rewrite E, ten_int, <- Zlt_Qlt in U by lia. replace 17 with (k + 1 + (16 - k)) in C by lia. rewrite Z.pow_add_r in C by lia.
  assert (0 < 10 ^ (16 - k)) by (apply Z.pow_pos_nonneg; lia). nia.
Qed.
Lemma double_large : forall x, double x -> (inject_Z (2 ^ 53) <= x)%Q -> exists z, (x == inject_Z z)%Q.
Proof.
  intros x (m & e & M & _ & E) L. change (x == inject_Z m * two e)%Q in E. destruct (Z_le_gt_dec 0 e) as [P|P].
  - exists (m * 2 ^ e). rewrite E, (two_int e) by exact P. rewrite inject_Z_mult. reflexivity.
  - exfalso. assert (T : (two e <= two 0)%Q) by (apply two_le; lia). change (two 0) with 1%Q in T. assert (TP := two_pos e).
    assert (inject_Z m < inject_Z (2 ^ 53))%Q by (rewrite <- Zlt_Qlt; lia). assert (0 < inject_Z (2 ^ 53))%Q by reflexivity. nra.
Qed.
Lemma plain_int : forall x n k z, (0 < x)%Q -> double x -> seventeen x = (n, k) -> 0 <= k < 17 -> n = z * 10 ^ (16 - k) ->
  exists y, (x == inject_Z y)%Q /\ 0 < y < 10 ^ 17.
Proof.
  intros x n k z P D S K N. assert (H := seventeen_ok x P). rewrite S in H. destruct H as (B & C & X).
  assert (U : (x < inject_Z (10 ^ 17))%Q).
  { destruct (exponent_ok x P) as [_ U]. eapply Qlt_le_trans; [exact U|]. rewrite <- ten_int by lia. apply ten_le. lia. }
  assert (I : exists y, (x == inject_Z y)%Q).
  { assert (R : (round (inject_Z z) == x)%Q).
    { apply close_round; [lra|exact D|]. rewrite (Qabs_pos x) by lra.
      setoid_replace (inject_Z z) with (inject_Z n * ten (k - 16))%Q; [exact C|]. rewrite N, inject_Z_mult, <- ten_int, <- Qmult_assoc, <- ten_plus by lia.
      replace (16 - k + (k - 16)) with 0 by lia. change (ten 0) with 1%Q. ring. }
    assert (ZP : 0 < z) by (assert (0 < 10 ^ (16 - k)) by (apply Z.pow_pos_nonneg; lia); nia).
    destruct (Z_le_gt_dec z (2 ^ 53)) as [Z|Z].
    - exists z. rewrite <- R. apply round_fixed, double_int. lia.
    - apply double_large; [exact D|]. rewrite <- R. rewrite <- (round_fixed (inject_Z (2 ^ 53))) by (apply double_int; lia).
      apply round_le. rewrite <- Zle_Qle. lia. }
  destruct I as [y Y]. exists y. split; [exact Y|]. rewrite Y in P, U. change 0%Q with (inject_Z 0) in P. rewrite <- Zlt_Qlt in P, U. lia.
Qed.

(** * A number in the text *)
Lemma integer_chars : forall s z, integer s z -> Forall (fun c => is_digit c = true \/ c = "-"%char) s.
Proof.
  intros s z [neg i n (_ & (m & M) & _) H]. apply numeral_value in M. destruct M as [A _]. apply Forall_app. split.
  - destruct neg; [apply Forall_cons; [right; reflexivity|]|]; apply Forall_nil.
  - eapply Forall_impl; [|exact A]. cbn. intros c D. left. exact D.
Qed.
Lemma tail_head : forall ft f et e, frac_part ft f -> exp_part et e -> ft ++ et <> [] ->
  exists c r, ft ++ et = c :: r /\ is_digit c = false /\ c <> "-"%char.
Proof.
  intros ft f et e F E N. destruct F as [|ds n D M].
  - destruct E as [|mark plus ds n M P D H|mark ds n M D H]; [contradiction| |];
      (destruct M as [<-|[<-|[]]]; eexists; eexists; (split; [reflexivity|split; [reflexivity|discriminate]])).
  - eexists; eexists; split; [reflexivity|split; [reflexivity|discriminate]].
Qed.
Lemma floor_int : forall q z, (q == inject_Z z)%Q -> Qfloor q = z.
Proof. intros q z E. rewrite E. apply Qfloor_Z. Qed.

Lemma frac_nil : forall f, frac_part [] f -> f = [].
Proof. intros f H. inversion H; reflexivity. Qed.
Lemma exp_nil : forall e, exp_part [] e -> e = 0.
Proof.
  intros e H. remember [] as s eqn:E. destruct H as [|mark plus ds n M P D N|mark ds n M D N]; [reflexivity| |];
    destruct M as [<-|[<-|[]]]; discriminate E.
Qed.
Lemma print_signed : forall (neg : bool) (x q : Q), (0 < x)%Q -> (q == if neg then - x else x)%Q -> double x -> (x < 2 ^ 1024)%Q -> Qred q = q ->
  json strict (minus neg ++ print_g x) (reread (JNum q)).
Proof.
  intros neg x q P QE D L R. assert (S := print_g_shape x P). assert (T := seventeen_ok x P). destruct (seventeen x) as [n k] eqn:ST.
  destruct S as (plain & (i & ft & f & et & e & -> & IP & F & E & V & PL) & H1 & H2). destruct T as (B & C & X).
  assert (QA : (Qabs q == x)%Q) by (rewrite QE; destruct neg; [rewrite Qabs_opp|]; apply Qabs_pos; lra).
  assert (IV : forall w, all_digits w -> numeral w (value_of w)) by (intros w A; apply value_numeral, A).
  assert (AI : all_digits i) by (destruct IP as (_ & (m & M) & _); apply numeral_value in M; apply M).
  assert (AF : all_digits f) by (destruct F as [|ds m Z M]; [constructor|apply numeral_value in M; apply M]).
  cbn [reread]. destruct plain.
  - assert (TL : ft ++ et = []) by (apply PL; reflexivity). rewrite TL, app_nil_r. apply app_eq_nil in TL. destruct TL as [-> ->].
    apply frac_nil in F. apply exp_nil in E. subst f e.
    destruct (H1 eq_refl) as (K & z & N). destruct (plain_int x n k z P D ST K N) as (y & Y & YB).
    destruct (seventeen_int x y Y YB) as (k' & K' & S'). rewrite ST in S'. injection S' as N' <-.
    assert (VI : value_of i = y).
    { assert (W : (inject_Z n * ten (k - 16) == inject_Z y)%Q).
      { rewrite N', inject_Z_mult, <- (ten_int (16 - k)), <- Qmult_assoc, <- ten_plus by lia. replace (16 - k + (k - 16)) with 0 by lia. change (ten 0) with 1%Q. ring. }
      rewrite app_nil_r in V. cbn [List.length] in V. change (ten (0 - Z.of_nat 0)) with 1%Q in V. rewrite W, Qmult_1_r in V. unfold Qeq in V. cbn in V. lia. }
    assert (QZ : (q == inject_Z (signed neg y))%Q) by (rewrite QE; destruct neg; cbn [signed]; [rewrite inject_Z_opp|]; rewrite Y; reflexivity).
    rewrite (floor_int q _ QZ). assert (QB : Qeq_bool q (inject_Z (signed neg y)) = true) by (apply Qeq_bool_iff, QZ). rewrite QB.
    assert (SB : Z.abs (signed neg y) < 10 ^ 17) by (destruct neg; cbn [signed]; lia). assert (SB' := SB). apply Z.ltb_lt in SB'. rewrite SB'. cbn [andb].
    apply j_number, s_int; [|split; lia]. constructor; [exact IP|]. rewrite <- VI. apply IV, AI.
  - assert (TL : ft ++ et <> []) by (intros Z; apply PL in Z; discriminate).
    assert (NR : Qeq_bool q (inject_Z (Qfloor q)) && (Z.abs (Qfloor q) <? 10 ^ 17) = false).
    { destruct (_ && _) eqn:Z; [exfalso|reflexivity]. apply andb_prop in Z. destruct Z as [Z1 Z2]. apply Qeq_bool_iff in Z1. apply Z.ltb_lt in Z2.
      assert (XZ : (x == inject_Z (Z.abs (Qfloor q)))%Q) by (rewrite <- QA; rewrite Z1 at 1; reflexivity).
      assert (ZP : 0 < Z.abs (Qfloor q)) by (rewrite XZ in P; change 0%Q with (inject_Z 0) in P; rewrite <- Zlt_Qlt in P; exact P).
      destruct (seventeen_int x _ XZ ltac:(lia)) as (k' & K' & S'). rewrite ST in S'. injection S' as N' <-.
      discriminate (H2 K' (ex_intro _ _ N')). }
    rewrite NR. apply j_number, (s_num _ (if neg then - (inject_Z n * ten (k - 16)) else inject_Z n * ten (k - 16))%Q).
    + apply (decimal_intro neg i ft f et e (value_of (i ++ f))); try assumption; [apply IV, Forall_app; split; assumption|].
      fold (ten (e - Z.of_nat (List.length f))). destruct neg; cbn [signed]; rewrite V; [rewrite inject_Z_opp|]; ring.
    + intros z IZ _. apply integer_chars in IZ. destruct (tail_head ft f et e F E TL) as (c & r & TE & CD & CM). rewrite TE in IZ.
      apply Forall_app in IZ. destruct IZ as [_ IZ]. apply Forall_app in IZ. destruct IZ as [_ IZ]. inversion IZ; subst. destruct H3; congruence.
    + apply rounds_to_eq. symmetry. apply close_round.
      * intros Z. rewrite Z in QA. change (Qabs 0) with 0%Q in QA. lra.
      * apply (double_wd (if neg then - x else x)%Q); [symmetry; exact QE|]. destruct neg; [apply double_opp|]; exact D.
      * rewrite QA. setoid_replace (Qabs (q - (if neg then - (inject_Z n * ten (k - 16)) else inject_Z n * ten (k - 16)))) with (Qabs (x - inject_Z n * ten (k - 16))); [exact C|].
        rewrite QE. destruct neg; [|reflexivity]. rewrite <- (Qabs_opp (x - _)). apply Qabs_wd. ring.
    + rewrite QA. exact L.
    + exact R.
Qed.
Theorem print_double_ok : forall q, possible (JNum q) -> json strict (print_double q) (reread (JNum q)).
Proof.
  intros q (D & L & R). unfold print_double.
  destruct (negb (Qle_bool (2 ^ 53) (Qabs q)) && is_int q) eqn:B.
  - apply andb_prop in B. destruct B as [B1 B2]. apply negb_true_iff in B1. unfold is_int in B2. rewrite R in *. apply Z.eqb_eq in B2.
    assert (E : (q == inject_Z (Qnum q))%Q). { unfold Qeq. cbn. rewrite B2. reflexivity. }
    assert (S : Z.abs (Qnum q) < 2 ^ 53).
    { destruct (Z_lt_le_dec (Z.abs (Qnum q)) (2 ^ 53)) as [|G]; [assumption|]. exfalso.
      assert (X : (2 ^ 53 <= Qabs q)%Q). { rewrite E. change (Qabs (inject_Z (Qnum q))) with (inject_Z (Z.abs (Qnum q))). change (2 ^ 53)%Q with (inject_Z (2 ^ 53)). rewrite <- Zle_Qle. exact G. }
      apply Qle_bool_iff in X. congruence. }
    cbn [reread]. rewrite (floor_int q _ E). assert (QB : Qeq_bool q (inject_Z (Qnum q)) = true) by (apply Qeq_bool_iff, E). rewrite QB.
    assert (S' : Z.abs (Qnum q) <? 10 ^ 17 = true) by (apply Z.ltb_lt; lia). rewrite S'. apply j_number, s_int; [apply print_int_ok|split; lia].
  - assert (NZ : ~ (q == 0)%Q).
    { intros Z. rewrite <- R in B. rewrite (Qred_complete _ _ Z) in B. discriminate. }
    destruct (Qle_bool 0 q) eqn:G; cbn [negb].
    + apply Qle_bool_iff in G. rewrite (Qabs_pos q G) in L. apply (print_signed false); [lra|reflexivity|exact D|exact L|exact R].
    + assert (G' : (q < 0)%Q). { destruct (Qlt_le_dec q 0) as [|C]; [assumption|]. apply Qle_bool_iff in C. congruence. }
      rewrite (Qabs_neg q) in L by lra. apply (print_signed true); [lra| |apply double_opp, D|exact L|exact R]. ring.
Qed.
