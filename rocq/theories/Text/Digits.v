(** Writing numbers with 15 digits. *)
From Coq Require Import List Bool ZArith QArith Qpower Qabs Qround Ascii String Lia Lqa.
From Verif.Base Require Import Py.
From Verif.Round Require Import Model Spec Rounding.
From Verif.Json Require Import Spec.
From Verif.Json Require Import Model Numbers Printing.
From Verif.Doc Require Import Model.
From Verif.Text Require Import Model Spec.
Import ListNotations.
Local Open Scope Q_scope.

(** * The decimal number with 15 digits *)
Lemma fifteen_ok : forall x, 0 < x -> let '(n, k) := fifteen x in
  (10 ^ 14 <= n < 10 ^ 15)%Z /\ 2 * Qabs (x - inject_Z n * ten (k - 14)) <= x * ten (-14) /\
  (k = exponent x \/ k = (exponent x + 1)%Z /\ n = (10 ^ 14)%Z).
Proof.
  intros x P. unfold fifteen. destruct (exponent_ok x P) as [L U]. set (k := exponent x) in *.
  destruct (nearest_even_ok (x * ten (14 - k))) as [H _]. set (n := nearest_even (x * ten (14 - k))) in *.
  assert (T := ten_pos (k - 14)). assert (T' := ten_pos (14 - k)).
  assert (I : ten (14 - k) * ten (k - 14) == 1) by (rewrite <- ten_plus; replace (14 - k + (k - 14))%Z with 0%Z by lia; reflexivity).
  assert (B : 2 * Qabs (x - inject_Z n * ten (k - 14)) <= x * ten (-14)).
  { setoid_replace (x - inject_Z n * ten (k - 14)) with ((x * ten (14 - k) - inject_Z n) * ten (k - 14)).
    - rewrite Qabs_Qmult, (Qabs_pos (ten (k - 14))) by lra.
      assert (X : ten (k - 14) <= x * ten (-14)). { unfold Zminus. rewrite ten_plus. apply Qmult_le_compat_r; [exact L|]. apply Qlt_le_weak, ten_pos. }
      nra.
    - transitivity (x * (ten (14 - k) * ten (k - 14)) - inject_Z n * ten (k - 14)); [rewrite I; ring|ring]. }
  assert (N1 : inject_Z (10 ^ 14) <= x * ten (14 - k)).
  { rewrite <- ten_int by lia. replace 14%Z with (k + (14 - k))%Z at 1 by lia. rewrite ten_plus. apply Qmult_le_compat_r; [exact L|apply Qlt_le_weak, T']. }
  assert (N2 : x * ten (14 - k) < inject_Z (10 ^ 15)).
  { rewrite <- ten_int by lia. replace 15%Z with (k + 1 + (14 - k))%Z by lia. rewrite ten_plus. apply Qmult_lt_compat_r; [exact T'|exact U]. }
  apply Qabs_Qle_condition in H. destruct H as [H1 H2].
  assert (G1 : (10 ^ 14 <= n)%Z).
  { assert (X : inject_Z (10 ^ 14) - 1 < inject_Z n) by lra. change 1 with (inject_Z 1) in X. rewrite <- inject_Z_opp in X || idtac.
    unfold Qminus in X. rewrite <- inject_Z_opp, <- inject_Z_plus, <- Zlt_Qlt in X. lia. }
  assert (G2 : (n <= 10 ^ 15)%Z).
  { assert (X : inject_Z n < inject_Z (10 ^ 15) + 1) by lra. change 1 with (inject_Z 1) in X. rewrite <- inject_Z_plus, <- Zlt_Qlt in X. lia. }
  destruct (Z.eqb_spec n (10 ^ 15)) as [E|E].
  - split; [lia|]. split; [|right; split; reflexivity].
    setoid_replace (inject_Z (10 ^ 14) * ten (k + 1 - 14)) with (inject_Z n * ten (k - 14)); [exact B|].
    rewrite E. replace (k + 1 - 14)%Z with (1 + (k - 14))%Z by lia. rewrite ten_plus. change (ten 1) with (inject_Z 10). rewrite Qmult_assoc, <- inject_Z_mult. reflexivity.
  - split; [lia|]. split; [exact B|left; reflexivity].
Qed.

Local Open Scope Z_scope.
Lemma print_g_shape : forall x, (0 < x)%Q -> let '(n, k) := fifteen x in
  exists plain, shape (print_g x) (inject_Z n * ten (k - 14)) plain /\
  (plain = true -> 0 <= k < 15 /\ exists z, n = z * 10 ^ (14 - k)) /\
  (0 <= k < 15 -> (exists z, n = z * 10 ^ (14 - k)) -> plain = true).
Proof.
  intros x P. assert (H := fifteen_ok x P). unfold print_g. destruct (fifteen x) as [n k]. destruct H as (N & _ & _).
  destruct (decimal_ok n ltac:(lia)) as (A & V & NE & HD). destruct HD as (c & t & E & NC); [lia|].
  assert (L : List.length (decimal n) = 15%nat) by (apply decimal_length; cbn; lia).
  assert (FL : forall m, all_digits (firstn m (decimal n))) by (intros m; rewrite <- (firstn_skipn m) in A; apply Forall_app in A; apply A).
  assert (SL : forall m, all_digits (skipn m (decimal n))) by (intros m; rewrite <- (firstn_skipn m) in A; apply Forall_app in A; apply A).
  assert (IP : forall m, int_part (firstn (S m) (decimal n))).
  { intros m. split; [rewrite E; discriminate|]. split; [exists (value_of (firstn (S m) (decimal n))); apply value_numeral, FL|].
    right. intros d s' D. rewrite E in D. cbn in D. injection D as <- _. exact NC. }
  destruct (Z.leb_spec (-4) k) as [K1|K1]; cbn [andb]; [destruct (Z.ltb_spec k 15) as [K2|K2]|].
  - destruct (Z.leb_spec 0 k) as [K0|K0].
    + assert (M : Z.to_nat (k + 1) = S (Z.to_nat k)) by lia. rewrite M. set (m := S (Z.to_nat k)).
      assert (SN : List.length (skipn m (decimal n)) = (15 - m)%nat) by (rewrite skipn_length, L; reflexivity).
      destruct (frac_value (firstn m (decimal n)) (skipn m (decimal n)) 0) as (j & VJ & Q). rewrite firstn_skipn in VJ, Q. rewrite V in VJ, Q.
      exists (match strip (skipn m (decimal n)) with [] => true | _ => false end). split; [|split].
      * exists (firstn m (decimal n)), (fraction (skipn m (decimal n))), (strip (skipn m (decimal n))), [], 0.
        split; [rewrite app_nil_r; reflexivity|]. split; [apply IP|]. split; [apply fraction_ok, SL|]. split; [constructor|]. split.
        -- rewrite Q. rewrite SN. replace (0 - Z.of_nat (15 - m)) with (k - 14) by (subst m; lia). reflexivity.
        -- unfold fraction. destruct (strip (skipn m (decimal n))); split; reflexivity || discriminate.
      * intros PL. split; [lia|]. destruct (strip (skipn m (decimal n))) eqn:ST; [|discriminate]. exists (value_of (firstn m (decimal n))).
        rewrite <- V at 1. rewrite <- (firstn_skipn m (decimal n)) at 1. destruct (strip_ok (skipn m (decimal n))) as [i EI]. rewrite ST in EI. cbn [app] in EI.
        rewrite EI, value_zeros. f_equal. f_equal. rewrite EI, repeat_length in SN. subst i m. lia.
      * intros _ (z & Z). assert (ZP : 0 < z) by (assert (0 < 10 ^ (14 - k)) by (apply Z.pow_pos_nonneg; lia); nia).
        assert (D : decimal n = decimal z ++ repeat "0"%char (Z.to_nat (14 - k))).
        { rewrite <- decimal_shift by exact ZP. rewrite Z2Nat.id by lia. rewrite <- Z. reflexivity. }
        assert (LZ : List.length (decimal z) = m). { rewrite D, app_length, repeat_length in L. subst m. lia. }
        rewrite D, <- LZ, skipn_app, skipn_all, Nat.sub_diag. cbn [app skipn]. rewrite strip_zeros. reflexivity.
    + exists false. set (d := repeat "0"%char (Z.to_nat (- k - 1)) ++ decimal n).
      assert (AD : all_digits d) by (apply Forall_app; split; [apply zeros_digits|exact A]).
      destruct (frac_value (lit "0") d 0) as (j & VJ & Q).
      assert (VD : value_of (lit "0" ++ d) = n). { unfold d. rewrite app_assoc, value_app, V. change (lit "0" ++ repeat "0"%char (Z.to_nat (- k - 1))) with (repeat "0"%char (S (Z.to_nat (- k - 1)))). rewrite zeros_value. lia. }
      split; [|split; [discriminate|lia]].
      exists (lit "0"), (fraction d), (strip d), [], 0. split; [rewrite app_nil_r; reflexivity|].
      split; [split; [discriminate|split; [exists 0; apply (n_snoc [] 0 "0"%char 0%nat n_nil); reflexivity|left; reflexivity]]|].
      split; [apply fraction_ok, AD|]. split; [constructor|]. split.
      * rewrite Q, VD. unfold d. rewrite app_length, repeat_length, L. replace (0 - Z.of_nat (Z.to_nat (- k - 1) + 15)) with (k - 14) by lia. reflexivity.
      * rewrite app_nil_r. unfold fraction. destruct (strip d) eqn:ST; [|split; discriminate]. exfalso.
        rewrite VJ in VD. change (value_of (lit "0" ++ [])) with 0 in VD. lia.
  - exists false. split; [|split; [discriminate|lia]].
    assert (EX := exponent_part k).
    destruct (frac_value (firstn 1 (decimal n)) (skipn 1 (decimal n)) k) as (j & VJ & Q). rewrite firstn_skipn, V in Q.
    exists (firstn 1 (decimal n)), (fraction (skipn 1 (decimal n))), (strip (skipn 1 (decimal n))), (lit "e" ++ (if k <? 0 then lit "-" else lit "+") ++ two_digits (Z.abs k)), k.
    split; [reflexivity|]. split; [apply IP|]. split; [apply fraction_ok, SL|]. split; [exact EX|]. split.
    + rewrite Q, skipn_length, L. reflexivity.
    + split; [discriminate|]. intros X. apply app_eq_nil in X. destruct X as [_ X]. discriminate.
  - exists false. split; [|split; [discriminate|lia]].
    assert (EX := exponent_part k).
    destruct (frac_value (firstn 1 (decimal n)) (skipn 1 (decimal n)) k) as (j & VJ & Q). rewrite firstn_skipn, V in Q.
    exists (firstn 1 (decimal n)), (fraction (skipn 1 (decimal n))), (strip (skipn 1 (decimal n))), (lit "e" ++ (if k <? 0 then lit "-" else lit "+") ++ two_digits (Z.abs k)), k.
    split; [reflexivity|]. split; [apply IP|]. split; [apply fraction_ok, SL|]. split; [exact EX|]. split.
    + rewrite Q, skipn_length, L. reflexivity.
    + split; [discriminate|]. intros X. apply app_eq_nil in X. destruct X as [_ X]. discriminate.
Qed.
