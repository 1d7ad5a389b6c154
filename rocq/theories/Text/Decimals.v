(** The nearest decimal number with 15 digits. *)
From Coq Require Import List Bool ZArith QArith Qpower Qabs Qround Ascii String Lia Lqa.
From Verif.Base Require Import Py.
From Verif.Round Require Import Model Spec Rounding.
From Verif.Json Require Import Spec.
From Verif.Json Require Import Model Numbers Printing.
From Verif.Doc Require Spec.
From Verif.Text Require Import Model Spec Digits.
Import ListNotations.
Local Open Scope Q_scope.

Definition d15p (x : Q) : Q := let '(n, k) := fifteen x in inject_Z n * ten (k - 14).
Definition d15 (q : Q) : Q := if Qeq_bool q 0 then 0 else if negb (Qle_bool 0 q) then - d15p (- q) else d15p q.

Lemma ten_scale : forall x a e, Qabs (x - a * ten e) == Qabs (x * ten (- e) - a) * ten e.
Proof.
  intros x a e. assert (P := ten_pos e). rewrite <- (Qabs_pos (ten e)) at 2 by lra. rewrite <- Qabs_Qmult. apply Qabs_wd.
  assert (I := ten_inv e). setoid_replace ((x * ten (- e) - a) * ten e) with (x * (ten (- e) * ten e) - a * ten e) by ring. rewrite I. ring.
Qed.
Lemma digits15_opp : forall d, digits15 d -> digits15 (- d).
Proof. intros d (n & e & N & E). exists (- n)%Z, e. split; [lia|]. rewrite E, inject_Z_opp. ring. Qed.
Lemma digits15_wd : forall x y, x == y -> digits15 x -> digits15 y.
Proof. intros x y H (n & e & N & E). exists n, e. split; [exact N|]. rewrite <- H. exact E. Qed.
Lemma rounds15_opp : forall q d, rounds15 q d -> rounds15 (- q) (- d).
Proof.
  intros q d (D & N & T). split; [apply digits15_opp, D|].
  assert (A : forall z, Qabs (- q - z) == Qabs (q - - z)) by (intros z; rewrite <- Qabs_opp; apply Qabs_wd; ring).
  assert (A' : Qabs (- q - - d) == Qabs (q - d)) by (rewrite <- Qabs_opp; apply Qabs_wd; ring).
  split; intros z Z.
  - rewrite A', A. apply N, digits15_opp, Z.
  - intros H E. rewrite A', A in E. destruct (T (- z)) as [m M]; [apply digits15_opp, Z|intros X; apply H; rewrite <- X; ring|exact E|].
    exists (- m)%Z. rewrite M at 1. replace (2 * - m)%Z with (- (2 * m))%Z by lia. rewrite inject_Z_opp.
    setoid_replace (Qabs (z - - d)) with (Qabs (- z - d)) by (rewrite <- Qabs_opp; apply Qabs_wd; ring). ring.
Qed.
Lemma rounds15_wd : forall q q' d d', q == q' -> d == d' -> rounds15 q d -> rounds15 q' d'.
Proof.
  intros q q' d d' Q D (A & B & C). split; [apply (digits15_wd d); assumption|]. split; intros z Z.
  - rewrite <- Q, <- D. apply B, Z.
  - intros N E. destruct (C z Z) as [m M]; [intros X; apply N; rewrite <- D; exact X|rewrite Q, D; exact E|]. exists m. rewrite <- D. exact M.
Qed.

Lemma d15p_value : forall x, d15p x == inject_Z (nearest_even (x * ten (14 - exponent x))) * ten (exponent x - 14).
Proof.
  intros x. unfold d15p, fifteen. set (k := exponent x). set (n := nearest_even (x * ten (14 - k))). destruct (Z.eqb_spec n (10 ^ 15)) as [->|]; [|reflexivity].
  replace (k + 1 - 14)%Z with (1 + (k - 14))%Z by lia. rewrite ten_plus, Qmult_assoc. reflexivity.
Qed.
Lemma d15p_ok : forall x, 0 < x -> rounds15 x (d15p x).
Proof.
  intros x P. assert (H := fifteen_ok x P). assert (V := d15p_value x). destruct (exponent_ok x P) as [L U]. set (k := exponent x) in *.
  split.
  - unfold d15p in *. destruct (fifteen x) as [n e]. destruct H as (N & _ & _). exists n, (e - 14)%Z. split; [lia|reflexivity].
  - set (X := x * ten (14 - k)) in *. set (s := (k - 14)%Z) in *. assert (PS := ten_pos s).
    assert (Mul : forall n, Qabs (x - inject_Z n * ten s) == Qabs (X - inject_Z n) * ten s).
    { intro n. rewrite ten_scale. unfold X, s. replace (- (k - 14))%Z with (14 - k)%Z by lia. reflexivity. }
    assert (Best : forall n, Qabs (x - d15p x) <= Qabs (x - inject_Z n * ten s)).
    { intro n. rewrite V, !Mul. rewrite (Qmult_le_r _ _ _ PS). apply nearest_even_best. }
    assert (C : forall z, digits15 z -> (exists n, z == inject_Z n * ten s) \/ Qabs (x - d15p x) < Qabs (x - z)).
    { intros z (m & e & M & Z). fold (ten e) in Z. destruct (Z_le_gt_dec s e) as [G|G].
      - left. exists (m * 10 ^ (e - s))%Z. rewrite Z, inject_Z_mult, <- ten_int, <- Qmult_assoc, <- ten_plus by lia. replace (e - s + s)%Z with e by lia. reflexivity.
      - right. assert (TK : ten k == inject_Z (10 ^ 14) * ten s) by (rewrite <- ten_int, <- ten_plus by lia; replace (14 + s)%Z with k by (unfold s; lia); reflexivity).
        assert (SM : Qabs z < ten k).
        { rewrite Z, Qabs_Qmult. assert (PE := ten_pos e). rewrite (Qabs_pos (ten e)) by lra. apply Qlt_le_trans with (ten 15 * ten e).
          - rewrite (Qmult_lt_r _ _ _ PE). rewrite (ten_int 15) by lia. change (Qabs (inject_Z m)) with (inject_Z (Z.abs m)). rewrite <- Zlt_Qlt. exact M.
          - rewrite <- ten_plus. apply ten_le. unfold s in G. lia. }
        apply Qle_lt_trans with (Qabs (x - ten k)); [rewrite TK; apply Best|]. apply Qabs_Qlt_condition in SM. rewrite (Qabs_pos (x - ten k)), (Qabs_pos (x - z)) by lra. lra. }
    split; intros z Z; destruct (C z Z) as [[n N]|N].
    + rewrite N. apply Best.
    + lra.
    + intros D K. assert (Dn : n <> nearest_even X) by (intros ->; apply D; rewrite N, V; reflexivity).
      assert (K' : Qabs (X - inject_Z n) == Qabs (X - inject_Z (nearest_even X))).
      { rewrite N, V, !Mul in K. apply Qmult_inj_r in K; [exact K|]. lra. }
      destruct (nearest_even_best X n) as [_ T]. destruct (T Dn K') as [Ev One].
      apply Z.even_spec in Ev. destruct Ev as [h Eh]. exists h. rewrite V, N.
      setoid_replace (inject_Z n * ten s - inject_Z (nearest_even X) * ten s) with (inject_Z (n - nearest_even X) * ten s) by (unfold Zminus; rewrite inject_Z_plus, inject_Z_opp; ring).
      rewrite Qabs_Qmult. change (Qabs (inject_Z (n - nearest_even X))) with (inject_Z (Z.abs (n - nearest_even X))). rewrite One, (Qabs_pos (ten s)) by lra. rewrite Eh. change (inject_Z 1) with 1. ring.
    + intros _ K. lra.
Qed.
Lemma d15_ok : forall q, rounds15 q (d15 q).
Proof.
  intros q. unfold d15. destruct (Qeq_bool q 0) eqn:E.
  - apply Qeq_bool_iff in E. assert (A : Qabs (q - 0) == 0) by (rewrite E; reflexivity). split; [exists 0%Z, 0%Z; split; [reflexivity|reflexivity]|]. split; intros z Z.
    + rewrite A. apply Qabs_nonneg.
    + intros _ _. exists 0%Z. change (inject_Z (2 * 0)) with 0. ring.
  - assert (N : ~ q == 0) by (intros X; apply Qeq_bool_iff in X; congruence). destruct (Qle_bool 0 q) eqn:L; cbn [negb].
    + apply Qle_bool_iff in L. apply d15p_ok. destruct (Qle_lt_or_eq _ _ L) as [|X]; [assumption|exfalso; apply N; symmetry; exact X].
    + assert (X : q < 0) by (destruct (Qlt_le_dec q 0) as [|C]; [assumption|apply Qle_bool_iff in C; congruence]).
      apply (rounds15_wd (- - q) q (- d15p (- q)) (- d15p (- q))); [ring|reflexivity|]. apply rounds15_opp, d15p_ok. lra.
Qed.

Lemma rounds15_unique : forall x x' y y', x == x' -> rounds15 x y -> rounds15 x' y' -> y == y'.
Proof.
  intros x x' y y' E (D & N & T) (D' & N' & T').
  assert (N1 := N y' D'). assert (N2 := N' y D). rewrite <- E in N2.
  assert (Q : Qabs (x - y') == Qabs (x - y)) by (apply Qle_antisym; assumption).
  destruct (Qeq_dec y' y) as [|Dif]; [symmetry; assumption|].
  destruct (T y' D' Dif Q) as [m M].
  assert (Dif' : ~ y == y') by (intro; apply Dif; symmetry; assumption).
  assert (Q' : Qabs (x' - y) == Qabs (x' - y')) by (rewrite <- E; symmetry; exact Q).
  destruct (T' y D Dif' Q') as [m' M']. rewrite (Qabs_Qminus y y') in M'.
  exfalso. set (d := Qabs (y' - y)) in *.
  assert (Pd : 0 < d). { unfold d. destruct (Qlt_le_dec 0 (y' - y)); [rewrite Qabs_pos by lra; assumption|]. rewrite Qabs_neg by assumption. destruct (Qle_lt_or_eq _ _ q); [lra|]. exfalso. apply Dif. lra. }
  assert (Ed : d == Qabs (inject_Z (2 * (m' - m)) * d)).
  { unfold d at 1. rewrite M, M' at 1. apply Qabs_wd. rewrite Z.mul_sub_distr_l. unfold Zminus. rewrite inject_Z_plus, inject_Z_opp. ring. }
  rewrite Qabs_Qmult, (Qabs_pos d) in Ed by lra. change (Qabs (inject_Z (2 * (m' - m)))) with (inject_Z (Z.abs (2 * (m' - m)))) in Ed.
  assert (One : inject_Z (Z.abs (2 * (m' - m))) == inject_Z 1). { apply (Qmult_inj_r _ _ d); [lra|]. rewrite <- Ed. change (inject_Z 1) with 1. ring. }
  assert (One2 : (Z.abs (2 * (m' - m)) = 1)%Z) by (apply inject_Z_injective; exact One). clear - One2. lia.
Qed.

(** The double that is read. *)
Definition f15 (q : Q) : Q := round (d15 q).
Lemma f15_ok : forall q, through15 q (f15 q).
Proof. intros q. exists (d15 q). split; [apply d15_ok|]. split; [apply round_ok|apply round_red]. Qed.
Lemma through15_f15 : forall q y, through15 q y -> y = f15 q.
Proof.
  intros q y (d & R & S & E). rewrite <- E. unfold f15. rewrite <- round_red. apply Qred_complete.
  apply (rounds_unique d (d15 q)); [|exact S|apply round_ok]. apply (rounds15_unique q q); [reflexivity|exact R|apply d15_ok].
Qed.

(** * Rounding to the same double again *)
Lemma decimal_gap : forall x y, digits15 x -> digits15 y -> ~ x == y -> Qabs x * ten (-15) <= Qabs (x - y) * (1 + ten (-15)).
Proof.
  assert (K : forall m e m' e', (Z.abs m < 10 ^ 15)%Z -> (e <= e')%Z -> ~ inject_Z m * ten e == inject_Z m' * ten e' ->
    Qabs (inject_Z m * ten e) * ten (-15) <= Qabs (inject_Z m * ten e - inject_Z m' * ten e')).
  { intros m e m' e' M E N.
    assert (S : ten e' == inject_Z (10 ^ (e' - e)) * ten e).
    { rewrite <- ten_int by lia. rewrite <- ten_plus. replace (e' - e + e)%Z with e' by lia. reflexivity. }
    assert (D : m <> (m' * 10 ^ (e' - e))%Z). { intros X. apply N. rewrite S, X, inject_Z_mult. ring. }
    apply int_gap in D. assert (P := ten_pos e).
    setoid_replace (inject_Z m * ten e - inject_Z m' * ten e') with ((inject_Z m - inject_Z (m' * 10 ^ (e' - e))) * ten e) by (rewrite S, inject_Z_mult; ring).
    rewrite !Qabs_Qmult, (Qabs_pos (ten e)) by lra. change (Qabs (inject_Z m)) with (inject_Z (Z.abs m)).
    assert (A : inject_Z (Z.abs m) * ten (-15) <= 1).
    { assert (I := ten_inv 15). change (ten (- (15))) with (ten (-15)) in I. rewrite (ten_int 15) in I by lia.
      assert (L : inject_Z (Z.abs m) <= inject_Z (10 ^ 15)) by (rewrite <- Zle_Qle; lia). assert (Q := ten_pos (-15)). rewrite Qmult_comm in I. rewrite <- I. apply Qmult_le_compat_r; lra. }
    set (g := Qabs (inject_Z m - inject_Z (m' * 10 ^ (e' - e)))) in *. nra. }
  intros x y (m & e & M & X) (m' & e' & M' & Y) N. change (x == inject_Z m * ten e) in X. change (y == inject_Z m' * ten e') in Y.
  assert (Q := ten_pos (-15)). assert (AP := Qabs_nonneg (x - y)).
  destruct (Z_le_gt_dec e e') as [E|E].
  - assert (H : Qabs x * ten (-15) <= Qabs (x - y)). { rewrite X, Y. apply K; [exact M|exact E|]. rewrite <- X, <- Y. exact N. } nra.
  - assert (H : Qabs y * ten (-15) <= Qabs (y - x)).
    { rewrite X, Y. apply K; [exact M'|lia|]. rewrite <- X, <- Y. intros Z. apply N. symmetry. exact Z. }
    rewrite (Qabs_Qminus y x) in H.
    assert (T : Qabs x <= Qabs y + Qabs (x - y)). { setoid_replace x with (y + (x - y)) at 1 by ring. apply Qabs_triangle. }
    nra.
Qed.
Lemma small_15 : two (-52) * (1 + ten (-15)) < ten (-15).
Proof. reflexivity. Qed.

Lemma round_tiny : forall x, Qabs x < two (-1021) -> round x == inject_Z (nearest_even (x * two 1074)) * two (-1074).
Proof.
  intros x H. destruct (Qeq_dec x 0) as [E|E].
  - rewrite (round_zero x E). assert (N : nearest_even (x * two 1074) = 0%Z).
    { destruct (nearest_even_ok (x * two 1074)) as [A _]. rewrite E in A at 1. destruct (Z.eq_dec (nearest_even (x * two 1074)) 0) as [|D]; [assumption|].
      assert (G := int_gap 0 (nearest_even (x * two 1074)) ltac:(congruence)). change (inject_Z 0) with 0 in G.
      setoid_replace (0 * two 1074 - inject_Z (nearest_even (x * two 1074))) with (0 - inject_Z (nearest_even (x * two 1074))) in A by ring. lra. }
    rewrite N. change (inject_Z 0) with 0. ring.
  - rewrite (round_nonzero x E). destruct (magnitude_ok x E) as [M _]. assert (MM : (magnitude x < -1021)%Z) by (apply two_lt_inv; lra).
    unfold spacing_exponent. rewrite Z.max_r by lia. reflexivity.
Qed.
Lemma nearest_stable : forall X X' N, Qabs (X - inject_Z N) <= 1 # 2 -> (Qabs (X - inject_Z N) == 1 # 2 -> Z.even N = true) ->
  Qabs (X' - inject_Z N) <= Qabs (X - inject_Z N) -> nearest_even X' = N.
Proof.
  intros X X' N H1 H2 L. destruct (nearest_even_ok X') as [A1 A2]. set (N' := nearest_even X') in *.
  destruct (Z.eq_dec N' N) as [|D]; [assumption|exfalso]. assert (G := int_gap N' N D).
  assert (T : Qabs (inject_Z N' - inject_Z N) <= Qabs (X' - inject_Z N') + Qabs (X' - inject_Z N)).
  { rewrite (Qabs_Qminus X' (inject_Z N')). setoid_replace (inject_Z N' - inject_Z N) with ((inject_Z N' - X') + (X' - inject_Z N)) by ring. apply Qabs_triangle. }
  assert (E1 : Z.even N' = true) by (apply A2; lra). assert (E2 : Z.even N = true) by (apply H2; lra).
  assert (U : Qabs (inject_Z N' - inject_Z N) <= 1) by lra. unfold Qminus in U. rewrite <- inject_Z_opp, <- inject_Z_plus in U.
  change (Qabs (inject_Z (N' + - N))) with (inject_Z (Z.abs (N' + - N))) in U. change 1 with (inject_Z 1) in U. rewrite <- Zle_Qle in U.
  apply Z.even_spec in E1, E2. destruct E1 as [a ->], E2 as [b ->]. lia.
Qed.

Lemma short_stable : forall d, digits15 d -> round (d15 (round d)) == round d.
Proof.
  intros d D. set (y := round d). destruct (d15_ok y) as (D' & N & _). set (d' := d15 y) in *. specialize (N d D).
  destruct (Qlt_le_dec (Qabs d) (two (-1022))) as [S|S].
  - assert (Y := round_tiny d ltac:(assert (two (-1022) <= two (-1021)) by (apply two_le; lia); lra)). fold y in Y.
    set (X := d * two 1074) in *. set (n := nearest_even X) in *. assert (P := two_pos (-1074)).
    assert (SC : forall x, Qabs (y - x) == Qabs (x * two 1074 - inject_Z n) * two (-1074)).
    { intros x. rewrite Y. rewrite Qabs_Qminus. apply (scale_abs x (inject_Z n) (-1074)). }
    destruct (nearest_even_ok X) as [H1 H2]. fold n in H1, H2.
    assert (L : Qabs (d' * two 1074 - inject_Z n) <= Qabs (X - inject_Z n)) by (rewrite !SC in N; rewrite (Qmult_le_r _ _ _ P) in N; exact N).
    assert (B : Qabs d' < two (-1021)).
    { assert (R := SC d'). assert (R' := SC d). fold X in R'. change (-1074)%Z with (-1 + -1073)%Z in R, R'.
      assert (Y1 : Qabs (y - d') <= two (-1075)).
      { rewrite R. change (two (-1075)) with (two (-1 + -1074)). rewrite (two_plus (-1) (-1074)). change (-1 + -1073)%Z with (-1074)%Z. rewrite (Qmult_le_r _ _ _ P). change (two (-1)) with (1 # 2). lra. }
      assert (Y2 : Qabs (y - d) <= two (-1075)).
      { rewrite R'. change (two (-1075)) with (two (-1 + -1074)). rewrite (two_plus (-1) (-1074)). change (-1 + -1073)%Z with (-1074)%Z. rewrite (Qmult_le_r _ _ _ P). change (two (-1)) with (1 # 2). lra. }
      assert (T : Qabs d' <= Qabs d + (Qabs (y - d) + Qabs (y - d'))).
      { setoid_replace d' with (d + ((y - d) + - (y - d'))) at 1 by ring. eapply Qle_trans; [apply Qabs_triangle|]. apply Qplus_le_r. eapply Qle_trans; [apply Qabs_triangle|]. rewrite Qabs_opp. apply Qle_refl. }
      assert (two (-1075) + two (-1075) <= two (-1022)) by (setoid_replace (two (-1075) + two (-1075)) with (2 * two (-1075)) by ring; rewrite <- two_succ; apply two_le; lia).
      assert (two (-1021) == 2 * two (-1022)) by (rewrite <- two_succ; reflexivity). lra. }
    rewrite (round_tiny d' B), Y. rewrite (nearest_stable X (d' * two 1074) n H1 H2 L). reflexivity.
  - assert (R := round_normal d S). fold y in R. rewrite Qabs_Qminus in R.
    destruct (Qeq_dec d d') as [E|E]; [unfold y; rewrite <- E; reflexivity|exfalso].
    assert (G := decimal_gap d d' D D' E). assert (SM := small_15).
    assert (T : Qabs (d - d') <= two (-52) * Qabs d).
    { setoid_replace (d - d') with ((d - y) + (y - d')) by ring. eapply Qle_trans; [apply Qabs_triangle|].
      rewrite (Qabs_Qminus y d) in N. assert (two (-52) == 2 * two (-53)) by (rewrite <- two_succ; reflexivity). nra. }
    assert (P := two_pos (-1022)). assert (PD : 0 < Qabs d) by lra. assert (P15 := ten_pos (-15)).
    assert (Qabs (d - d') * (1 + ten (-15)) <= two (-52) * Qabs d * (1 + ten (-15))) by (apply Qmult_le_compat_r; lra).
    set (a := Qabs d) in *. set (t := two (-52)) in *. set (u := ten (-15)) in *. clear - H G SM PD. nra.
Qed.

Lemma f15_short : forall d q, digits15 d -> rounds_to d q -> f15 q == q.
Proof.
  intros d q D R. assert (E : q == round d) by (apply (rounds_unique d d); [reflexivity|exact R|apply round_ok]).
  unfold f15. assert (X : d15 q == d15 (round d)) by (apply (rounds15_unique q (round d)); [exact E|apply d15_ok|apply d15_ok]).
  rewrite X, short_stable by exact D. symmetry. exact E.
Qed.
Lemma f15_wd : forall q q', q == q' -> f15 q = f15 q'.
Proof.
  intros q q' E. unfold f15. rewrite <- round_red. rewrite <- (round_red (d15 q')). apply Qred_complete, round_wd.
  apply (rounds15_unique q q'); [exact E|apply d15_ok|apply d15_ok].
Qed.
Lemma f15_again : forall q, f15 (f15 q) = f15 q.
Proof.
  assert (R : forall q, Qred (f15 q) = f15 q) by (intros q; apply round_red).
  intros q. rewrite <- (R q) at 2. rewrite <- (R (f15 q)). apply Qred_complete. apply (f15_short (d15 q)); [apply d15_ok|apply round_ok].
Qed.

(** * How close *)
Lemma d15_close : forall q, 2 * Qabs (q - d15 q) <= Qabs q * ten (-14).
Proof.
  assert (P : forall x, 0 < x -> 2 * Qabs (x - d15p x) <= x * ten (-14)).
  { intros x X. assert (H := fifteen_ok x X). unfold d15p. destruct (fifteen x) as [n k]. apply H. }
  intros q. unfold d15. destruct (Qeq_bool q 0) eqn:E.
  - apply Qeq_bool_iff in E. setoid_replace (q - 0) with q by ring. rewrite E. change (Qabs 0) with 0. lra.
  - assert (N : ~ q == 0) by (intros X; apply Qeq_bool_iff in X; congruence). destruct (Qle_bool 0 q) eqn:L; cbn [negb].
    + apply Qle_bool_iff in L. rewrite (Qabs_pos q) by exact L. apply P. destruct (Qle_lt_or_eq _ _ L) as [|X]; [assumption|exfalso; apply N; symmetry; exact X].
    + assert (X : q < 0) by (destruct (Qlt_le_dec q 0) as [|C]; [assumption|apply Qle_bool_iff in C; congruence]).
      rewrite (Qabs_neg q) by lra. setoid_replace (q - - d15p (- q)) with (- (- q - d15p (- q))) by ring. rewrite Qabs_opp. apply P. lra.
Qed.
Lemma f15_close : forall q, Qabs (f15 q - q) <= Qabs q * (6 # 1000000000000000) + two (-1075).
Proof.
  intros q. assert (C := d15_close q). assert (R := round_error (d15 q)). fold (f15 q) in R. set (d := d15 q) in *.
  assert (T1 : Qabs (f15 q - q) <= Qabs (f15 q - d) + Qabs (q - d)).
  { rewrite (Qabs_Qminus q d). setoid_replace (f15 q - q) with ((f15 q - d) + (d - q)) by ring. apply Qabs_triangle. }
  assert (T2 : Qabs d <= Qabs q + Qabs (q - d)).
  { rewrite (Qabs_Qminus q d). setoid_replace d with (q + (d - q)) at 1 by ring. apply Qabs_triangle. }
  assert (A := Qabs_nonneg q). assert (B1 : two (-53) <= 2 # 10000000000000000) by discriminate. assert (B2 : ten (-14) == 1 # 100000000000000) by reflexivity.
  assert (B0 := two_pos (-53)). rewrite B2 in C. set (t := two (-53)) in *. set (u := two (-1075)) in *. set (a := Qabs q) in *. set (b := Qabs (q - d)) in *. set (c := Qabs d) in *.
  clearbody a b c t u. clear B2. assert (c <= a * (2 # 1)) by lra. assert (t * c <= (2 # 10000000000000000) * (a * (2 # 1))) by nra. lra.
Qed.

(** * Floats *)
Lemma single_gap : forall x y, single x -> single y -> ~ x == y -> Qabs x * two (-24) <= Qabs (x - y) * (1 + two (-24)).
Proof.
  assert (K : forall m e m' e', (Z.abs m < 2 ^ 24)%Z -> (e <= e')%Z -> ~ inject_Z m * two e == inject_Z m' * two e' ->
    Qabs (inject_Z m * two e) * two (-24) <= Qabs (inject_Z m * two e - inject_Z m' * two e')).
  { intros m e m' e' M E N.
    assert (S : two e' == inject_Z (2 ^ (e' - e)) * two e).
    { rewrite <- two_int by lia. rewrite <- two_plus. replace (e' - e + e)%Z with e' by lia. reflexivity. }
    assert (D : m <> (m' * 2 ^ (e' - e))%Z). { intros X. apply N. rewrite S, X, inject_Z_mult. ring. }
    apply int_gap in D. assert (P := two_pos e).
    setoid_replace (inject_Z m * two e - inject_Z m' * two e') with ((inject_Z m - inject_Z (m' * 2 ^ (e' - e))) * two e) by (rewrite S, inject_Z_mult; ring).
    rewrite !Qabs_Qmult, (Qabs_pos (two e)) by lra. change (Qabs (inject_Z m)) with (inject_Z (Z.abs m)).
    assert (A : inject_Z (Z.abs m) * two (-24) <= 1).
    { assert (I := two_inv 24). change (two (- (24))) with (two (-24)) in I. rewrite (two_int 24) in I by lia.
      assert (L : inject_Z (Z.abs m) <= inject_Z (2 ^ 24)) by (rewrite <- Zle_Qle; lia). assert (Q := two_pos (-24)). rewrite Qmult_comm in I. rewrite <- I. apply Qmult_le_compat_r; lra. }
    set (g := Qabs (inject_Z m - inject_Z (m' * 2 ^ (e' - e)))) in *. nra. }
  intros x y (m & e & M & _ & X) (m' & e' & M' & _ & Y) N. change (x == inject_Z m * two e) in X. change (y == inject_Z m' * two e') in Y.
  assert (Q := two_pos (-24)). assert (AP := Qabs_nonneg (x - y)).
  destruct (Z_le_gt_dec e e') as [E|E].
  - assert (H : Qabs x * two (-24) <= Qabs (x - y)). { rewrite X, Y. apply K; [exact M|exact E|]. rewrite <- X, <- Y. exact N. } nra.
  - assert (H : Qabs y * two (-24) <= Qabs (y - x)).
    { rewrite X, Y. apply K; [exact M'|lia|]. rewrite <- X, <- Y. intros Z. apply N. symmetry. exact Z. }
    rewrite (Qabs_Qminus y x) in H.
    assert (T : Qabs x <= Qabs y + Qabs (x - y)). { setoid_replace x with (y + (x - y)) at 1 by ring. apply Qabs_triangle. }
    nra.
Qed.
Lemma single_small : forall x, single x -> ~ x == 0 -> two (-149) <= Qabs x.
Proof.
  intros x (m & e & M & E & X) N. fold (two e) in X. rewrite X, Qabs_Qmult. assert (P := two_pos e). rewrite (Qabs_pos (two e)) by lra.
  assert (L := two_le (-149) e E). assert (Z : m <> 0%Z) by (intros ->; apply N; rewrite X; change (inject_Z 0) with 0; ring).
  change (Qabs (inject_Z m)) with (inject_Z (Z.abs m)). assert (1 <= inject_Z (Z.abs m)) by (change 1 with (inject_Z 1); rewrite <- Zle_Qle; lia). nra.
Qed.
Lemma f15_single : forall f32 q, to_single f32 -> single q -> f32 (f15 q) == q.
Proof.
  intros f32 q F S. destruct (F (f15 q)) as (S' & _ & N). specialize (N q S). set (z := f32 (f15 q)) in *.
  destruct (Qeq_dec q 0) as [Z|Z].
  - assert (Y : f15 q == 0) by (rewrite (f15_wd q 0 Z); reflexivity). rewrite Y, Z in N. change (Qabs (0 - 0)) with 0 in N. apply Qabs_Qle_condition in N. rewrite Z. lra.
  - destruct (Qeq_dec q z) as [E|E]; [symmetry; exact E|exfalso]. assert (G := single_gap q z S S' E). assert (C := f15_close q). assert (L := single_small q S Z).
    assert (T : Qabs (q - z) <= 2 * Qabs (f15 q - q)).
    { setoid_replace (q - z) with (- (f15 q - q) + (f15 q - z)) by ring. eapply Qle_trans; [apply Qabs_triangle|]. rewrite Qabs_opp. lra. }
    assert (B : two (-1075) <= Qabs q * (1 # 1000000000000000)). { apply Qle_trans with (two (-149) * (1 # 1000000000000000)); [discriminate|]. apply Qmult_le_compat_r; [exact L|discriminate]. }
    assert (B1 : two (-24) == 1 # 16777216) by reflexivity. rewrite B1 in G. assert (P := two_pos (-149)). set (a := Qabs q) in *. assert (0 < a) by lra. lra.
Qed.
Lemma stable15 : forall f32, to_single f32 -> Doc.Spec.stable f15 f32.
Proof.
  intros f32 F. split.
  - apply f15_again.
  - intros q. destruct (F (f15 q)) as (S & R & _). rewrite <- R. destruct (F (f15 (Qred (f32 (f15 q))))) as (_ & R' & _). rewrite <- R'. apply Qred_complete. rewrite R. apply (f15_single f32 _ F S).
  - destruct (F 0) as (_ & R & N). rewrite <- R. change 0 with (Qred 0) at 2. apply Qred_complete. specialize (N 0). change (0 - 0) with 0 in N.
    assert (S0 : single 0) by (exists 0%Z, 0%Z; split; [reflexivity|]; split; [lia|reflexivity]). specialize (N S0). change (Qabs 0) with 0 in N. apply Qabs_Qle_condition in N. lra.
Qed.
