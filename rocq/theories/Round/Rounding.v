From Coq Require Import List Bool QArith Qround Qabs Qpower ZArith Lia Lqa.
From Verif.Assoc Require Import Model.
From Verif.Round Require Import Model Spec.
Local Open Scope Q_scope.

(** * Powers of two *)
Lemma two_pos : forall e, 0 < two e.
Proof. intro e. unfold two. apply Qpower_0_lt. reflexivity. Qed.
Lemma two_plus : forall a b, two (a + b) == two a * two b.
Proof. intros. unfold two. apply Qpower_plus. discriminate. Qed.
Lemma two_le : forall a b, (a <= b)%Z -> two a <= two b.
Proof. intros. unfold two. apply Qpower_le_compat_l; [assumption|discriminate]. Qed.
Lemma two_lt : forall a b, (a < b)%Z -> two a < two b.
Proof. intros. unfold two. apply Qpower_lt_compat_l; [assumption|reflexivity]. Qed.
Lemma two_lt_inv : forall a b, two a < two b -> (a < b)%Z.
Proof. intros a b H. destruct (Z_lt_le_dec a b) as [|L]; [assumption|]. apply two_le in L. lra. Qed.
Lemma two_int : forall n, (0 <= n)%Z -> two n == inject_Z (2 ^ n).
Proof. intros n H. unfold two. rewrite Zpower_Qpower by exact H. reflexivity. Qed.
Lemma two_inv : forall e, two (- e) * two e == 1.
Proof. intro e. rewrite <- two_plus. replace (- e + e)%Z with 0%Z by lia. reflexivity. Qed.
Lemma two_succ : forall e, two (e + 1) == 2 * two e.
Proof. intro e. rewrite two_plus. change (two 1) with 2. ring. Qed.
Lemma two_split : forall a b, two a == two (a - b) * two b.
Proof. intros a b. rewrite <- two_plus. replace (a - b + b)%Z with a by lia. reflexivity. Qed.

Lemma Qltb_lt : forall x y, Qltb x y = true <-> x < y.
Proof. intros x y. unfold Qltb. destruct (Qle_bool y x) eqn:E; cbn. - apply Qle_bool_iff in E. split; [discriminate|lra]. - split; [intros _|reflexivity]. apply Qnot_le_lt. intro H. apply Qle_bool_iff in H. congruence. Qed.
Lemma Qltb_ge : forall x y, Qltb x y = false <-> y <= x.
Proof. intros x y. unfold Qltb. destruct (Qle_bool y x) eqn:E; cbn. - apply Qle_bool_iff in E. split; [trivial|reflexivity]. - split; [discriminate|]. intro H. apply Qle_bool_iff in H. congruence. Qed.

Lemma magnitude_ok : forall x, ~ x == 0 -> two (magnitude x) <= Qabs x /\ Qabs x < two (magnitude x + 1).
Proof.
  intros [n d] H. unfold magnitude. cbn [Qnum Qden].
  assert (Hn : (0 < Z.abs n)%Z). { destruct (Z.eq_dec n 0) as [-> |]; [exfalso; apply H; reflexivity|lia]. }
  assert (E : Qabs (n # d) == inject_Z (Z.abs n) / inject_Z (Zpos d)). { unfold Qabs. rewrite Qmake_Qdiv. reflexivity. }
  destruct (Z.log2_spec (Z.abs n) Hn) as [A1 A2]. destruct (Z.log2_spec (Zpos d) ltac:(lia)) as [B1 B2].
  set (a := Z.log2 (Z.abs n)) in *. set (b := Z.log2 (Zpos d)) in *.
  assert (Pa : (0 <= a)%Z) by apply Z.log2_nonneg. assert (Pb : (0 <= b)%Z) by apply Z.log2_nonneg.
  set (N := inject_Z (Z.abs n)) in *. set (D := inject_Z (Zpos d)) in *.
  assert (A1' : two a <= N) by (rewrite two_int by exact Pa; unfold N, D; rewrite <- Zle_Qle; exact A1).
  assert (A2' : N < two (a + 1)) by (rewrite two_int by lia; unfold N, D; rewrite <- Zlt_Qlt; exact A2).
  assert (B1' : two b <= D) by (rewrite two_int by exact Pb; unfold N, D; rewrite <- Zle_Qle; exact B1).
  assert (B2' : D < two (b + 1)) by (rewrite two_int by lia; unfold N, D; rewrite <- Zlt_Qlt; exact B2).
  assert (PD : 0 < D) by reflexivity.
  assert (Up : N / D < two (a - b + 1)).
  { apply Qlt_shift_div_r; [exact PD|]. eapply Qlt_le_trans; [exact A2'|]. rewrite (two_split (a + 1) b). replace (a + 1 - b)%Z with (a - b + 1)%Z by lia.
    rewrite (Qmult_le_l _ _ _ (two_pos (a - b + 1))). exact B1'. }
  assert (Lo : two (a - b - 1) <= N / D).
  { apply Qle_shift_div_l; [exact PD|]. eapply Qle_trans; [|exact A1']. rewrite (two_split a (b + 1)). replace (a - (b + 1))%Z with (a - b - 1)%Z by lia.
    rewrite (Qmult_le_l _ _ _ (two_pos (a - b - 1))). lra. }
  destruct (Qle_bool (two (a - b)) (Qabs (n # d))) eqn:C.
  - apply Qle_bool_iff in C. split; [exact C|rewrite E; exact Up].
  - split; [rewrite E; exact Lo|]. replace (a - b - 1 + 1)%Z with (a - b)%Z by lia. apply Qnot_le_lt. intro K. apply Qle_bool_iff in K. congruence.
Qed.
Lemma magnitude_unique : forall x k, two k <= Qabs x -> Qabs x < two (k + 1) -> magnitude x = k.
Proof.
  intros x k H1 H2. destruct (Qeq_dec x 0) as [Z|Z].
  - rewrite Z in H1. assert (P := two_pos k). cbn in H1. change (Qabs 0) with 0 in H1. lra.
  - destruct (magnitude_ok x Z) as [M1 M2].
    assert (k < magnitude x + 1)%Z by (apply two_lt_inv; lra). assert (magnitude x < k + 1)%Z by (apply two_lt_inv; lra). lia.
Qed.

Lemma nearest_even_ok : forall x, Qabs (x - inject_Z (nearest_even x)) <= 1 # 2 /\
  (Qabs (x - inject_Z (nearest_even x)) == 1 # 2 -> Z.even (nearest_even x) = true).
Proof.
  intro x. unfold nearest_even. assert (F1 := Qfloor_le x). assert (F2 := Qlt_floor x). set (f := Qfloor x) in *.
  assert (S1 : inject_Z (f + 1) == inject_Z f + 1) by (rewrite inject_Z_plus; reflexivity). rewrite S1 in F2.
  assert (Up : x - inject_Z f >= 1 # 2 -> Qabs (x - inject_Z (f + 1)) == inject_Z f + 1 - x).
  { intro G. rewrite Qabs_neg by lra. lra. }
  assert (Dn : Qabs (x - inject_Z f) == x - inject_Z f) by (apply Qabs_pos; lra).
  destruct (Qltb (x - inject_Z f) (1 # 2)) eqn:E1; [apply Qltb_lt in E1|apply Qltb_ge in E1].
  - rewrite Dn. split; lra.
  - destruct (Qltb (1 # 2) (x - inject_Z f)) eqn:E2; [apply Qltb_lt in E2|apply Qltb_ge in E2].
    + rewrite Up by lra. split; lra.
    + destruct (Z.even f) eqn:E3; [rewrite Dn; split; [lra|intros _; exact E3]|]. rewrite Up by lra. split; [lra|]. intros _.
      rewrite Z.add_1_r, Z.even_succ, <- Z.negb_even, E3. reflexivity.
Qed.
(** No integer is nearer; equally near ones are one apart. *)
Lemma nearest_even_best : forall x n, Qabs (x - inject_Z (nearest_even x)) <= Qabs (x - inject_Z n) /\
  (n <> nearest_even x -> Qabs (x - inject_Z n) == Qabs (x - inject_Z (nearest_even x)) -> Z.even (nearest_even x) = true /\ Z.abs (n - nearest_even x) = 1%Z).
Proof.
  intros x n. destruct (nearest_even_ok x) as [H1 H2]. set (m := nearest_even x) in *.
  destruct (Z.eq_dec n m) as [-> |D]; [split; [apply Qle_refl|congruence]|].
  assert (G : 1 <= Qabs (inject_Z n - inject_Z m)).
  { unfold Qminus. rewrite <- inject_Z_opp, <- inject_Z_plus.
    change (Qabs (inject_Z (n + - m))) with (inject_Z (Z.abs (n + - m))). change 1 with (inject_Z 1). rewrite <- Zle_Qle. lia. }
  assert (T : Qabs (inject_Z n - inject_Z m) <= Qabs (x - inject_Z n) + Qabs (x - inject_Z m)).
  { eapply Qle_trans; [|rewrite (Qabs_Qminus x (inject_Z n)); apply Qabs_triangle].
    setoid_replace (inject_Z n - x + (x - inject_Z m)) with (inject_Z n - inject_Z m) by ring. apply Qle_refl. }
  split; [lra|]. intros _ E. assert (E' : Qabs (x - inject_Z m) == 1 # 2) by lra. split; [exact (H2 E')|].
  assert (U : Qabs (inject_Z n - inject_Z m) <= 1) by lra. unfold Qminus in U. rewrite <- inject_Z_opp, <- inject_Z_plus in U.
  change (Qabs (inject_Z (n + - m))) with (inject_Z (Z.abs (n + - m))) in U. change 1 with (inject_Z 1) in U. rewrite <- Zle_Qle in U. lia.
Qed.

(** * round *)
Lemma round_zero : forall x, x == 0 -> round x = 0.
Proof. intros x H. unfold round. rewrite (proj2 (Qeq_bool_iff x 0) H). reflexivity. Qed.
Lemma round_nonzero : forall x, ~ x == 0 ->
  round x == inject_Z (nearest_even (x * two (- spacing_exponent x))) * two (spacing_exponent x).
Proof.
  intros x H. unfold round. destruct (Qeq_bool x 0) eqn:E; [apply Qeq_bool_iff in E; contradiction|]. apply Qred_correct.
Qed.

Lemma scale_abs : forall x a e, Qabs (x - a * two e) == Qabs (x * two (- e) - a) * two e.
Proof.
  intros x a e. assert (P := two_pos e). rewrite <- (Qabs_pos (two e)) at 2 by lra. rewrite <- Qabs_Qmult. apply Qabs_wd.
  assert (I := two_inv e). setoid_replace ((x * two (- e) - a) * two e) with (x * (two (- e) * two e) - a * two e) by ring. rewrite I. ring.
Qed.
Lemma inject_pow : inject_Z (2 ^ 52) == two 52 /\ inject_Z (2 ^ 53) == two 53.
Proof. split; reflexivity. Qed.

Lemma double_opp : forall x, double x -> double (- x).
Proof. intros x (m & e & H1 & H2 & H3). exists (- m)%Z, e. split; [lia|]. split; [exact H2|]. rewrite H3, inject_Z_opp. ring. Qed.
Lemma double_wd : forall x y, x == y -> double x -> double y.
Proof. intros x y E (m & e & H1 & H2 & H3). exists m, e. rewrite <- E. tauto. Qed.
Lemma double_0 : double 0.
Proof. exists 0%Z, 0%Z. repeat split; lia. Qed.
Lemma double_int : forall n, (Z.abs n <= 2 ^ 53)%Z -> double (inject_Z n).
Proof.
  intros n H. destruct (Z.eq_dec (Z.abs n) (2 ^ 53)) as [E|D].
  - destruct (Z.abs_eq_or_opp n) as [K|K]; rewrite K in E.
    + exists (2 ^ 52)%Z, 1%Z. subst n. repeat split; lia.
    + assert (n = - 2 ^ 53)%Z by lia. subst n. exists (- 2 ^ 52)%Z, 1%Z. repeat split; lia.
  - exists n, 0%Z. repeat split; try lia. change (2 ^ 0) with 1. ring.
Qed.
Lemma double_mult : forall n e, (Z.abs n <= 2 ^ 53)%Z -> (-1074 <= e)%Z -> double (inject_Z n * two e).
Proof.
  intros n e H He. destruct (Z.eq_dec (Z.abs n) (2 ^ 53)) as [E|D].
  - assert (C : n = (2 ^ 52 * 2)%Z \/ n = (- 2 ^ 52 * 2)%Z) by lia.
    destruct C as [-> | ->]; [exists (2 ^ 52)%Z, (e + 1)%Z|exists (- 2 ^ 52)%Z, (e + 1)%Z]; (split; [lia|]); (split; [lia|]); fold (two (e + 1)); rewrite two_succ, inject_Z_mult; change (inject_Z 2) with 2; ring.
  - exists n, e. split; [lia|]. split; [exact He|]. reflexivity.
Qed.

Lemma magnitude_opp : forall x, magnitude (- x) = magnitude x.
Proof.
  intros [n d]. unfold magnitude, Qopp; cbn [Qnum Qden]. rewrite Z.abs_opp.
  replace (Qabs (- n # d)) with (Qabs (n # d)) by (unfold Qabs; rewrite Z.abs_opp; reflexivity). reflexivity.
Qed.

(** The scaled value has at most 53 bits before the point. *)
Lemma scaled_bound : forall x, ~ x == 0 -> Qabs (x * two (- spacing_exponent x)) < two 53.
Proof.
  intros x H. destruct (magnitude_ok x H) as [_ M]. rewrite Qabs_Qmult. assert (P := two_pos (- spacing_exponent x)). rewrite (Qabs_pos (two (- spacing_exponent x))) by lra.
  apply Qlt_le_trans with (two (magnitude x + 1) * two (- spacing_exponent x)).
  - rewrite (Qmult_lt_r _ _ _ P). exact M.
  - rewrite <- two_plus. apply two_le. unfold spacing_exponent. lia.
Qed.
Lemma nearest_bound : forall x N, (0 <= N)%Z -> Qabs x < inject_Z N -> (Z.abs (nearest_even x) <= N)%Z.
Proof.
  intros x N H0 H. destruct (nearest_even_best x N) as [B _]. destruct (nearest_even_best x (- N)) as [B' _]. destruct (nearest_even_ok x) as [K _].
  apply Qabs_Qlt_condition in H. destruct H as [L U]. apply Qabs_Qle_condition in K. destruct K as [K1 K2].
  assert (inject_Z (nearest_even x) < inject_Z (N + 1)) by (rewrite inject_Z_plus; change (inject_Z 1) with 1; lra).
  assert (inject_Z (- N - 1) < inject_Z (nearest_even x)) by (unfold Zminus; rewrite inject_Z_plus, inject_Z_opp; change (inject_Z (- (1))) with (- (1)); lra).
  rewrite <- Zlt_Qlt in *. lia.
Qed.
Lemma round_double : forall x, double (round x).
Proof.
  intro x. destruct (Qeq_dec x 0) as [E|E]; [rewrite round_zero by exact E; apply double_0|].
  eapply double_wd; [symmetry; apply round_nonzero, E|]. apply double_mult; [|unfold spacing_exponent; lia].
  apply nearest_bound; [lia|]. rewrite (proj2 inject_pow). apply scaled_bound, E.
Qed.

(** A double is a multiple of the spacing at x, or smaller than the power of two below x. *)
Lemma double_cases : forall x z, ~ x == 0 -> double z ->
  (exists n, z == inject_Z n * two (spacing_exponent x)) \/
  (Qabs z < two (magnitude x) /\ two (magnitude x) == inject_Z (2 ^ 52) * two (spacing_exponent x)).
Proof.
  intros x z H (m & e & M & E & Z). fold (two e) in Z. set (s := spacing_exponent x).
  destruct (Z_le_gt_dec s e) as [L|G].
  - left. exists (m * 2 ^ (e - s))%Z. rewrite Z, inject_Z_mult, (two_split e s), (two_int (e - s)) by lia. ring.
  - right. assert (Es : s = (magnitude x - 52)%Z) by (unfold s, spacing_exponent in *; lia). split.
    + rewrite Z, Qabs_Qmult. assert (P := two_pos e). rewrite (Qabs_pos (two e)) by lra.
      apply Qlt_le_trans with (two 53 * two e).
      * rewrite (Qmult_lt_r _ _ _ P). rewrite <- (proj2 inject_pow). change (Qabs (inject_Z m)) with (inject_Z (Z.abs m)). rewrite <- Zlt_Qlt. exact M.
      * rewrite <- two_plus. apply two_le. lia.
    + rewrite (proj1 inject_pow), <- two_plus. replace (52 + s)%Z with (magnitude x) by lia. reflexivity.
Qed.

Lemma Qabs_small : forall x z p, 0 < p -> p <= Qabs x -> Qabs z < p -> (0 < x -> Qabs (x - p) < Qabs (x - z)) /\ (x < 0 -> Qabs (x - - p) < Qabs (x - z)).
Proof.
  intros x z p P H1 H2. apply Qabs_Qlt_condition in H2. destruct H2 as [L U]. split; intro S.
  - rewrite (Qabs_pos x) in H1 by lra. rewrite (Qabs_pos (x - p)), (Qabs_pos (x - z)) by lra. lra.
  - rewrite (Qabs_neg x) in H1 by lra. rewrite (Qabs_neg (x - - p)), (Qabs_neg (x - z)) by lra. lra.
Qed.

Lemma round_near : forall x z, double z -> Qabs (x - round x) <= Qabs (x - z) /\
  (~ z == round x -> Qabs (x - z) == Qabs (x - round x) -> exists m : Z, round x == inject_Z (2 * m) * Qabs (z - round x)).
Proof.
  intros x z Dz. destruct (Qeq_dec x 0) as [E|E].
  - rewrite (round_zero x E). rewrite E. split; [change (Qabs (0 - 0)) with 0; apply Qabs_nonneg|]. intros N K. exists 0%Z. change (inject_Z (2 * 0)) with 0. ring.
  - assert (R := round_nonzero x E). set (s := spacing_exponent x) in *. set (X := x * two (- s)) in *. assert (P := two_pos s).
    assert (Mul : forall n, Qabs (x - inject_Z n * two s) == Qabs (X - inject_Z n) * two s) by (intro n; apply scale_abs).
    assert (Best : forall n, Qabs (x - round x) <= Qabs (x - inject_Z n * two s)).
    { intro n. rewrite R, !Mul. rewrite (Qmult_le_r _ _ _ P). apply nearest_even_best. }
    destruct (double_cases x z E Dz) as [[n N]|[S1 S2]]; [fold s in N|fold s in S2].
    + split; [rewrite N; apply Best|]. intros D K.
      assert (Dn : n <> nearest_even X) by (intros ->; apply D; rewrite N, R; reflexivity).
      assert (K' : Qabs (X - inject_Z n) == Qabs (X - inject_Z (nearest_even X))).
      { rewrite N, R, !Mul in K. apply Qmult_inj_r in K; [exact K|]. lra. }
      destruct (nearest_even_best X n) as [_ T]. destruct (T Dn K') as [Ev One].
      apply Z.even_spec in Ev. destruct Ev as [h Eh]. exists h. rewrite R, N.
      setoid_replace (inject_Z n * two s - inject_Z (nearest_even X) * two s) with (inject_Z (n - nearest_even X) * two s) by (unfold Zminus; rewrite inject_Z_plus, inject_Z_opp; ring).
      rewrite Qabs_Qmult. change (Qabs (inject_Z (n - nearest_even X))) with (inject_Z (Z.abs (n - nearest_even X))). rewrite One, (Qabs_pos (two s)) by lra. rewrite Eh. change (inject_Z 1) with 1. ring.
    + destruct (magnitude_ok x E) as [M1 _]. destruct (Qabs_small x z (two (magnitude x)) (two_pos _) M1 S1) as [Q1 Q2].
      assert (St : Qabs (x - round x) < Qabs (x - z)).
      { destruct (Qlt_le_dec 0 x) as [Px|Nx].
        - eapply Qle_lt_trans; [|exact (Q1 Px)]. rewrite S2. apply Best.
        - assert (Nx' : x < 0) by (destruct (Qle_lt_or_eq x 0 Nx); [assumption|contradiction]). eapply Qle_lt_trans; [|exact (Q2 Nx')]. rewrite S2.
          setoid_replace (- (inject_Z (2 ^ 52) * two s)) with (inject_Z (- 2 ^ 52) * two s) by (rewrite inject_Z_opp; ring). apply Best. }
      split; [lra|]. intros _ K. lra.
Qed.
Theorem round_ok : forall x, rounds_to x (round x).
Proof. intro x. split; [apply round_double|]. split; intros z D; [apply round_near, D|apply (proj2 (round_near x z D))]. Qed.

Lemma rounds_unique : forall x x' y y', x == x' -> rounds_to x y -> rounds_to x' y' -> y == y'.
Proof.
  intros x x' y y' E (D & N & T) (D' & N' & T').
  assert (N1 := N y' D'). assert (N2 := N' y D). rewrite <- E in N2.
  assert (Q : Qabs (x - y') == Qabs (x - y)) by (apply Qle_antisym; assumption).
  destruct (Qeq_dec y' y) as [|Dif]; [symmetry; assumption|].
  destruct (T y' D' Dif Q) as [m M].
  assert (Dif' : ~ y == y') by (intro; apply Dif; symmetry; assumption).
  assert (Q' : Qabs (x' - y) == Qabs (x' - y')) by (rewrite <- E; symmetry; exact Q).
  destruct (T' y D Dif' Q') as [m' M']. rewrite (Qabs_Qminus y y') in M'.
  exfalso. set (d := Qabs (y' - y)) in *.
  assert (Pd : 0 < d). { unfold d. destruct (Qlt_le_dec 0 (y' - y)); [rewrite Qabs_pos by lra; assumption|]. rewrite Qabs_neg by assumption. destruct (Qle_lt_or_eq _ _ q); [lra|]. exfalso. apply Dif. lra. }
  assert (Ed : d == Qabs (inject_Z (2 * (m' - m)) * d)).
  { unfold d at 1. rewrite M, M' at 1. apply Qabs_wd. rewrite Z.mul_sub_distr_l. unfold Zminus. rewrite inject_Z_plus, inject_Z_opp. ring. }
  rewrite Qabs_Qmult, (Qabs_pos d) in Ed by lra. change (Qabs (inject_Z (2 * (m' - m)))) with (inject_Z (Z.abs (2 * (m' - m)))) in Ed.
  assert (One : inject_Z (Z.abs (2 * (m' - m))) == inject_Z 1). { apply (Qmult_inj_r _ _ d); [lra|]. rewrite <- Ed. change (inject_Z 1) with 1. ring. }
  assert (One2 : (Z.abs (2 * (m' - m)) = 1)%Z) by (apply inject_Z_injective; exact One). clear - One2. lia.
Qed.
Lemma round_wd : forall x y, x == y -> round x == round y.
Proof. intros x y E. eapply rounds_unique; [exact E|apply round_ok|apply round_ok]. Qed.
Add Morphism round with signature Qeq ==> Qeq as round_mor.
Proof. exact round_wd. Qed.

Lemma round_fixed : forall x, double x -> round x == x.
Proof.
  intros x D. destruct (round_near x x D) as [H _]. setoid_replace (x - x) with 0 in H by ring. change (Qabs 0) with 0 in H.
  apply Qabs_Qle_condition in H. lra.
Qed.
Lemma round_le : forall x y, x <= y -> round x <= round y.
Proof.
  intros x y H. destruct (Qlt_le_dec (round y) (round x)) as [L|]; [|assumption].
  destruct (round_near x (round y) (round_double y)) as [A _]. destruct (round_near y (round x) (round_double x)) as [B _].
  assert (Mx : round x + round y <= 2 * x).
  { destruct (Qlt_le_dec x (round x)) as [Lx|Lx]; [|lra]. rewrite (Qabs_neg (x - round x)) in A by lra.
    destruct (Qlt_le_dec x (round y)) as [Ly|Ly]; [rewrite (Qabs_neg (x - round y)) in A by lra; lra|]. rewrite (Qabs_pos (x - round y)) in A by lra. lra. }
  assert (My : 2 * y <= round x + round y).
  { destruct (Qlt_le_dec (round y) y) as [Ly|Ly]; [|lra]. rewrite (Qabs_pos (y - round y)) in B by lra.
    destruct (Qlt_le_dec (round x) y) as [Lx|Lx]; [rewrite (Qabs_pos (y - round x)) in B by lra; lra|]. rewrite (Qabs_neg (y - round x)) in B by lra. lra. }
  assert (E : x == y) by lra. apply round_wd in E. lra.
Qed.
Lemma round_0 : round 0 = 0.
Proof. reflexivity. Qed.
Lemma round_nonneg : forall x, 0 <= x -> 0 <= round x.
Proof. intros x H. apply round_le in H. rewrite round_0 in H. exact H. Qed.
Lemma round_1 : round 1 == 1.
Proof. reflexivity. Qed.

(** Relative error above the smallest normal double, absolute error below. *)
Lemma round_error : forall x, Qabs (round x - x) <= two (-53) * Qabs x + two (-1075).
Proof.
  intro x. destruct (Qeq_dec x 0) as [E|E].
  - rewrite (round_zero x E). rewrite E. change (Qabs (0 - 0)) with 0. change (Qabs 0) with 0. assert (P := two_pos (-1075)). lra.
  - rewrite Qabs_Qminus, (round_nonzero x E). set (s := spacing_exponent x). rewrite scale_abs. assert (P := two_pos s).
    apply Qle_trans with ((1 # 2) * two s); [rewrite (Qmult_le_r _ _ _ P); apply nearest_even_ok|].
    destruct (magnitude_ok x E) as [M _]. assert (P1 := two_pos (-1075)). assert (P2 := two_pos (-53)).
    assert (C : two s <= 2 * two (-53) * two (magnitude x) \/ s = (-1074)%Z).
    { unfold s, spacing_exponent. destruct (Z.max_spec (magnitude x - 52) (-1074)) as [[L ->]|[L ->]]; [right; reflexivity|left].
      change 2 with (two 1). rewrite <- !two_plus. apply two_le. lia. }
    destruct C as [C| ->].
    + apply Qle_trans with (two (-53) * two (magnitude x)); [lra|]. apply Qle_trans with (two (-53) * Qabs x); [rewrite (Qmult_le_l _ _ _ P2); exact M|lra].
    + change (two (-1074)) with (two (-1075 + 1)). rewrite two_succ. assert (G := Qabs_nonneg x). nra.
Qed.
Lemma round_normal : forall x, two (-1022) <= Qabs x -> Qabs (round x - x) <= two (-53) * Qabs x.
Proof.
  intros x H. assert (E : ~ x == 0). { intro E. rewrite E in H. change (Qabs 0) with 0 in H. assert (P := two_pos (-1022)). lra. }
  destruct (magnitude_ok x E) as [M1 M2]. assert (M : (-1022 <= magnitude x)%Z). { assert (-1022 < magnitude x + 1)%Z by (apply two_lt_inv; lra). lia. }
  rewrite Qabs_Qminus, (round_nonzero x E). set (s := spacing_exponent x). rewrite scale_abs. assert (P := two_pos s).
  apply Qle_trans with ((1 # 2) * two s); [rewrite (Qmult_le_r _ _ _ P); apply nearest_even_ok|].
  assert (P2 := two_pos (-53)). apply Qle_trans with (two (-53) * two (magnitude x)); [|rewrite (Qmult_le_l _ _ _ P2); exact M1].
  replace s with (magnitude x - 52)%Z by (unfold s, spacing_exponent; lia). change (1 # 2) with (two (-1)). rewrite <- !two_plus. apply two_le. lia.
Qed.

Lemma rounds_to_eq : forall x y, y == round x -> rounds_to x y.
Proof.
  intros x y E. destruct (round_ok x) as (D & N1 & N2). split; [eapply double_wd; [symmetry; exact E|exact D]|]. split; intros z Dz.
  - rewrite E. apply N1, Dz.
  - intros A B. destruct (N2 z Dz) as [m M]; [intro C; apply A; rewrite C, E; reflexivity|rewrite B, E; reflexivity|]. exists m. rewrite E. exact M.
Qed.
