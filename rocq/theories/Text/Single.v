(** Rounding to float, as Round/Model and Round/Rounding do it for doubles: a conversion
    [to_single] exists. *)
From Coq Require Import List Bool QArith Qabs Qround Qpower ZArith Lia Lqa.
From Verif.Round Require Import Model Spec Rounding.
From Verif.Text Require Import Spec.
Local Open Scope Q_scope.

(** binary32 without its upper limit. *)
Definition spacing32 (x : Q) : Z := Z.max (magnitude x - 23) (-149).
Definition round32 (x : Q) : Q :=
  if Qeq_bool x 0 then 0
  else let s := spacing32 x in Qred (inject_Z (nearest_even (x * two (- s))) * two s).

Lemma round32_zero : forall x, x == 0 -> round32 x = 0.
Proof. intros x H. unfold round32. rewrite (proj2 (Qeq_bool_iff x 0) H). reflexivity. Qed.
Lemma round32_nonzero : forall x, ~ x == 0 ->
  round32 x == inject_Z (nearest_even (x * two (- spacing32 x))) * two (spacing32 x).
Proof.
  intros x H. unfold round32. destruct (Qeq_bool x 0) eqn:E; [apply Qeq_bool_iff in E; contradiction|]. apply Qred_correct.
Qed.

Lemma inject_pow32 : inject_Z (2 ^ 23) == two 23 /\ inject_Z (2 ^ 24) == two 24.
Proof. split; reflexivity. Qed.

Lemma single_opp : forall x, single x -> single (- x).
Proof. intros x (m & e & H1 & H2 & H3). exists (- m)%Z, e. split; [lia|]. split; [exact H2|]. rewrite H3, inject_Z_opp. ring. Qed.
Lemma single_wd : forall x y, x == y -> single x -> single y.
Proof. intros x y E (m & e & H1 & H2 & H3). exists m, e. rewrite <- E. tauto. Qed.
Lemma single_0 : single 0.
Proof. exists 0%Z, 0%Z. repeat split; lia. Qed.
Lemma single_int : forall n, (Z.abs n <= 2 ^ 24)%Z -> single (inject_Z n).
Proof.
  intros n H. destruct (Z.eq_dec (Z.abs n) (2 ^ 24)) as [E|D].
  - destruct (Z.abs_eq_or_opp n) as [K|K]; rewrite K in E.
    + exists (2 ^ 23)%Z, 1%Z. subst n. repeat split; lia.
    + assert (n = - 2 ^ 24)%Z by lia. subst n. exists (- 2 ^ 23)%Z, 1%Z. repeat split; lia.
  - exists n, 0%Z. repeat split; try lia. change (2 ^ 0) with 1. ring.
Qed.
Lemma single_mult : forall n e, (Z.abs n <= 2 ^ 24)%Z -> (-149 <= e)%Z -> single (inject_Z n * two e).
Proof.
  intros n e H He. destruct (Z.eq_dec (Z.abs n) (2 ^ 24)) as [E|D].
  - assert (C : n = (2 ^ 23 * 2)%Z \/ n = (- 2 ^ 23 * 2)%Z) by lia.
    destruct C as [-> | ->]; [exists (2 ^ 23)%Z, (e + 1)%Z|exists (- 2 ^ 23)%Z, (e + 1)%Z]; (split; [lia|]); (split; [lia|]); fold (two (e + 1)); rewrite two_succ, inject_Z_mult; change (inject_Z 2) with 2; ring.
  - exists n, e. split; [lia|]. split; [exact He|]. reflexivity.
Qed.

Lemma scaled_bound32 : forall x, ~ x == 0 -> Qabs (x * two (- spacing32 x)) < two 24.
Proof.
  intros x H. destruct (magnitude_ok x H) as [_ M]. rewrite Qabs_Qmult. assert (P := two_pos (- spacing32 x)). rewrite (Qabs_pos (two (- spacing32 x))) by lra.
  apply Qlt_le_trans with (two (magnitude x + 1) * two (- spacing32 x)).
  - rewrite (Qmult_lt_r _ _ _ P). exact M.
  - rewrite <- two_plus. apply two_le. unfold spacing32. lia.
Qed.
Lemma round32_single : forall x, single (round32 x).
Proof.
  intro x. destruct (Qeq_dec x 0) as [E|E]; [rewrite round32_zero by exact E; apply single_0|].
  eapply single_wd; [symmetry; apply round32_nonzero, E|]. apply single_mult; [|unfold spacing32; lia].
  apply nearest_bound; [lia|]. rewrite (proj2 inject_pow32). apply scaled_bound32, E.
Qed.

(** A single is a multiple of the spacing at x, or smaller than the power of two below x. *)
Lemma single_cases : forall x z, ~ x == 0 -> single z ->
  (exists n, z == inject_Z n * two (spacing32 x)) \/
  (Qabs z < two (magnitude x) /\ two (magnitude x) == inject_Z (2 ^ 23) * two (spacing32 x)).
Proof.
  intros x z H (m & e & M & E & Z). fold (two e) in Z. set (s := spacing32 x).
  destruct (Z_le_gt_dec s e) as [L|G].
  - left. exists (m * 2 ^ (e - s))%Z. rewrite Z, inject_Z_mult, (two_split e s), (two_int (e - s)) by lia. ring.
  - right. assert (Es : s = (magnitude x - 23)%Z) by (unfold s, spacing32 in *; lia). split.
    + rewrite Z, Qabs_Qmult. assert (P := two_pos e). rewrite (Qabs_pos (two e)) by lra.
      apply Qlt_le_trans with (two 24 * two e).
      * rewrite (Qmult_lt_r _ _ _ P). rewrite <- (proj2 inject_pow32). change (Qabs (inject_Z m)) with (inject_Z (Z.abs m)). rewrite <- Zlt_Qlt. exact M.
      * rewrite <- two_plus. apply two_le. lia.
    + rewrite (proj1 inject_pow32), <- two_plus. replace (23 + s)%Z with (magnitude x) by lia. reflexivity.
Qed.

Lemma round32_near : forall x z, single z -> Qabs (x - round32 x) <= Qabs (x - z) /\
  (~ z == round32 x -> Qabs (x - z) == Qabs (x - round32 x) -> exists m : Z, round32 x == inject_Z (2 * m) * Qabs (z - round32 x)).
Proof.
  intros x z Dz. destruct (Qeq_dec x 0) as [E|E].
  - rewrite (round32_zero x E). rewrite E. split; [change (Qabs (0 - 0)) with 0; apply Qabs_nonneg|]. intros N K. exists 0%Z. change (inject_Z (2 * 0)) with 0. ring.
  - assert (R := round32_nonzero x E). set (s := spacing32 x) in *. set (X := x * two (- s)) in *. assert (P := two_pos s).
    assert (Mul : forall n, Qabs (x - inject_Z n * two s) == Qabs (X - inject_Z n) * two s) by (intro n; apply scale_abs).
    assert (Best : forall n, Qabs (x - round32 x) <= Qabs (x - inject_Z n * two s)).
    { intro n. rewrite R, !Mul. rewrite (Qmult_le_r _ _ _ P). apply nearest_even_best. }
    destruct (single_cases x z E Dz) as [[n N]|[S1 S2]]; [fold s in N|fold s in S2].
    + split; [rewrite N; apply Best|]. intros D K.
      assert (Dn : n <> nearest_even X) by (intros ->; apply D; rewrite N, R; reflexivity).
      assert (K' : Qabs (X - inject_Z n) == Qabs (X - inject_Z (nearest_even X))).
      { rewrite N, R, !Mul in K. apply Qmult_inj_r in K; [exact K|]. lra. }
      destruct (nearest_even_best X n) as [_ T]. destruct (T Dn K') as [Ev One].
      apply Z.even_spec in Ev. destruct Ev as [h Eh]. exists h. rewrite R, N.
      setoid_replace (inject_Z n * two s - inject_Z (nearest_even X) * two s) with (inject_Z (n - nearest_even X) * two s) by (unfold Zminus; rewrite inject_Z_plus, inject_Z_opp; ring).
      rewrite Qabs_Qmult. change (Qabs (inject_Z (n - nearest_even X))) with (inject_Z (Z.abs (n - nearest_even X))). rewrite One, (Qabs_pos (two s)) by lra. rewrite Eh. change (inject_Z 1) with 1. ring.
    + destruct (magnitude_ok x E) as [M1 _]. destruct (Qabs_small x z (two (magnitude x)) (two_pos _) M1 S1) as [Q1 Q2].
      assert (St : Qabs (x - round32 x) < Qabs (x - z)).
      { destruct (Qlt_le_dec 0 x) as [Px|Nx].
        - eapply Qle_lt_trans; [|exact (Q1 Px)]. rewrite S2. apply Best.
        - assert (Nx' : x < 0) by (destruct (Qle_lt_or_eq x 0 Nx); [assumption|contradiction]). eapply Qle_lt_trans; [|exact (Q2 Nx')]. rewrite S2.
          setoid_replace (- (inject_Z (2 ^ 23) * two s)) with (inject_Z (- 2 ^ 23) * two s) by (rewrite inject_Z_opp; ring). apply Best. }
      split; [lra|]. intros _ K. lra.
Qed.
Theorem round32_ok : to_single round32.
Proof.
  intros x. split; [apply round32_single|]. split; [|intros z Z; apply round32_near, Z].
  unfold round32. destruct (Qeq_bool x 0); [reflexivity|]. apply Qred_complete, Qred_correct.
Qed.
