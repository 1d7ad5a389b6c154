(** Average precision in double arithmetic. *)
From Coq Require Import List Bool QArith Qround Qabs ZArith Lia Lqa Arith.
From Verif.Base Require Import Py.
From Verif.Assoc Require Import Model.
From Verif.AP Require Import Model Spec Proofs.
From Verif.Round Require Import Model Spec Rounding.
Import ListNotations.
Local Open Scope Q_scope.

Definition small (n : nat) : Prop := (Z.of_nat n <= 2 ^ 48)%Z.

Lemma of_int_eq : forall n, (Z.of_nat n <= 2 ^ 53)%Z -> of_int n == Qnat n.
Proof. intros n H. unfold of_int, Qnat. apply round_fixed, double_int. lia. Qed.
Lemma of_int_small : forall n, small n -> of_int n == Qnat n.
Proof. intros n H. apply of_int_eq. unfold small in H. lia. Qed.

Lemma eps_two : epsilon == two (-52).
Proof. reflexivity. Qed.

(** Adding epsilon to a count of two or more has no effect. *)
Lemma add_epsilon : forall k, (2 <= Z.of_nat k < 2 ^ 52)%Z -> fadd (Qnat k) epsilon == Qnat k.
Proof.
  intros k [Lo Hi]. unfold fadd. set (x := Qnat k + epsilon). set (K := Z.of_nat k) in *.
  assert (L := Z.log2_spec K ltac:(lia)). set (m := Z.log2 K) in *.
  assert (Hm1 : (1 <= m)%Z). { unfold m. change 1%Z with (Z.log2 2). apply Z.log2_le_mono. lia. }
  assert (Hm2 : (m < 52)%Z). { unfold m. apply Z.log2_lt_pow2; lia. }
  assert (Kq : Qnat k = inject_Z K) by reflexivity.
  assert (E0 : 0 < epsilon) by reflexivity. assert (E1 : epsilon < 1) by reflexivity.
  assert (Px : 0 < x). { unfold x. assert (N := Qnat_nonneg k). lra. }
  assert (Nz : ~ x == 0) by lra.
  assert (M : magnitude x = m).
  { apply magnitude_unique; rewrite Qabs_pos by lra; unfold x; rewrite Kq.
    - rewrite two_int by lia. assert (inject_Z (2 ^ m) <= inject_Z K) by (rewrite <- Zle_Qle; lia). lra.
    - rewrite two_int by lia. assert (inject_Z (K + 1) <= inject_Z (2 ^ (m + 1))) by (rewrite <- Zle_Qle; unfold Z.succ in L; lia). rewrite inject_Z_plus in H. change (inject_Z 1) with 1 in H. lra. }
  assert (S : spacing_exponent x = (m - 52)%Z) by (unfold spacing_exponent; rewrite M; lia).
  rewrite (round_nonzero x Nz), S. set (P := (K * 2 ^ (52 - m))%Z).
  assert (X : x * two (- (m - 52)) == inject_Z P + two (- m)).
  { unfold x, P. rewrite Kq, inject_Z_mult, <- two_int by lia. rewrite eps_two. setoid_replace (two (- m)) with (two (-52) * two (52 - m)) by (rewrite <- two_plus; replace (-52 + (52 - m))%Z with (- m)%Z by lia; reflexivity).
    replace (- (m - 52))%Z with (52 - m)%Z by lia. ring. }
  assert (Tm : two (- m) <= 1 # 2). { change (1 # 2) with (two (-1)). apply two_le. lia. } assert (Tp := two_pos (- m)).
  assert (F : Qfloor (x * two (- (m - 52))) = P).
  { assert (A := Qfloor_le (x * two (- (m - 52)))). assert (B := Qlt_floor (x * two (- (m - 52)))).
    set (f := Qfloor (x * two (- (m - 52)))) in *. rewrite X in A, B.
    assert (inject_Z f < inject_Z (P + 1)) by (rewrite inject_Z_plus; change (inject_Z 1) with 1; lra).
    assert (inject_Z P < inject_Z (f + 1)) by lra. rewrite <- Zlt_Qlt in *. lia. }
  assert (Nv : nearest_even (x * two (- (m - 52))) = P).
  { unfold nearest_even. rewrite F.
    destruct (Qltb (x * two (- (m - 52)) - inject_Z P) (1 # 2)) eqn:C1; [reflexivity|]. apply Qltb_ge in C1.
    destruct (Qltb (1 # 2) (x * two (- (m - 52)) - inject_Z P)) eqn:C2; [apply Qltb_lt in C2; rewrite X in C2; lra|].
    assert (Ev : Z.even P = true); [|rewrite Ev; reflexivity].
    unfold P. rewrite Z.even_mul, orb_true_iff. right. rewrite Z.even_pow by lia. reflexivity. }
  rewrite Nv. unfold P. rewrite inject_Z_mult, <- two_int by lia. rewrite <- Qmult_assoc, <- two_plus. replace (52 - m + (m - 52))%Z with 0%Z by lia. rewrite Kq. change (two 0) with 1. ring.
Qed.

(** * Suffix maxima of two nearby lists *)
Lemma env_near : forall p q d, List.length p = List.length q -> 0 <= d ->
  (forall j, (j < List.length p)%nat -> Qabs (get j p - get j q) <= d) ->
  forall j, (j < List.length p)%nat -> Qabs (get j (env p) - get j (env q)) <= d.
Proof.
  intros p q d L D H j Hj.
  destruct (env_is_max p j Hj) as [(a & A1 & A2 & A3) A4]. destruct (env_is_max q j ltac:(lia)) as [(b & B1 & B2 & B3) B4].
  assert (Ha := H a A1). assert (Hb := H b ltac:(lia)). assert (C1 := A4 b ltac:(lia) B2). assert (C2 := B4 a ltac:(lia) A2).
  cbv beta in *. apply Qabs_Qle_condition in Ha. apply Qabs_Qle_condition in Hb. apply Qabs_Qle_condition. lra.
Qed.
Lemma env_bounds : forall p lo hi, (forall j, (j < List.length p)%nat -> lo <= get j p <= hi) ->
  forall j, (j < List.length p)%nat -> lo <= get j (env p) <= hi.
Proof.
  intros p lo hi H j Hj. destruct (env_is_max p j Hj) as [(a & A1 & A2 & A3) _]. rewrite A3. apply H, A1.
Qed.
Lemma env_double : forall p, (forall j, (j < List.length p)%nat -> double (get j p)) -> forall j, (j < List.length p)%nat -> double (get j (env p)).
Proof.
  intros p H j Hj. destruct (env_is_max p j Hj) as [(a & A1 & A2 & A3) _]. eapply double_wd; [symmetry; exact A3|]. apply H, A1.
Qed.

Lemma f_auc_loop_eq : forall l suf r ap, suf <> [] ->
  fst (f_auc_loop (List.length l) (l ++ env suf) r ap) = env (l ++ suf).
Proof.
  induction l as [|y l IH] using rev_ind; intros suf r ap Hne; [reflexivity|].
  rewrite app_length; simpl. rewrite Nat.add_1_r. cbn [f_auc_loop]. rewrite <- app_assoc; cbn [app]. rewrite interp_step_env by exact Hne.
  cbv zeta. rewrite IH by discriminate. rewrite <- app_assoc. reflexivity.
Qed.
(** The sum the loop accumulates, from the final precision. *)
Fixpoint f_incr (i : nat) (e r : list Q) (ap : Q) : Q :=
  match i with
  | O => ap
  | S j => f_incr j e r (fadd ap (fmul (get i e) (fsub (get i r) (get j r))))
  end.
Lemma f_auc_loop_sum : forall l suf r ap, suf <> [] ->
  snd (f_auc_loop (List.length l) (l ++ env suf) r ap) = f_incr (List.length l) (env (l ++ suf)) r ap.
Proof.
  induction l as [|y l IH] using rev_ind; intros suf r ap Hne; [reflexivity|].
  rewrite app_length; simpl. rewrite Nat.add_1_r. cbn [f_auc_loop f_incr]. rewrite <- app_assoc; cbn [app]. rewrite interp_step_env by exact Hne.
  cbv zeta. rewrite Nat.sub_succ, Nat.sub_0_r. rewrite IH by discriminate. rewrite <- app_assoc. cbn [app].
  destruct (env_app l (y :: suf)) as (l' & El & Hl). rewrite El.
  replace (get (S (List.length l)) (l ++ env (y :: suf))) with (get (S (List.length l)) (l' ++ env (y :: suf))); [reflexivity|].
  replace (S (List.length l)) with (List.length l + 1)%nat by lia. rewrite get_app2. rewrite <- Hl. rewrite get_app2. reflexivity.
Qed.

(** * Arithmetic of errors *)
Definition u := two (-53).
Definition tiny := two (-1075).
Lemma u_pos : 0 < u.
Proof. apply two_pos. Qed.
Lemma u_small : u * 281474976710656 <= 1 # 32 /\ u <= 1 # 1000000.
Proof. split; vm_compute; discriminate. Qed.
Lemma tiny_pos : 0 < tiny.
Proof. apply two_pos. Qed.
Lemma tiny_small : 100 * tiny <= u.
Proof. apply Qle_trans with (two 7 * tiny); [assert (P := tiny_pos); change (two 7) with 128; lra|]. unfold tiny, u. rewrite <- two_plus. apply two_le. lia. Qed.
Lemma error : forall x b, Qabs x <= b -> Qabs (round x - x) <= u * b + tiny.
Proof.
  intros x b H. assert (E := round_error x). fold u tiny in E. assert (P := u_pos).
  assert (u * Qabs x <= u * b) by (rewrite (Qmult_le_l _ _ _ P); exact H). lra.
Qed.
Lemma prod_le : forall a b x y, Qabs a <= x -> Qabs b <= y -> Qabs (a * b) <= x * y.
Proof.
  intros a b x y H1 H2. rewrite Qabs_Qmult. assert (A := Qabs_nonneg a). assert (B := Qabs_nonneg b).
  apply Qle_trans with (Qabs a * y); [|apply Qmult_le_compat_r; [exact H1|lra]].
  rewrite !(Qmult_comm (Qabs a)). apply Qmult_le_compat_r; assumption.
Qed.
Lemma in01 : forall x, 0 <= x <= 1 -> Qabs x <= 1.
Proof. intros x H. apply Qabs_Qle_condition. lra. Qed.
Lemma round_01 : forall x, 0 <= x <= 1 -> 0 <= round x <= 1.
Proof. intros x [H1 H2]. split; [apply round_nonneg, H1|]. apply round_le in H2. rewrite round_1 in H2. exact H2. Qed.
Lemma prod_01 : forall x y, 0 <= x <= 1 -> 0 <= y <= 1 -> 0 <= x * y <= 1.
Proof. intros x y H1 H2. split; [apply Qmult_le_0_compat; lra|]. setoid_replace 1 with (1 * 1) by ring. apply Qmult_le_compat_nonneg; lra. Qed.

(** One term of the sum: p and e are near, r and r' near c and c + h. *)
Lemma term_error : forall p e r r' c h, 0 <= p <= 1 -> 0 <= e <= 1 -> Qabs (p - e) <= 2 * u ->
  0 <= r' -> r' <= r -> r <= 1 -> Qabs (r - (c + h)) <= u + tiny -> Qabs (r' - c) <= u + tiny ->
  Qabs (fmul p (fsub r r') - e * h) <= 8 * u.
Proof.
  intros p e r r' c h Hp He Hpe H0 H1 H2 Hr Hr'. assert (U := u_pos). assert (T := tiny_pos). assert (TS := tiny_small).
  assert (X : 0 <= r - r' <= 1) by lra. assert (D := round_01 _ X). assert (Ed := error (r - r') 1 (in01 _ X)).
  unfold fsub in *. set (d := round (r - r')) in *.
  assert (Dh : Qabs (d - h) <= 4 * u).
  { apply Qabs_Qle_condition in Hr. apply Qabs_Qle_condition in Hr'. apply Qabs_Qle_condition in Ed. apply Qabs_Qle_condition. lra. }
  assert (PD := prod_01 _ _ Hp D). assert (Et := error (p * d) 1 (in01 _ PD)). unfold fmul.
  assert (A := prod_le (p - e) d (2 * u) 1 Hpe (in01 _ D)). assert (B := prod_le e (d - h) 1 (4 * u) (in01 _ He) Dh).
  apply Qabs_Qle_condition in Et. apply Qabs_Qle_condition in A. apply Qabs_Qle_condition in B. apply Qabs_Qle_condition.
  setoid_replace ((p - e) * d) with (p * d - e * d) in A by ring. setoid_replace (e * (d - h)) with (e * d - e * h) in B by ring. lra.
Qed.
Lemma sum_error : forall s A t x k, Qabs (s - A) <= 12 * u * k -> Qabs (t - x) <= 8 * u ->
  0 <= s -> 0 <= t <= 1 -> A <= 1 -> 0 <= k -> k <= 281474976710656 ->
  Qabs (fadd s t - (A + x)) <= 12 * u * (k + 1) /\ 0 <= fadd s t.
Proof.
  intros s A t x k Hs Ht H0 H1 HA K0 K1. assert (U := u_pos). assert (T := tiny_pos). assert (TS := tiny_small). destruct u_small as [US _].
  split; [|apply round_nonneg; lra].
  assert (Uk : u * k <= 1 # 32). { apply Qle_trans with (u * 281474976710656); [rewrite (Qmult_le_l _ _ _ U); exact K1|exact US]. }
  apply Qabs_Qle_condition in Hs. assert (B : Qabs (s + t) <= 5 # 2) by (apply Qabs_Qle_condition; lra).
  assert (E := error _ _ B). unfold fadd. apply Qabs_Qle_condition in E. apply Qabs_Qle_condition in Ht. apply Qabs_Qle_condition. lra.
Qed.
