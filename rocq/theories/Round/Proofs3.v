(** The exact average precision, means, and comparisons with thresholds. *)
From Coq Require Import List Bool QArith Qround Qabs ZArith Lia Lqa Arith Permutation.
From Verif.Base Require Import Py.
From Verif.Assoc Require Import Model.
From Verif.AP Require Import Model Spec Proofs.
From Verif.Round Require Import Model Spec Rounding Proofs Proofs2.
Import ListNotations.
Local Open Scope Q_scope.

Lemma exact_ap_tp_sum : forall ranked n_gt e, (0 < n_gt)%nat ->
  List.length e = List.length ranked ->
  (forall i, (i < List.length ranked)%nat ->
     is_max (List.length ranked) (fun j => (i <= j)%nat) (exact_precision ranked) (get i e)) ->
  exact_ap ranked n_gt (tp_sum n_gt ranked e).
Proof.
  intros ranked n_gt e Hn He Hmax.
  set (pos := fun k => match find (fun i => andb (nth i ranked false) (Nat.eqb (correct_upto (S i) ranked) k))
                               (seq 0 (List.length ranked)) with Some i => i | None => 0%nat end).
  assert (Hpos : forall i, (i < List.length ranked)%nat -> nth i ranked false = true ->
            pos (correct_upto (S i) ranked) = i).
  { intros i Hi Hb. unfold pos.
    destruct (find _ (seq 0 (List.length ranked))) as [i'|] eqn:E.
    - apply find_some in E as (Hin & E). apply in_seq in Hin. apply andb_true_iff in E as (Hb' & E).
      apply Nat.eqb_eq in E.
      assert (H1 := proj1 (level_positions ranked i _ i' Hi Hb eq_refl ltac:(lia))).
      assert (H2 := proj1 (level_positions ranked i' _ i ltac:(lia) Hb' eq_refl Hi)). lia.
    - exfalso. assert (Hf := find_none _ _ E i ltac:(apply in_seq; lia)). cbv beta in Hf.
      rewrite Hb, Nat.eqb_refl in Hf. discriminate. }
  exists (fun k => get (pos k) e). split.
  - intros k Hk. destruct (level_exists ranked k Hk) as (i & Hi & Hb & Ek).
    rewrite <- Ek, Hpos by assumption.
    eapply is_max_ext; [| |apply Hmax; exact Hi]; [|intros; reflexivity].
    intros j Hj. symmetry. rewrite Ek. apply level_positions; auto.
  - apply tp_sum_levels; auto. intros i Hi Hb. rewrite Hpos by assumption. reflexivity.
Qed.

(** * Means *)
Lemma f_sum_range : forall t l, (forall i, In i (entries t) -> 0 <= get i l <= 1) -> (Z.of_nat (List.length (entries t)) <= 2 ^ 53)%Z ->
  0 <= f_sum t l <= Qnat (List.length (entries t)).
Proof.
  induction t as [i|a IHa b IHb]; intros l H S; cbn [f_sum entries] in *.
  - assert (X := H i (or_introl eq_refl)). change (Qnat (List.length [i])) with 1. exact X.
  - rewrite app_length in *. destruct (IHa l) as [A1 A2]; [intros; apply H, in_or_app; left; assumption|lia|].
    destruct (IHb l) as [B1 B2]; [intros; apply H, in_or_app; right; assumption|lia|].
    split; [apply round_nonneg; lra|]. unfold fadd. rewrite <- (round_fixed (Qnat _)) by (apply double_int; lia). apply round_le. rewrite Qnat_plus. lra.
Qed.
Definition tree_sum (t : sum_tree) (l : list Q) : Q := Qsum (map (fun i => get i l) (entries t)).
Lemma f_sum_error : forall t l K, (forall i, In i (entries t) -> 0 <= get i l <= 1) -> (List.length (entries t) <= K)%nat -> (Z.of_nat K <= 2 ^ 53)%Z ->
  Qabs (f_sum t l - tree_sum t l) <= (Qnat (List.length (entries t)) - 1) * (u * Qnat K + tiny).
Proof.
  assert (U := u_pos). assert (T := tiny_pos).
  induction t as [i|a IHa b IHb]; intros l K H S S2; unfold tree_sum in *; cbn [f_sum entries] in *.
  - cbn [map Qsum fold_right List.length]. setoid_replace (get i l - (get i l + 0)) with 0 by ring. change (Qabs 0) with 0. change (Qnat 1) with 1. lra.
  - rewrite app_length in *. rewrite map_app, Qsum_app, Qnat_plus.
    assert (Ha : forall i, In i (entries a) -> 0 <= get i l <= 1) by (intros; apply H, in_or_app; left; assumption).
    assert (Hb : forall i, In i (entries b) -> 0 <= get i l <= 1) by (intros; apply H, in_or_app; right; assumption).
    assert (Ea := IHa l K Ha ltac:(lia) S2). assert (Eb := IHb l K Hb ltac:(lia) S2).
    assert (Ra := f_sum_range a l Ha ltac:(lia)). assert (Rb := f_sum_range b l Hb ltac:(lia)).
    assert (KK : Qnat (List.length (entries a)) + Qnat (List.length (entries b)) <= Qnat K) by (rewrite <- Qnat_plus; apply Qnat_le; lia).
    assert (B : Qabs (f_sum a l + f_sum b l) <= Qnat K) by (apply Qabs_Qle_condition; lra).
    assert (E := error _ _ B). unfold fadd. set (c := u * Qnat K + tiny) in *.
    apply Qabs_Qle_condition in Ea. apply Qabs_Qle_condition in Eb. apply Qabs_Qle_condition in E. apply Qabs_Qle_condition.
    setoid_replace ((Qnat (List.length (entries a)) + Qnat (List.length (entries b)) - 1) * c) with ((Qnat (List.length (entries a)) - 1) * c + (Qnat (List.length (entries b)) - 1) * c + c) by ring. lra.
Qed.
Lemma Qsum_perm : forall l m, Permutation l m -> Qsum l == Qsum m.
Proof. induction 1; simpl; try lra. Qed.
Lemma tree_sum_all : forall t l, Permutation (entries t) (seq 0 (List.length l)) -> tree_sum t l == Qsum l.
Proof.
  intros t l H. unfold tree_sum. rewrite (Qsum_perm _ _ (Permutation_map (fun i => get i l) H)). unfold get. rewrite map_nth_seq. reflexivity.
Qed.
Lemma entries_ne : forall t, (0 < List.length (entries t))%nat.
Proof. induction t; simpl; [lia|]. rewrite app_length. lia. Qed.
Lemma f_mean_ok : forall t l, (forall x, In x l -> 0 <= x <= 1) -> Permutation (entries t) (seq 0 (List.length l)) -> (Z.of_nat (List.length l) <= 2 ^ 53)%Z ->
  double (f_mean t l) /\ 0 <= f_mean t l <= 1 /\ Qabs (f_mean t l - Qsum l / Qnat (List.length l)) <= Qnat (List.length l) * two (-52).
Proof.
  intros t l H P S. assert (Ln : List.length (entries t) = List.length l) by (rewrite (Permutation_length P), seq_length; reflexivity).
  assert (Hi : forall i, In i (entries t) -> 0 <= get i l <= 1). { intros i I. apply H. unfold get. apply nth_In. apply (Permutation_in _ P) in I. apply in_seq in I. lia. }
  assert (R := f_sum_range t l Hi ltac:(lia)). assert (E := f_sum_error t l (List.length l) Hi ltac:(lia) S). rewrite (tree_sum_all t l P) in E. rewrite Ln in *.
  assert (Np := entries_ne t). rewrite Ln in Np. assert (Nq := Qnat_pos _ Np). assert (N1 : 1 <= Qnat (List.length l)) by (change 1 with (Qnat 1); apply Qnat_le; lia).
  unfold f_mean. set (n := Qnat (List.length l)) in *. split; [apply round_double|].
  assert (Ef : fdiv (f_sum t l) (of_int (List.length l)) == round (f_sum t l / n)) by (unfold fdiv; apply round_wd; rewrite (of_int_eq _ S); reflexivity).
  rewrite Ef. assert (X : 0 <= f_sum t l / n <= 1) by (split; [apply Qdiv_nonneg; lra|apply Qdiv_le_1; lra]).
  split; [apply round_01, X|]. assert (Er := error _ 1 (in01 _ X)). assert (U := u_pos). assert (T := tiny_pos). assert (TS := tiny_small).
  assert (Dv : Qabs (f_sum t l / n - Qsum l / n) <= (n - 1) * (u + tiny)).
  { setoid_replace (f_sum t l / n - Qsum l / n) with ((f_sum t l - Qsum l) * / n) by (unfold Qdiv; ring). rewrite Qabs_Qmult.
    assert (I : 0 < / n) by (apply Qinv_lt_0_compat; exact Nq). rewrite (Qabs_pos (/ n)) by lra.
    apply Qle_trans with ((n - 1) * (u * n + tiny) * / n); [rewrite (Qmult_le_r _ _ _ I); exact E|].
    setoid_replace ((n - 1) * (u * n + tiny) * / n) with ((n - 1) * (u + tiny * / n)) by (field; lra).
    rewrite !(Qmult_comm (n - 1)). apply Qmult_le_compat_r; [|lra]. assert (In1 : / n <= 1). { setoid_replace (/ n) with (1 / n) by (unfold Qdiv; ring). apply Qdiv_le_1; lra. }
    assert (tiny * / n <= tiny * 1) by (rewrite (Qmult_le_l _ _ _ T); exact In1). lra. }
  assert (E52 : two (-52) == 2 * u) by (unfold u; rewrite <- two_succ; reflexivity). rewrite E52.
  apply Qabs_Qle_condition in Dv. apply Qabs_Qle_condition in Er. apply Qabs_Qle_condition.
  assert (Hb : (n - 1) * (u + tiny) + (u + tiny) <= n * (2 * u)). { setoid_replace ((n - 1) * (u + tiny) + (u + tiny)) with (n * (u + tiny)) by ring. rewrite (Qmult_le_l _ _ _ Nq). lra. }
  rewrite Qmult_1_r in Er. lra.
Qed.

(** * A quotient of counts against a threshold near m/d *)
Lemma cut : forall thr m d a b, (0 < d <= 20)%nat -> (0 < b)%nat -> (Z.of_nat b <= 2 ^ 46)%Z -> (a <= b)%nat ->
  Qabs (thr - Qnat m / Qnat d) <= 2 * u ->
  ((d * a < m * b)%nat -> f_ratio a b < thr) /\
  ((m * b < d * a)%nat -> thr < f_ratio a b) /\
  ((m * b = d * a)%nat -> f_ratio a b == round (Qnat m / Qnat d)).
Proof.
  intros thr m d a b Hd Hb Sb Hab Ht.
  assert (Ef : f_ratio a b == round (Qnat a / Qnat b)) by (unfold f_ratio, fdiv; apply round_wd; rewrite !of_int_eq by lia; reflexivity).
  assert (X := ratio_01 a b Hab Hb). assert (Er := error _ 1 (in01 _ X)). assert (U := u_pos). assert (T := tiny_pos). assert (TS := tiny_small).
  assert (Pd := Qnat_pos d ltac:(lia)). assert (Pb := Qnat_pos b Hb).
  assert (G : 4 * u <= 1 / (Qnat d * Qnat b)).
  { apply Qle_shift_div_l; [apply Qmult_lt_0_compat; assumption|].
    assert (D1 : Qnat d * Qnat b <= 32 * two 46).
    { apply Qmult_le_compat_nonneg; split; try lra; [change 32 with (Qnat 32); apply Qnat_le; lia|]. change (two 46) with (inject_Z (2 ^ 46)). unfold Qnat. rewrite <- Zle_Qle. exact Sb. }
    apply Qle_trans with (4 * u * (32 * two 46)); [assert (P4 : 0 < 4 * u) by lra; rewrite (Qmult_le_l _ _ _ P4); exact D1|]. vm_compute; discriminate. }
  assert (Df : Qnat a / Qnat b - Qnat m / Qnat d == (Qnat d * Qnat a - Qnat m * Qnat b) * (1 / (Qnat d * Qnat b))) by (field; lra).
  assert (Mul : forall p q, Qnat (p * q) == Qnat p * Qnat q) by (intros; unfold Qnat; rewrite Nat2Z.inj_mul, inject_Z_mult; reflexivity).
  assert (Pg : 0 < 1 / (Qnat d * Qnat b)) by lra.
  apply Qabs_Qle_condition in Ht. apply Qabs_Qle_condition in Er. rewrite Ef. split; [|split]; intro C.
  - assert (L : Qnat d * Qnat a - Qnat m * Qnat b <= - (1)). { assert (Qnat (d * a + 1) <= Qnat (m * b)) by (apply Qnat_le; lia). rewrite Qnat_plus, !Mul in H. change (Qnat 1) with 1 in H. lra. }
    assert ((Qnat d * Qnat a - Qnat m * Qnat b) * (1 / (Qnat d * Qnat b)) <= - (1) * (1 / (Qnat d * Qnat b))) by (rewrite (Qmult_le_r _ _ _ Pg); exact L). lra.
  - assert (L : 1 <= Qnat d * Qnat a - Qnat m * Qnat b). { assert (Qnat (m * b + 1) <= Qnat (d * a)) by (apply Qnat_le; lia). rewrite Qnat_plus, !Mul in H. change (Qnat 1) with 1 in H. lra. }
    assert (1 * (1 / (Qnat d * Qnat b)) <= (Qnat d * Qnat a - Qnat m * Qnat b) * (1 / (Qnat d * Qnat b))) by (rewrite (Qmult_le_r _ _ _ Pg); exact L). lra.
  - apply round_wd. assert (Z : Qnat d * Qnat a - Qnat m * Qnat b == 0). { rewrite <- !Mul, C. ring. } rewrite Z in Df. lra.
Qed.
