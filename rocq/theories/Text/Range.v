(** Which doubles 15 digits make infinite. *)
From Coq Require Import List Bool ZArith QArith Qpower Qabs Ascii String Lia Lqa.
From Verif.Round Require Import Model Spec Rounding.
From Verif.Json Require Import Spec.
From Verif.Json Require Import Model Numbers Printing.
From Verif.Text Require Import Model Spec Digits Decimals.
Local Open Scope Q_scope.

Definition low : Q := inject_Z 179769313486231 * ten 294.
Definition high : Q := inject_Z 179769313486232 * ten 294.
Lemma low_digits : digits15 low.
Proof. exists 179769313486231%Z, 294%Z. split; [lia|reflexivity]. Qed.
Lemma high_digits : digits15 high.
Proof. exists 179769313486232%Z, 294%Z. split; [lia|reflexivity]. Qed.
Lemma nothing_between : forall x, digits15 x -> low < x -> high <= x.
Proof.
  intros x (n & e & N & E) L. fold (ten e) in E. destruct (Z_le_gt_dec 294 e) as [G|G].
  - assert (X : x == inject_Z (n * 10 ^ (e - 294)) * ten 294).
    { rewrite E, inject_Z_mult, <- ten_int by lia. rewrite <- Qmult_assoc, <- ten_plus. replace (e - 294 + 294)%Z with e by lia. reflexivity. }
    assert (P := ten_pos 294). rewrite X in L |- *. unfold low in L. unfold high. rewrite Qmult_lt_r, <- Zlt_Qlt in L by exact P. rewrite Qmult_le_r, <- Zle_Qle by exact P. lia.
  - exfalso. assert (P := ten_pos e). assert (A : x <= inject_Z (10 ^ 15) * ten e) by (rewrite E, Qmult_le_r, <- Zle_Qle by exact P; lia).
    assert (B : inject_Z (10 ^ 15) * ten e <= ten 308). { rewrite <- ten_int, <- ten_plus by lia. replace 308%Z with (15 + e + (293 - e))%Z by lia. rewrite (ten_plus (15 + e)). assert (O : 1 <= ten (293 - e)). { rewrite ten_int by lia. change 1 with (inject_Z 1). rewrite <- Zle_Qle. assert (0 < 10 ^ (293 - e))%Z by (apply Z.pow_pos_nonneg; lia). lia. }
      assert (P2 := ten_pos (15 + e)). rewrite <- (Qmult_1_r (ten (15 + e))) at 1. rewrite Qmult_le_l by exact P2. exact O. }
    assert (C : ten 308 < low) by (apply Qlt_alt; vm_compute; reflexivity). lra.
Qed.
Definition half : Q := (low + high) * (1 # 2).
Lemma d15_low : forall q, Qabs q < half -> Qabs (d15 q) <= low.
Proof.
  assert (LH : low < high) by (apply Qlt_alt; vm_compute; reflexivity). assert (L0 : 0 < low) by (apply Qlt_alt; vm_compute; reflexivity).
  assert (P : forall q d, rounds15 q d -> Qabs q < half -> d <= low).
  { intros q d (D & N & _) H. destruct (Qlt_le_dec low d) as [L|L]; [|exact L]. exfalso. assert (B := nothing_between d D L). specialize (N low low_digits). unfold half in H.
    assert (Q := Qle_Qabs q). rewrite (Qabs_neg (q - d)) in N by lra. destruct (Qlt_le_dec q low) as [X|X]; [rewrite Qabs_neg in N by lra; lra|rewrite Qabs_pos in N by lra; lra]. }
  intros q H. assert (R := d15_ok q). apply Qabs_Qle_condition. split; [|apply (P q _ R H)].
  assert (R' := rounds15_opp _ _ R). apply P in R'; [lra|]. rewrite Qabs_opp. exact H.
Qed.
Lemma d15_high : forall q, half <= q -> high <= d15 q.
Proof.
  assert (LH : low < high) by (apply Qlt_alt; vm_compute; reflexivity).
  intros q H. destruct (d15_ok q) as (D & N & T). set (d := d15 q) in *. destruct (Qlt_le_dec low d) as [L|L]; [apply nothing_between; assumption|]. exfalso.
  assert (N1 := N high high_digits). unfold half in H. rewrite (Qabs_pos (q - d)) in N1 by lra.
  assert (E : d == low /\ q == (low + high) * (1 # 2)).
  { destruct (Qlt_le_dec q high) as [X|X]; [rewrite Qabs_neg in N1 by lra|rewrite Qabs_pos in N1 by lra]; split; lra. }
  destruct E as [E1 E2]. destruct (T high high_digits) as [m M].
  - intros X. rewrite E1 in X. lra.
  - rewrite E1, E2, (Qabs_neg ((low + high) * (1 # 2) - high)), (Qabs_pos ((low + high) * (1 # 2) - low)) by lra. lra.
  - rewrite (Qabs_pos (high - d)) in M by lra. rewrite E1 in M.
    assert (G : high - low == 1 * ten 294). { unfold high, low. change 1 with (inject_Z (179769313486232 - 179769313486231)). unfold Zminus. rewrite inject_Z_plus, inject_Z_opp. ring. }
    rewrite G in M. unfold low in M. rewrite Qmult_1_l in M. assert (P := ten_pos 294). apply Qmult_inj_r in M; [|lra]. rewrite inject_Z_injective in M. lia.
Qed.
Theorem range15 : forall q, Qabs (f15 q) < 2 ^ 1024 <-> Qabs q < half.
Proof.
  assert (A : round low < 2 ^ 1024) by (apply Qlt_alt; vm_compute; reflexivity).
  assert (B : 2 ^ 1024 <= round high) by (apply Qle_bool_iff; vm_compute; reflexivity).
  assert (OP : forall x, round (- x) == - round x).
  { intros x. apply (rounds_unique (- x) (- x)); [reflexivity|apply round_ok|]. destruct (round_ok x) as (D & N & T). split; [apply double_opp, D|]. split.
    - intros z Z. specialize (N (- z) (double_opp _ Z)). setoid_replace (- x - - round x) with (- (x - round x)) by ring. setoid_replace (- x - z) with (- (x - - z)) by ring. rewrite !Qabs_opp. exact N.
    - intros z Z ZN ZE. destruct (T (- z) (double_opp _ Z)) as [m M].
      + intros C. apply ZN. rewrite <- C. ring.
      + setoid_replace (- x - z) with (- (x - - z)) in ZE by ring. setoid_replace (- x - - round x) with (- (x - round x)) in ZE by ring. rewrite !Qabs_opp in ZE. exact ZE.
      + exists (- m)%Z. rewrite M at 1. replace (2 * - m)%Z with (- (2 * m))%Z by lia. rewrite inject_Z_opp. setoid_replace (z - - round x) with (- (- z - round x)) by ring. rewrite Qabs_opp. ring. }
  intros q. unfold f15. split.
  - intros H. apply Qnot_le_lt. intros X. apply (Qlt_not_le _ _ H).
    destruct (Qlt_le_dec q 0) as [S|S].
    + rewrite Qabs_neg in X by lra. apply d15_high in X. assert (E : d15 (- q) == - d15 q) by (apply (rounds15_unique (- q) (- q)); [reflexivity|apply d15_ok|apply rounds15_opp, d15_ok]).
      rewrite E in X. apply round_le in X. rewrite OP in X. assert (Y := Qle_Qabs (- round (d15 q))). rewrite Qabs_opp in Y. lra.
    + rewrite Qabs_pos in X by lra. apply d15_high in X. apply round_le in X. assert (Y := Qle_Qabs (round (d15 q))). lra.
  - intros H. apply d15_low in H. apply Qabs_Qle_condition in H. destruct H as [H1 H2]. apply round_le in H1, H2. rewrite OP in H1. apply Qle_lt_trans with (round low); [|exact A]. apply Qabs_Qle_condition. split; assumption.
Qed.
