(** The curve and the area, from the sorted verdicts. *)
From Coq Require Import List Bool QArith Qround Qabs ZArith Lia Lqa Arith.
From Verif.Base Require Import Py.
From Verif.Assoc Require Import Model.
From Verif.AP Require Import Model Spec Proofs.
From Verif.Round Require Import Model Spec Rounding Proofs.
Import ListNotations.
Local Open Scope Q_scope.

Lemma ratio_01 : forall a b, (a <= b)%nat -> (0 < b)%nat -> 0 <= Qnat a / Qnat b <= 1.
Proof. intros a b H P. split; [apply Qdiv_nonneg; [apply Qnat_nonneg|apply Qnat_pos, P]|apply Qdiv_le_1; [apply Qnat_pos, P|apply Qnat_le, H]]. Qed.

Lemma small_le : forall a b, (a <= b)%nat -> small b -> small a.
Proof. unfold small. intros. lia. Qed.
Lemma small_Q : forall n, small n -> Qnat n <= 281474976710656.
Proof. intros n H. unfold Qnat. change 281474976710656 with (inject_Z (2 ^ 48)). rewrite <- Zle_Qle. exact H. Qed.

Section Curve.
  Variable sorted : list Z.
  Variable n_gt : nat.
  Hypothesis n_pos : (0 < n_gt)%nat.
  Let ranked := map verdict sorted.
  Let N := List.length ranked.
  Hypothesis N_small : small N.
  Hypothesis n_small : small n_gt.
  Let p := fst (f_basic_pr sorted n_gt).
  Let r := snd (f_basic_pr sorted n_gt).

  Lemma f_prec_length : List.length p = N.
  Proof.
    unfold p, f_basic_pr; simpl. rewrite map2_length; unfold cumsum; rewrite !cumsum_from_length, !map_length;
    unfold N, ranked; rewrite ?map_length; reflexivity.
  Qed.
  Lemma f_rec_length : List.length r = N.
  Proof.
    unfold r, f_basic_pr; simpl. rewrite map_length; unfold cumsum; rewrite cumsum_from_length, map_length.
    unfold N, ranked; rewrite map_length; reflexivity.
  Qed.
  Lemma f_prec_get : forall j, (j < N)%nat ->
    get j p = fdiv (of_int (correct_upto (S j) ranked)) (fadd (of_int (S j)) epsilon).
  Proof.
    intros j Hj. unfold p, f_basic_pr, get; cbn [fst].
    assert (HN : N = List.length sorted) by (unfold N, ranked; apply map_length).
    rewrite (map2_nth _ _ _ _ _ _ j 0%nat 0%nat);
      [|unfold cumsum; rewrite !cumsum_from_length, !map_length; reflexivity
       |unfold cumsum; rewrite cumsum_from_length, map_length; lia].
    unfold cumsum. rewrite !cumsum_from_nth by (rewrite map_length; lia). cbn [Nat.add].
    replace (map (fun m : Z => Z.eqb m 0) sorted) with (map negb ranked).
    2:{ unfold ranked. rewrite map_map. apply map_ext. intro m. unfold verdict. apply negb_involutive. }
    change (map (fun m : Z => negb (Z.eqb m 0)) sorted) with ranked.
    rewrite (correct_upto_fp ranked (S j) ltac:(unfold N in Hj; lia)). reflexivity.
  Qed.
  Lemma f_rec_get : forall j, (j < N)%nat -> get j r = fdiv (of_int (correct_upto (S j) ranked)) (of_int n_gt).
  Proof.
    intros j Hj. unfold r, f_basic_pr, get; cbn [snd].
    assert (HN : N = List.length sorted) by (unfold N, ranked; apply map_length).
    rewrite (nth_indep _ _ ((fun tp => fdiv (of_int tp) (of_int n_gt)) 0%nat))
      by (rewrite map_length; unfold cumsum; rewrite cumsum_from_length, map_length; lia).
    rewrite (map_nth (fun tp => fdiv (of_int tp) (of_int n_gt))).
    unfold cumsum. rewrite cumsum_from_nth by (rewrite map_length; lia). reflexivity.
  Qed.

  Lemma c_small : forall j, (j <= N)%nat -> small (correct_upto j ranked).
  Proof. intros j H. eapply small_le; [|exact N_small]. assert (L := correct_upto_le ranked j). lia. Qed.

  Lemma r_round : forall j, (j < N)%nat -> get j r == round (recall_at ranked n_gt j).
  Proof.
    intros j Hj. rewrite f_rec_get by exact Hj. unfold fdiv, recall_at. apply round_wd. rewrite !of_int_small; [reflexivity|exact n_small|]. apply c_small; lia.
  Qed.
  Lemma p_first : (0 < N)%nat -> get 0 p == if nth 0 ranked false then 1 - two (-52) else 0.
  Proof.
    intro H. rewrite f_prec_get by exact H. rewrite correct_upto_S by exact H. rewrite correct_upto_0. destruct (nth 0 ranked false); vm_compute; reflexivity.
  Qed.
  Lemma p_later : forall j, (0 < j < N)%nat -> get j p == round (exact_precision ranked j).
  Proof.
    intros j Hj. rewrite f_prec_get by lia. unfold fdiv, exact_precision. apply round_wd.
    rewrite (of_int_small (correct_upto (S j) ranked)) by (apply c_small; lia).
    assert (S1 : small (S j)) by (eapply small_le; [|exact N_small]; lia). unfold small in S1.
    assert (A : fadd (of_int (S j)) epsilon == Qnat (S j)).
    { transitivity (fadd (Qnat (S j)) epsilon); [unfold fadd; apply round_wd; rewrite (of_int_small (S j)) by exact S1; reflexivity|]. apply add_epsilon. lia. }
    rewrite A. reflexivity.
  Qed.
  Lemma exact_01 : forall j, (j < N)%nat -> 0 <= exact_precision ranked j <= 1.
  Proof. intros j H. apply ratio_01; [apply correct_upto_le|lia]. Qed.
  Lemma p_01 : forall j, (j < N)%nat -> 0 <= get j p <= 1.
  Proof.
    intros j H. destruct j as [|j].
    - rewrite p_first by exact H. assert (T := two_pos (-52)). assert (two (-52) <= 1) by (change 1 with (two 0); apply two_le; lia). destruct (nth 0 ranked false); lra.
    - rewrite p_later by lia. apply round_01, exact_01, H.
  Qed.
  Lemma p_double : forall j, (j < N)%nat -> double (get j p).
  Proof. intros j H. rewrite f_prec_get by exact H. apply round_double. Qed.
  Lemma p_near : forall j, (j < N)%nat -> Qabs (get j p - exact_precision ranked j) <= 2 * u.
  Proof.
    intros j H. assert (U := u_pos). destruct j as [|j].
    - rewrite p_first by exact H. unfold exact_precision. rewrite correct_upto_S by exact H. rewrite correct_upto_0. assert (E52 : two (-52) == 2 * u) by (unfold u; rewrite <- two_succ; reflexivity).
      destruct (nth 0 ranked false); [change (Qnat (0 + 1) / Qnat 1) with 1|change (Qnat (0 + 0) / Qnat 1) with 0]; apply Qabs_Qle_condition; lra.
    - rewrite p_later by lia. assert (X := exact_01 (S j) H). assert (E := error _ 1 (in01 _ X)). assert (T := tiny_small). assert (TP := tiny_pos). lra.
  Qed.
  Hypothesis correct_le : (correct_upto N ranked <= n_gt)%nat.
  Lemma c_le : forall j, (correct_upto j ranked <= n_gt)%nat.
  Proof.
    intro j. destruct (Nat.le_gt_cases j N) as [H|H].
    - eapply Nat.le_trans; [apply correct_upto_mono, H|exact correct_le].
    - rewrite correct_upto_all by (unfold N in H; lia). exact correct_le.
  Qed.
  Lemma rec_01 : forall j, 0 <= recall_at ranked n_gt j <= 1.
  Proof. intro j. apply ratio_01; [apply c_le|exact n_pos]. Qed.
  Lemma r_01 : forall j, (j < N)%nat -> 0 <= get j r <= 1.
  Proof. intros j H. rewrite r_round by exact H. apply round_01, rec_01. Qed.
  Lemma r_near : forall j, (j < N)%nat -> Qabs (get j r - recall_at ranked n_gt j) <= u + tiny.
  Proof. intros j H. rewrite r_round by exact H. assert (E := error _ 1 (in01 _ (rec_01 j))). lra. Qed.
  Lemma rec_mono : forall i j, (i <= j)%nat -> recall_at ranked n_gt i <= recall_at ranked n_gt j.
  Proof. intros i j H. apply Qdiv_le; [apply Qnat_pos, n_pos|]. apply Qnat_le, correct_upto_mono. lia. Qed.
  Lemma r_mono : forall i j, (i <= j)%nat -> (j < N)%nat -> get i r <= get j r.
  Proof. intros i j H Hj. rewrite !r_round by lia. apply round_le, rec_mono, H. Qed.

  (** Exact precision as a list, and the tail of the exact area. *)
  Let q := map (exact_precision ranked) (seq 0 N).
  Lemma q_length : List.length q = N.
  Proof. unfold q. rewrite map_length, seq_length. reflexivity. Qed.
  Lemma q_get : forall j, (j < N)%nat -> get j q = exact_precision ranked j.
  Proof.
    intros j H. unfold q, get. rewrite (nth_indep _ _ (exact_precision ranked 0)) by (rewrite map_length, seq_length; exact H).
    rewrite map_nth, seq_nth by exact H. reflexivity.
  Qed.
  Let e := env p.
  Let x := env q.
  Lemma e_near : forall j, (j < N)%nat -> Qabs (get j e - get j x) <= 2 * u.
  Proof.
    intros j H. unfold e, x. apply env_near; [rewrite f_prec_length, q_length; reflexivity|assert (U := u_pos); lra| |rewrite f_prec_length; exact H].
    intros i Hi. rewrite f_prec_length in Hi. rewrite q_get by exact Hi. apply p_near, Hi.
  Qed.
  Lemma e_01 : forall j, (j < N)%nat -> 0 <= get j e <= 1.
  Proof. intros j H. apply env_bounds; [|rewrite f_prec_length; exact H]. intros i Hi. rewrite f_prec_length in Hi. apply p_01, Hi. Qed.
  Lemma x_01 : forall j, (j < N)%nat -> 0 <= get j x <= 1.
  Proof. intros j H. apply env_bounds; [|rewrite q_length; exact H]. intros i Hi. rewrite q_length in Hi. rewrite q_get by exact Hi. apply exact_01, Hi. Qed.

  Definition tail_area (i : nat) : Q := tp_sum n_gt (skipn i ranked) (skipn i x).
  Lemma skipn_nth : forall A (l : list A) d i, (i < List.length l)%nat -> skipn i l = nth i l d :: skipn (S i) l.
  Proof.
    induction l as [|a l IH]; intros d i H; [simpl in H; lia|]. destruct i as [|i]; [reflexivity|].
    simpl in H. cbn [nth]. change (skipn (S i) (a :: l)) with (skipn i l). rewrite (IH d i) by lia. reflexivity.
  Qed.
  Lemma tail_step : forall i, (i < N)%nat -> tail_area i == tail_area (S i) + (if nth i ranked false then get i x / Qnat n_gt else 0).
  Proof.
    intros i H. unfold tail_area. rewrite (skipn_nth _ ranked false i) by exact H. rewrite (skipn_nth _ x 0 i) by (unfold x; rewrite env_length, q_length; exact H).
    cbn [tp_sum]. unfold get. ring.
  Qed.
  Lemma tail_end : tail_area N == 0.
  Proof. unfold tail_area. rewrite skipn_all2 by (unfold N; lia). reflexivity. Qed.
  (** Correct detections from position i on. *)
  Definition correct_from (i : nat) : nat := (correct_upto N ranked - correct_upto i ranked)%nat.
  Lemma from_step : forall i, (i < N)%nat -> correct_from i = (correct_from (S i) + if nth i ranked false then 1 else 0)%nat.
  Proof.
    intros i H. unfold correct_from. assert (A := correct_upto_S ranked i H). assert (B := correct_upto_mono ranked (S i) N ltac:(lia)). lia.
  Qed.
  Lemma tail_le : forall k i, (i + k = N)%nat -> 0 <= tail_area i <= Qnat (correct_from i) / Qnat n_gt.
  Proof.
    induction k as [|k IH]; intros i H.
    - replace i with N by lia. rewrite tail_end. unfold correct_from. rewrite Nat.sub_diag. change (Qnat 0 / Qnat n_gt) with (0 * / Qnat n_gt). lra.
    - assert (I := IH (S i) ltac:(lia)). rewrite tail_step by lia. rewrite from_step by lia. rewrite Qnat_plus. unfold Qdiv in *. rewrite Qmult_plus_distr_l.
      assert (P : 0 < / Qnat n_gt) by (apply Qinv_lt_0_compat, Qnat_pos, n_pos). assert (X := x_01 i ltac:(lia)).
      destruct (nth i ranked false); [|change (Qnat 0) with 0; lra]. change (Qnat 1) with 1.
      assert (get i x * / Qnat n_gt <= 1 * / Qnat n_gt) by (rewrite (Qmult_le_r _ _ _ P); lra).
      assert (0 <= get i x * / Qnat n_gt) by (apply Qmult_le_0_compat; lra). lra.
  Qed.
  Lemma tail_1 : forall i, (i <= N)%nat -> tail_area i <= 1.
  Proof.
    intros i H. destruct (tail_le (N - i) i ltac:(lia)) as [_ L]. eapply Qle_trans; [exact L|]. apply Qdiv_le_1; [apply Qnat_pos, n_pos|]. apply Qnat_le. unfold correct_from. lia.
  Qed.

  (** The recall before position i. *)
  Definition before (i : nat) : Q := match i with O => 0 | S j => get j r end.
  Lemma rec_split : forall i, (i < N)%nat ->
    recall_at ranked n_gt i == Qnat (correct_upto i ranked) / Qnat n_gt + (if nth i ranked false then 1 / Qnat n_gt else 0).
  Proof.
    intros i H. unfold recall_at. rewrite correct_upto_S by exact H. rewrite Qnat_plus. unfold Qdiv. rewrite Qmult_plus_distr_l. destruct (nth i ranked false); [reflexivity|]. change (Qnat 0) with 0. ring.
  Qed.
  Lemma before_near : forall i, (i < N)%nat -> Qabs (before i - Qnat (correct_upto i ranked) / Qnat n_gt) <= u + tiny.
  Proof.
    intros [|i] H; [|apply (r_near i); lia]. cbn [before]. rewrite correct_upto_0. change (Qnat 0 / Qnat n_gt) with (0 * / Qnat n_gt). apply Qabs_Qle_condition. assert (U := u_pos). assert (T := tiny_pos). lra.
  Qed.
  Lemma before_le : forall i, (i < N)%nat -> 0 <= before i /\ before i <= get i r.
  Proof.
    intros [|i] H; cbn [before].
    - assert (R := r_01 0 H). lra.
    - split; [apply r_01; lia|]. apply r_mono; lia.
  Qed.
  Lemma before_same : forall i, (i < N)%nat -> nth i ranked false = false -> get i r == before i.
  Proof.
    intros i H F. rewrite r_round by exact H. destruct i as [|i]; cbn [before].
    - unfold recall_at. rewrite correct_upto_S by exact H. rewrite F. change (Qnat (correct_upto 0 ranked + 0) / Qnat n_gt) with (0 * / Qnat n_gt). rewrite round_zero by ring. reflexivity.
    - rewrite r_round by lia. apply round_wd. unfold recall_at. rewrite (correct_upto_S ranked (S i)) by exact H. rewrite F, Nat.add_0_r. reflexivity.
  Qed.

  (** One iteration of the loop. *)
  Definition inv (i : nat) (ap : Q) : Prop :=
    double ap /\ 0 <= ap /\ Qabs (ap - tail_area i) <= 12 * u * Qnat (correct_from i) /\
    (correct_from i = 0%nat -> ap == 0) /\ ((0 < correct_from i)%nat -> two (-98) <= ap).
  Definition term (i : nat) : Q := fmul (get i e) (fsub (get i r) (before i)).

  Lemma gap : forall i, (i < N)%nat -> nth i ranked false = true -> two (-49) <= get i r - before i.
  Proof.
    intros i H B. assert (A := r_near i H). rewrite rec_split in A by exact H. rewrite B in A. assert (C := before_near i H).
    apply Qabs_Qle_condition in A. apply Qabs_Qle_condition in C.
    assert (L : two (-48) <= 1 / Qnat n_gt).
    { apply Qle_shift_div_l; [apply Qnat_pos, n_pos|]. assert (S := small_Q n_gt n_small). change 281474976710656 with (two 48) in S.
      apply Qle_trans with (two (-48) * two 48); [rewrite (Qmult_le_l _ _ _ (two_pos (-48))); exact S|]. rewrite <- two_plus. apply Qle_refl. }
    assert (E1 : two (-48) == 2 * two (-49)) by (rewrite <- two_succ; reflexivity).
    assert (E2 : 4 * u <= two (-49)). { change 4 with (two 2). unfold u. rewrite <- two_plus. apply two_le. lia. }
    assert (T := tiny_small). assert (TP := tiny_pos). assert (U := u_pos). lra.
  Qed.
  Lemma e_low : forall i, (i < N)%nat -> nth i ranked false = true -> two (-49) <= get i e.
  Proof.
    intros i H B. assert (Hm := env_is_max p i). rewrite f_prec_length in Hm. destruct (Hm H) as [_ M]. specialize (M i H (le_n _)). cbv beta in M. fold e in M.
    assert (P : two (-49) <= get i p); [|lra].
    assert (Cp : (1 <= correct_upto (S i) ranked)%nat) by (rewrite correct_upto_S by exact H; rewrite B; lia).
    destruct i as [|i].
    - rewrite p_first by exact H. rewrite B. assert (two (-52) + two (-49) <= 1) by (vm_compute; discriminate). lra.
    - rewrite p_later by lia. rewrite <- (round_fixed (two (-49))).
      2:{ exists 1%Z, (-49)%Z. repeat split; try lia; vm_compute; reflexivity. }
      apply round_le. unfold exact_precision. apply Qle_shift_div_l; [apply Qnat_pos; lia|].
      assert (S1 : small (S (S i))) by (eapply small_le; [|exact N_small]; lia). apply small_Q in S1. change 281474976710656 with (two 48) in S1.
      assert (Q1 : 1 <= Qnat (correct_upto (S (S i)) ranked)) by (change 1 with (Qnat 1); apply Qnat_le; exact Cp).
      eapply Qle_trans; [|exact Q1]. apply Qle_trans with (two (-49) * two 48); [rewrite (Qmult_le_l _ _ _ (two_pos (-49))); exact S1|]. vm_compute; discriminate.
  Qed.

  Lemma term_01 : forall i, (i < N)%nat -> 0 <= term i <= 1.
  Proof.
    intros i H. unfold term, fmul, fsub. apply round_01, prod_01; [apply e_01, H|]. apply round_01. assert (A := before_le i H). assert (B := r_01 i H). lra.
  Qed.
  Lemma step_inv : forall i ap, (i < N)%nat -> inv (S i) ap -> inv i (fadd ap (term i)).
  Proof.
    intros i ap H (D & P0 & Er & Z0 & Pos). assert (St := from_step i H).
    destruct (nth i ranked false) eqn:B.
    - assert (B1 := before_le i H). assert (R1 := r_01 i H).
      assert (Et : Qabs (term i - get i x * (1 / Qnat n_gt)) <= 8 * u).
      { apply (term_error (get i e) (get i x) (get i r) (before i) (Qnat (correct_upto i ranked) / Qnat n_gt) (1 / Qnat n_gt));
          [apply e_01, H|apply x_01, H|apply e_near, H|apply B1|apply B1|apply R1| |apply before_near, H].
        assert (A := r_near i H). rewrite rec_split in A by exact H. rewrite B in A. exact A. }
      assert (K : (correct_from (S i) <= N)%nat) by (unfold correct_from; assert (L := correct_upto_le ranked N); lia).
      destruct (sum_error ap (tail_area (S i)) (term i) (get i x * (1 / Qnat n_gt)) (Qnat (correct_from (S i)))) as [E1 E2]; try assumption;
        [apply term_01, H|apply tail_1; lia|apply Qnat_nonneg|apply small_Q; eapply small_le; [exact K|exact N_small]|].
      split; [apply round_double|]. split; [exact E2|]. split; [|split].
      + rewrite tail_step by exact H. rewrite B. rewrite St, Qnat_plus. change (Qnat 1) with 1.
        setoid_replace (get i x / Qnat n_gt) with (get i x * (1 / Qnat n_gt)) by (unfold Qdiv; ring). exact E1.
      + intro C. lia.
      + intros _. unfold fadd. rewrite <- (round_fixed (two (-98))).
        2:{ exists 1%Z, (-98)%Z. repeat split; try lia; vm_compute; reflexivity. }
        apply round_le. assert (T : two (-98) <= term i); [|lra].
        unfold term, fmul, fsub. rewrite <- (round_fixed (two (-98))).
        2:{ exists 1%Z, (-98)%Z. repeat split; try lia; vm_compute; reflexivity. }
        apply round_le. replace (-98)%Z with (-49 + -49)%Z by lia. rewrite two_plus. assert (T49 := two_pos (-49)).
        assert (Dl : two (-49) <= round (get i r - before i)).
        { rewrite <- (round_fixed (two (-49))).
          2:{ exists 1%Z, (-49)%Z. repeat split; try lia; vm_compute; reflexivity. }
          apply round_le, gap; assumption. }
        apply Qmult_le_compat_nonneg; split; try lra; try exact Dl. apply e_low; assumption.
    - assert (T0 : term i == 0).
      { unfold term, fmul, fsub. rewrite (round_zero (get i r - before i)); [|rewrite (before_same i H B); ring]. apply Qeq_trans with (round 0); [|reflexivity]. apply round_wd. ring. }
      assert (E : fadd ap (term i) == ap). { unfold fadd. rewrite (round_wd (ap + term i) ap) by (rewrite T0; ring). apply round_fixed, D. }
      rewrite Nat.add_0_r in St. split; [apply round_double|]. rewrite E. split; [exact P0|]. rewrite St. split; [|tauto].
      rewrite tail_step by exact H. rewrite B, Qplus_0_r. exact Er.
  Qed.
  Lemma fadd_wd : forall a b c d, a == b -> c == d -> fadd a c == fadd b d.
  Proof. intros a b c d H1 H2. unfold fadd. apply round_wd. rewrite H1, H2. reflexivity. Qed.
  Lemma inv_wd : forall i a b, a == b -> inv i a -> inv i b.
  Proof.
    intros i a b E (A1 & A2 & A3 & A4 & A5). split; [eapply double_wd; eassumption|]. rewrite <- E. auto.
  Qed.
  Lemma loop_inv : forall i ap, (i < N)%nat -> inv (S i) ap -> inv 1 (f_incr i e r ap).
  Proof.
    induction i as [|i IH]; intros ap H I; [exact I|]. cbn [f_incr]. apply IH; [lia|]. exact (step_inv (S i) ap H I).
  Qed.
  Lemma inv_end : inv N 0.
  Proof.
    assert (F : correct_from N = 0%nat) by (unfold correct_from; lia).
    split; [apply double_0|]. split; [lra|]. rewrite F. split; [|split; [reflexivity|lia]]. rewrite tail_end. apply Qabs_Qle_condition. change (Qnat 0) with 0. lra.
  Qed.

  Definition area : Q := match p with [] => 0 | _ => fadd (f_incr (List.length p - 1) e r 0) (fmul (get 0 e) (get 0 r)) end.
  Lemma area_inv : inv 0 area.
  Proof.
    assert (L := f_prec_length). destruct (Nat.eq_dec N 0) as [N0|N0].
    - assert (I := inv_end). rewrite N0 in *. apply length_zero_iff_nil in L. unfold area. rewrite L. exact I.
    - assert (HN : (0 < N)%nat) by lia.
      assert (Ea : area = fadd (f_incr (List.length p - 1) e r 0) (fmul (get 0 e) (get 0 r))).
      { unfold area. assert (G : forall (l : list Q) (a b : Q), l <> [] -> match l with [] => a | _ :: _ => b end = b) by (intros [|? ?] ? ? ?; [contradiction|reflexivity]).
        apply G. intro C. rewrite C in L. simpl in L. lia. }
      rewrite Ea.
      assert (I : inv 1 (f_incr (List.length p - 1) e r 0)).
      { rewrite L. apply loop_inv; [lia|]. replace (S (N - 1)) with N by lia. apply inv_end. }
      apply (step_inv 0 _ HN) in I. eapply inv_wd; [|exact I]. apply fadd_wd; [reflexivity|]. unfold term, fmul, fsub, before. apply round_wd.
      assert (Er : round (get 0 r - 0) == get 0 r). { rewrite (round_wd (get 0 r - 0) (get 0 r)) by ring. apply round_fixed. rewrite f_rec_get by exact HN. apply round_double. }
      rewrite Er. reflexivity.
  Qed.
  Lemma area_eq : (match p with
     | [] => Ok (0, p, r)
     | _ => let '(precision', ap) := f_auc_loop (List.length p - 1) p r 0 in
            Ok (fadd ap (fmul (get 0 precision') (get 0 r)), precision', r)
     end) = Ok (area, e, r).
  Proof.
    unfold area, e. generalize p r. clear. intros p r. destruct p as [|x0 p'] eqn:Ep; [reflexivity|]. rewrite <- Ep.
    destruct (@exists_last _ p) as (l & z & El); [rewrite Ep; discriminate|].
    assert (A := f_auc_loop_eq l [z] r 0 ltac:(discriminate)). assert (B := f_auc_loop_sum l [z] r 0 ltac:(discriminate)).
    cbn [env] in A, B. rewrite <- El in A, B. replace (List.length l) with (List.length p - 1)%nat in A, B by (rewrite El, app_length; simpl; lia).
    destruct (f_auc_loop (List.length p - 1) p r 0) as [p1 ap]. cbn [fst snd] in A, B. subst p1 ap. reflexivity.
  Qed.
End Curve.
