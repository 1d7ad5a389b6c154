(** Properties C06-C12: precision-recall curves and average precision. *)
From Coq Require Import List Bool QArith ZArith Permutation Sorting.Sorted Arith Lia Lqa.
From Verif.Base Require Import Py PyFacts Sort.
From Verif.Assoc Require Import Model Proofs.
From Verif.AP Require Import Model Spec Proofs.
Import ListNotations.

(** Number of correct detections in an input vector. *)
Definition n_correct (ms : list Z) : nat := List.length (filter verdict ms).

Lemma n_correct_ranked : forall ms ss ranked, List.length ss = List.length ms ->
  ranking (map verdict ms) ss ranked ->
  correct_upto (List.length ranked) ranked = n_correct ms.
Proof.
  intros ms ss ranked Hl Hr.
  rewrite (ranking_correct (map verdict ms) ss ranked Hr) by (rewrite map_length; exact Hl).
  unfold n_correct. rewrite filter_map_comm, map_length. reflexivity.
Qed.

(** The call always returns when the vectors have the same length, and raises
    IndexError when there are fewer matches than scores. *)
Theorem C06_compute_ap_defined :
  forall argsort ms ss n_gt samples interp auc, argsort_ok argsort -> (0 < n_gt)%nat ->
  ((List.length ss <= List.length ms)%nat ->
     exists r, compute_ap argsort ms ss n_gt samples interp auc = Ok r) /\
  ((List.length ms < List.length ss)%nat ->
     compute_ap argsort ms ss n_gt samples interp auc = Err IndexError).
Proof.
  intros argsort ms ss n_gt samples interp auc Ha Hn. split; intro Hl.
  - destruct auc.
    + destruct (compute_auc_ap_spec argsort ms ss n_gt Ha Hl Hn) as (ap & p & r & rk & E & _).
      unfold compute_ap. rewrite E. eexists; reflexivity.
    + destruct (compute_pr_spec argsort ms ss n_gt interp Ha Hl Hn) as (p & r & rk & E1 & E2 & _).
      unfold compute_ap. destruct samples as [s|]; [rewrite E2|rewrite E1]; eexists; reflexivity.
  - unfold compute_ap, compute_auc_ap, compute_pr.
    rewrite (sorted_matches_err argsort ms ss Ha Hl). destruct auc; reflexivity.
Qed.

(** C06 *)
Theorem C06_ap_bounds :
  forall argsort ms ss n_gt ap precision recall, argsort_ok argsort ->
  List.length ss = List.length ms -> (0 < n_gt)%nat -> (n_correct ms <= n_gt)%nat ->
  compute_auc_ap argsort ms ss n_gt = Ok (ap, precision, recall) ->
  0 <= ap <= 1 /\
  ap <= last recall 0 /\
  (forall x, In x precision -> 0 <= x < 1) /\
  (forall x, In x recall -> 0 <= x <= 1) /\
  StronglySorted Qle recall /\ StronglySorted (fun x y => y <= x) precision.
Proof.
  intros argsort ms ss n_gt ap precision recall Ha Hl Hn Hc E.
  destruct (compute_auc_ap_spec argsort ms ss n_gt Ha ltac:(lia) Hn)
    as (ap' & p' & r' & rk & E' & Hr & Lp & Lr & H & Hap).
  rewrite E in E'. injection E' as <- <- <-.
  assert (HT := n_correct_ranked ms ss rk Hl Hr).
  assert (Hq := Qnat_pos _ Hn).
  destruct (ap_of_bounds rk n_gt ap Hn Hap) as [B1 B2].
  assert (Hrec : forall j, (j < List.length rk)%nat -> 0 <= recall_at rk n_gt j <= 1).
  { intros j Hj. unfold recall_at. split.
    - apply Qdiv_nonneg; [apply Qnat_nonneg|exact Hq].
    - apply Qdiv_le_1; [exact Hq|]. apply Qnat_le.
      assert (Hx := correct_upto_cap rk (S j)). lia. }
  assert (Hlast : ap <= last recall 0).
  { destruct recall as [|x rec] using rev_ind.
    - destruct rk; [|discriminate]. unfold correct_upto in B2; simpl in B2. simpl.
      setoid_replace (Qnat 0 / Qnat n_gt) with 0 in B2 by (unfold Qdiv; setoid_replace (Qnat 0) with 0 by reflexivity; ring).
      exact B2.
    - rewrite last_last. rewrite app_length in Lr; simpl in Lr.
      destruct (H (List.length rec) ltac:(lia)) as [Hx _].
      unfold get in Hx. rewrite app_nth2 in Hx by lia. rewrite Nat.sub_diag in Hx. simpl in Hx.
      rewrite Hx. unfold recall_at. replace (S (List.length rec)) with (List.length rk) by lia. exact B2. }
  repeat split.
  - exact B1.
  - apply Qle_trans with (Qnat (correct_upto (List.length rk) rk) / Qnat n_gt); [exact B2|].
    apply Qdiv_le_1; [exact Hq|]. apply Qnat_le. lia.
  - exact Hlast.
  - apply (In_nth _ _ 0) in H0 as (i & Hi & <-). apply (is_max_bounds _ _ _ _ 0 1 (proj2 (H i ltac:(lia)))).
    apply raw_bounds.
  - apply (In_nth _ _ 0) in H0 as (i & Hi & <-). apply (is_max_bounds _ _ _ _ 0 1 (proj2 (H i ltac:(lia)))).
    apply raw_bounds.
  - apply (In_nth _ _ 0) in H0 as (i & Hi & <-). fold (get i recall).
    rewrite (proj1 (H i ltac:(lia))). apply Hrec. lia.
  - apply (In_nth _ _ 0) in H0 as (i & Hi & <-). fold (get i recall).
    rewrite (proj1 (H i ltac:(lia))). apply Hrec. lia.
  - apply sorted_by_index. intros i j Hij Hj. fold (get i recall) (get j recall).
    rewrite (proj1 (H i ltac:(lia))), (proj1 (H j ltac:(lia))). unfold recall_at.
    apply Qdiv_le; [exact Hq|]. apply Qnat_le, correct_upto_mono. lia.
  - apply sorted_by_index. intros i j Hij Hj. fold (get i precision) (get j precision).
    destruct (proj2 (H j ltac:(lia))) as [(k & Hk & Hjk & Ek) _].
    rewrite Ek. apply (proj2 (H i ltac:(lia))); lia.
Qed.

(** C06 for every way of calling compute_ap: area or mean, with or without
    samples and interpolation.  With samples the recall returned is the caller's
    own vector; the mean of an empty curve is NaN ([None]). *)
Theorem C06_compute_ap_bounds :
  forall argsort ms ss n_gt samples interp auc ap precision recall, argsort_ok argsort ->
  List.length ss = List.length ms -> (0 < n_gt)%nat -> (n_correct ms <= n_gt)%nat ->
  compute_ap argsort ms ss n_gt samples interp auc = Ok (ap, precision, recall) ->
  (forall x, In x precision -> 0 <= x < 1) /\
  (forall a, ap = Some a -> 0 <= a <= 1) /\
  (ap = None <-> auc = false /\ precision = []) /\
  (auc = true \/ samples = None -> StronglySorted Qle recall /\ forall x, In x recall -> 0 <= x <= 1) /\
  (forall v, auc = false -> samples = Some v -> recall = v).
Proof.
  intros argsort ms ss n_gt samples interp auc ap precision recall Ha Hl Hn Hc E.
  destruct auc.
  - unfold compute_ap in E.
    destruct (compute_auc_ap argsort ms ss n_gt) as [[[a p] r]|e] eqn:Ea; [|discriminate].
    cbn [bind] in E. injection E as <- <- <-.
    destruct (C06_ap_bounds argsort ms ss n_gt a p r Ha Hl Hn Hc Ea) as (A & _ & B & C & D & _).
    split; [exact B|]. split; [intros b Hb; injection Hb as <-; exact A|].
    split; [split; [discriminate|intros [H _]; discriminate]|].
    split; [intros _; split; [exact D|exact C]|discriminate].
  - unfold compute_ap in E.
    destruct (compute_pr_spec argsort ms ss n_gt interp Ha ltac:(lia) Hn)
      as (p & r & rk & E1 & E2 & Hr & Lp & Lr & H).
    assert (HT := n_correct_ranked ms ss rk Hl Hr). assert (Hq := Qnat_pos _ Hn).
    assert (Bp : forall x, In x p -> 0 <= x < 1).
    { intros x Hx. apply (In_nth _ _ 0) in Hx as (i & Hi & <-). fold (get i p).
      destruct (H i ltac:(lia)) as [_ Hi2]. destruct interp.
      - apply (is_max_bounds _ _ _ _ 0 1 Hi2). apply raw_bounds.
      - rewrite Hi2. apply raw_bounds. }
    assert (Br : StronglySorted Qle r /\ forall x, In x r -> 0 <= x <= 1).
    { split.
      - apply sorted_by_index. intros i j Hij Hj. fold (get i r) (get j r).
        rewrite (proj1 (H i ltac:(lia))), (proj1 (H j ltac:(lia))). unfold recall_at.
        apply Qdiv_le; [exact Hq|]. apply Qnat_le, correct_upto_mono. lia.
      - intros x Hx. apply (In_nth _ _ 0) in Hx as (i & Hi & <-). fold (get i r).
        rewrite (proj1 (H i ltac:(lia))). unfold recall_at. split.
        + apply Qdiv_nonneg; [apply Qnat_nonneg|exact Hq].
        + apply Qdiv_le_1; [exact Hq|]. apply Qnat_le.
          assert (Hx := correct_upto_cap rk (S i)). lia. }
    assert (Bm : forall l, (forall x, In x l -> 0 <= x < 1) ->
      (forall a, np_mean l = Some a -> 0 <= a <= 1) /\ (np_mean l = None <-> false = false /\ l = [])).
    { intros l Hb. split.
      - intros a Hm. apply (mean_bounds l a Hm). intros x Hx. specialize (Hb x Hx). lra.
      - destruct l; simpl; split; auto; try discriminate; intros [_ Hx]; discriminate. }
    destruct samples as [v|]; [rewrite E2 in E|rewrite E1 in E]; cbn [bind] in E; injection E as <- <- <-.
    + assert (Bs : forall x, In x (sample_precision p r v) -> 0 <= x < 1).
      { intros x Hx. unfold sample_precision in Hx. apply in_map_iff in Hx as (s & <- & _).
        cbv zeta. destruct (Nat.ltb_spec (searchsorted r s) (List.length p)); [|lra].
        apply Bp. apply nth_In. assumption. }
      destruct (Bm _ Bs) as [M1 M2]. split; [exact Bs|]. split; [exact M1|]. split; [exact M2|].
      split; [intros [Hx|Hx]; discriminate|]. intros w _ Hw; injection Hw as <-; reflexivity.
    + destruct (Bm _ Bp) as [M1 M2]. split; [exact Bp|]. split; [exact M1|]. split; [exact M2|].
      split; [intros _; exact Br|]. discriminate.
Qed.

(** Five detections, three correct, four ground-truth elements. *)
Definition ex_ms : list Z := [1; 0; 1; 0; 2]%Z.
Definition ex_ss : list Q := [9#10; 8#10; 7#10; 6#10; 5#10].
Example C06_example :
  argsort_ok stable_argsort /\ List.length ex_ss = List.length ex_ms /\ (n_correct ex_ms <= 4)%nat /\
  exists ap p r, compute_auc_ap stable_argsort ex_ms ex_ss 4 = Ok (ap, p, r) /\ 56#100 < ap < 57#100.
Proof.
  split; [apply stable_argsort_ok|]. split; [reflexivity|]. split; [vm_compute; lia|].
  do 3 eexists. split; [vm_compute; reflexivity|]. split; reflexivity.
Qed.

(** Too many "correct" detections: recall and AP exceed 1 (outside C06). *)
Example C06_needs_count :
  exists ap p r, compute_auc_ap stable_argsort [1; 1]%Z [1; 1#2] 1 = Ok (ap, p, r) /\ 1 < ap.
Proof. do 3 eexists. split; [vm_compute; reflexivity|]. reflexivity. Qed.

(** C07 *)
Theorem C07_interpolated_is_envelope :
  forall argsort ms ss n_gt raw recall0 precision recall, argsort_ok argsort ->
  (List.length ss <= List.length ms)%nat -> (0 < n_gt)%nat ->
  compute_pr argsort ms ss n_gt None false = Ok (raw, recall0) ->
  compute_pr argsort ms ss n_gt None true = Ok (precision, recall) ->
  recall = recall0 /\ List.length precision = List.length raw /\
  forall i, (i < List.length raw)%nat ->
    is_max (List.length raw) (fun j => (i <= j)%nat) (fun j => nth j raw 0) (nth i precision 0).
Proof.
  intros argsort ms ss n_gt raw recall0 precision recall Ha Hl Hn E0 E1.
  unfold compute_pr in E0, E1.
  destruct (sorted_matches argsort ms ss) as [sorted|e]; [|discriminate]. cbn [bind] in E0, E1.
  destruct (basic_pr sorted n_gt) as [p r]. injection E0 as -> ->. injection E1 as <- <-.
  rewrite interp_loop_env. split; [reflexivity|]. split; [apply env_length|].
  intros i Hi. exact (env_is_max raw i Hi).
Qed.

(** compute_auc_ap returns the same interpolated curve. *)
Theorem C07_auc_returns_envelope :
  forall argsort ms ss n_gt precision recall ap p r, argsort_ok argsort ->
  (List.length ss <= List.length ms)%nat -> (0 < n_gt)%nat ->
  compute_pr argsort ms ss n_gt None true = Ok (precision, recall) ->
  compute_auc_ap argsort ms ss n_gt = Ok (ap, p, r) ->
  p = precision /\ r = recall.
Proof.
  intros argsort ms ss n_gt precision recall ap p r Ha Hl Hn E0 E1.
  unfold compute_pr in E0; unfold compute_auc_ap in E1.
  destruct (sorted_matches argsort ms ss) as [sorted|e]; [|discriminate]. cbn [bind] in E0, E1.
  destruct (basic_pr sorted n_gt) as [p0 r0] eqn:Eb. rewrite interp_loop_env in E0. injection E0 as <- <-.
  destruct (auc_value sorted n_gt p0 r0 Hn Eb) as (ap' & Ev & _). rewrite Ev in E1.
  injection E1 as _ <- <-. auto.
Qed.

(** Interpolating an interpolated curve changes nothing, for any vector. *)
Theorem C07_idempotent : forall l,
  interp_loop (List.length l - 1) (interp_loop (List.length l - 1) l) = interp_loop (List.length l - 1) l.
Proof.
  intro l. rewrite !interp_loop_env. rewrite <- (env_length l) at 1. rewrite interp_loop_env.
  apply env_idem.
Qed.

Example C07_example : interp_loop 3 [1#2; 1#4; 1#3; 1#5] = [1#2; 1#3; 1#3; 1#5].
Proof. reflexivity. Qed.

(** C08 *)
Theorem C08_ap_is_area :
  forall argsort ms ss n_gt, argsort_ok argsort ->
  (List.length ss <= List.length ms)%nat -> (0 < n_gt)%nat ->
  exists ap precision recall ranked,
    compute_auc_ap argsort ms ss n_gt = Ok (ap, precision, recall) /\
    ranking (map verdict ms) ss ranked /\ ap_of ranked n_gt ap.
Proof.
  intros argsort ms ss n_gt Ha Hl Hn.
  destruct (compute_auc_ap_spec argsort ms ss n_gt Ha Hl Hn)
    as (ap & p & r & rk & E & Hr & _ & _ & _ & Hap).
  exists ap, p, r, rk. auto.
Qed.

(** [ap_of] pins the value down. *)
Theorem C08_area_unique : forall ranked n a b, ap_of ranked n a -> ap_of ranked n b -> a == b.
Proof. exact ap_of_unique. Qed.

(** The same number as a sum over the correct detections of 1/n_gt times the
    reported precision there. *)
Theorem C08_ap_is_sum_over_correct :
  forall argsort ms ss n_gt ap precision recall, argsort_ok argsort ->
  (List.length ss <= List.length ms)%nat -> (0 < n_gt)%nat ->
  compute_auc_ap argsort ms ss n_gt = Ok (ap, precision, recall) ->
  exists ranked, ranking (map verdict ms) ss ranked /\
    ap == Qsum (map (fun bp : bool * Q => if fst bp then snd bp / Qnat n_gt else 0) (combine ranked precision)).
Proof.
  intros argsort ms ss n_gt ap precision recall Ha Hl Hn E.
  destruct (sorted_matches_ok argsort ms ss Ha Hl) as (sorted & Es & Hr).
  exists (map verdict sorted). split; [exact Hr|].
  unfold compute_auc_ap in E. rewrite Es in E. cbn [bind] in E.
  destruct (basic_pr sorted n_gt) as [p r] eqn:Eb.
  destruct (auc_value sorted n_gt p r Hn Eb) as (ap' & Ev & Eap). rewrite Ev in E.
  injection E as <- <- <-. rewrite Eap. generalize (map verdict sorted) (env p).
  induction l as [|b l IH]; intros [|x e]; simpl; try reflexivity. rewrite IH. reflexivity.
Qed.

(** The example of C06: levels 1/4, 2/4, 3/4 have best precision 1, 2/3, 3/5
    (up to eps). *)
Example C08_example :
  exists ap p r, compute_auc_ap stable_argsort ex_ms ex_ss 4 = Ok (ap, p, r) /\
    ap == (1 / (1 + epsilon) + 2 / (3 + epsilon) + 3 / (5 + epsilon)) / 4.
Proof. do 3 eexists. split; [vm_compute; reflexivity|]. vm_compute. reflexivity. Qed.

(** C09 *)
Theorem C09_perfect :
  forall argsort ms ss ap precision recall, argsort_ok argsort ->
  List.length ss = List.length ms -> (0 < List.length ms)%nat ->
  (forall m, In m ms -> m <> 0%Z) ->
  compute_auc_ap argsort ms ss (List.length ms) = Ok (ap, precision, recall) ->
  let n := Qnat (List.length ms) in
  ap == n / (n + epsilon) /\ 1 - epsilon < ap /\ ap < 1.
Proof.
  intros argsort ms ss ap precision recall Ha Hl Hn Hall E n.
  destruct (compute_auc_ap_spec argsort ms ss (List.length ms) Ha ltac:(lia) Hn)
    as (ap' & p' & r' & rk & E' & Hr & Lp & Lr & H & Hap).
  rewrite E in E'. injection E' as <- <- <-.
  assert (Hp := ranking_perm _ _ _ Hr ltac:(rewrite map_length; exact Hl)).
  assert (Hv : map verdict ms = repeat true (List.length ms)).
  { clear - Hall. induction ms as [|m ms IH]; [reflexivity|]. simpl. f_equal.
    - unfold verdict. rewrite (proj2 (Z.eqb_neq m 0)); [reflexivity|]. apply Hall; left; reflexivity.
    - apply IH. intros x Hx; apply Hall; right; exact Hx. }
  assert (Hrk : rk = repeat true (List.length ms)).
  { rewrite Hv in Hp. apply Permutation_repeat in Hp. exact Hp. }
  subst rk. apply ap_of_perfect in Hap; [|exact Hn]. split; [exact Hap|].
  assert (Hq : 1 <= n) by (apply (Qnat_le 1); lia). assert (He := eps_pos).
  rewrite Hap. fold n. split.
  - apply Qlt_shift_div_l; [lra|].
    assert (0 < epsilon * epsilon) by reflexivity.
    assert (1 * epsilon <= n * epsilon) by (apply Qmult_le_compat_r; lra).
    lra.
  - apply Qlt_shift_div_r; lra.
Qed.

Theorem C09_zero_iff_nothing_correct :
  forall argsort ms ss n_gt ap precision recall, argsort_ok argsort ->
  List.length ss = List.length ms -> (0 < n_gt)%nat ->
  compute_auc_ap argsort ms ss n_gt = Ok (ap, precision, recall) ->
  (ap == 0 <-> forall m, In m ms -> m = 0%Z).
Proof.
  intros argsort ms ss n_gt ap precision recall Ha Hl Hn E.
  destruct (compute_auc_ap_spec argsort ms ss n_gt Ha ltac:(lia) Hn)
    as (ap' & p' & r' & rk & E' & Hr & Lp & Lr & H & Hap).
  rewrite E in E'. injection E' as <- <- <-.
  assert (Hp := ranking_perm _ _ _ Hr ltac:(rewrite map_length; exact Hl)).
  rewrite (ap_of_zero rk n_gt ap Hn Hap). split.
  - intros Hf m Hm. assert (Hv : In (verdict m) rk).
    { apply (Permutation_in _ (Permutation_sym Hp)). apply in_map; exact Hm. }
    apply Hf in Hv. unfold verdict in Hv. apply negb_false_iff, Z.eqb_eq in Hv. exact Hv.
  - intros Hall b Hb. apply (Permutation_in _ Hp) in Hb. apply in_map_iff in Hb as (m & <- & Hm).
    rewrite (Hall m Hm). reflexivity.
Qed.

Example C09_example :
  exists ap p r, compute_auc_ap stable_argsort [1; 5; 1]%Z [1#2; 1#2; 3#4] 3 = Ok (ap, p, r) /\
    ap == 3 / (3 + epsilon).
Proof. do 3 eexists. split; [vm_compute; reflexivity|]. vm_compute. reflexivity. Qed.

(** C10 *)
Theorem C10_order_irrelevant :
  forall argsort argsort' ms ss pi n_gt samples interp auc,
  argsort_ok argsort -> argsort_ok argsort' ->
  List.length ss = List.length ms -> distinct ss ->
  Permutation pi (seq 0 (List.length ss)) ->
  compute_ap argsort' (map (fun i => nth i ms 0%Z) pi) (map (fun i => nth i ss 0) pi) n_gt samples interp auc
  = compute_ap argsort ms ss n_gt samples interp auc.
Proof.
  intros argsort argsort' ms ss pi n_gt samples interp auc Ha Ha' Hl Hd Hp.
  assert (E : sorted_matches argsort' (map (fun i => nth i ms 0%Z) pi) (map (fun i => nth i ss 0) pi)
            = sorted_matches argsort ms ss).
  { apply sorted_matches_permuted; auto. }
  unfold compute_ap, compute_auc_ap, compute_pr. rewrite E. reflexivity.
Qed.

(** In particular the choice of sorting algorithm does not matter without ties. *)
Theorem C10_sort_irrelevant :
  forall argsort argsort' ms ss n_gt samples interp auc,
  argsort_ok argsort -> argsort_ok argsort' ->
  List.length ss = List.length ms -> distinct ss ->
  compute_ap argsort' ms ss n_gt samples interp auc = compute_ap argsort ms ss n_gt samples interp auc.
Proof.
  intros argsort argsort' ms ss n_gt samples interp auc Ha Ha' Hl Hd.
  rewrite <- (C10_order_irrelevant argsort argsort' ms ss (seq 0 (List.length ss)) n_gt samples interp auc
               Ha Ha' Hl Hd (Permutation_refl _)).
  rewrite map_nth_seq. rewrite Hl, map_nth_seq. reflexivity.
Qed.

(** With equal scores the order matters. *)
Theorem C10_ties_matter_refuted :
  exists ms ss pi ap p r ap' p' r',
    List.length ss = List.length ms /\ Permutation pi (seq 0 (List.length ss)) /\
    compute_auc_ap stable_argsort ms ss 1 = Ok (ap, p, r) /\
    compute_auc_ap stable_argsort (map (fun i => nth i ms 0%Z) pi) (map (fun i => nth i ss 0) pi) 1
      = Ok (ap', p', r') /\ ~ ap == ap'.
Proof.
  exists [1; 0]%Z, [1#2; 1#2], [1; 0]%nat. do 6 eexists.
  split; [reflexivity|]. split; [apply perm_swap|].
  split; [vm_compute; reflexivity|]. split; [vm_compute; reflexivity|].
  vm_compute. discriminate.
Qed.

Example C10_example : distinct ex_ss /\ Permutation [4; 2; 0; 1; 3]%nat (seq 0 (List.length ex_ss)).
Proof.
  split.
  - intros i j Hi Hj E. simpl in Hi, Hj.
    do 5 (destruct i as [|i]; [do 5 (destruct j as [|j]; [first [reflexivity|vm_compute in E; discriminate]|]); lia|]). lia.
  - simpl. apply NoDup_Permutation; [repeat constructor; simpl; lia|repeat constructor; simpl; lia|].
    intro x; simpl; lia.
Qed.

(** C11 *)
Theorem C11_better_ranking :
  forall argsort ms ss ms' ss' n_gt ap p r ap' p' r' ranked ranked',
  argsort_ok argsort -> (0 < n_gt)%nat ->
  List.length ss = List.length ms -> distinct ss ->
  List.length ss' = List.length ms' -> distinct ss' ->
  ranking (map verdict ms) ss ranked -> ranking (map verdict ms') ss' ranked' ->
  compute_auc_ap argsort ms ss n_gt = Ok (ap, p, r) ->
  compute_auc_ap argsort ms' ss' n_gt = Ok (ap', p', r') ->
  at_least_as_good ranked' ranked -> ap <= ap'.
Proof.
  intros argsort ms ss ms' ss' n_gt ap p r ap' p' r' ranked ranked' Ha Hn Hl Hd Hl' Hd' Hr Hr' E E' Hg.
  destruct (C08_ap_is_area argsort ms ss n_gt Ha ltac:(lia) Hn) as (a & b & c & rk & F & Frk & Fap).
  destruct (C08_ap_is_area argsort ms' ss' n_gt Ha ltac:(lia) Hn) as (a' & b' & c' & rk' & F' & Frk' & Fap').
  rewrite E in F; injection F as <- <- <-. rewrite E' in F'; injection F' as <- <- <-.
  rewrite (ranking_unique _ _ _ _ Hd Frk Hr) in Fap. rewrite (ranking_unique _ _ _ _ Hd' Frk' Hr') in Fap'.
  exact (ap_of_monotone ranked ranked' n_gt ap ap' Hn Hg Fap Fap').
Qed.

(** The named improvements of a ranking. *)
Theorem C11_flip_to_correct : forall l m, at_least_as_good (l ++ true :: m) (l ++ false :: m).
Proof. exact good_flip. Qed.
Theorem C11_swap_forward : forall l m, at_least_as_good (l ++ true :: false :: m) (l ++ false :: true :: m).
Proof. exact good_swap. Qed.
Theorem C11_delete_false_positive : forall l m, at_least_as_good (l ++ m) (l ++ false :: m).
Proof. exact good_delete_fp. Qed.
Theorem C11_append_false_positive : forall r n ap ap', (0 < n)%nat ->
  ap_of r n ap -> ap_of (r ++ [false]) n ap' -> ap == ap'.
Proof.
  intros r n ap ap' Hn H H'.
  assert (ap <= ap') by exact (ap_of_monotone _ _ n ap ap' Hn (good_append_fp_conv r) H H').
  assert (ap' <= ap) by exact (ap_of_monotone _ _ n ap' ap Hn (good_append_fp r) H' H). lra.
Qed.

(** At the level of the inputs, with the same scores (ties allowed): turning a
    false positive into a correct detection never lowers AP. *)
Theorem C11_correcting_a_detection :
  forall argsort ms1 m ms2 ss n_gt ap p r ap' p' r', argsort_ok argsort -> (0 < n_gt)%nat ->
  List.length ss = List.length (ms1 ++ m :: ms2) ->
  compute_auc_ap argsort (ms1 ++ 0%Z :: ms2) ss n_gt = Ok (ap, p, r) ->
  compute_auc_ap argsort (ms1 ++ m :: ms2) ss n_gt = Ok (ap', p', r') ->
  ap <= ap'.
Proof.
  intros argsort ms1 m ms2 ss n_gt ap p r ap' p' r' Ha Hn Hl E E'.
  assert (Hidx : forall i, In i (argsort (map Qopp ss)) -> (i < List.length ss)%nat).
  { intros i Hi. destruct (Ha (map Qopp ss)) as [Hp _]. apply (Permutation_in _ Hp) in Hi.
    rewrite map_length in Hi. apply in_seq in Hi. lia. }
  set (idx := argsort (map Qopp ss)) in *.
  assert (Hl0 : List.length ss = List.length (ms1 ++ 0%Z :: ms2)) by (rewrite app_length in *; exact Hl).
  assert (S0 : sorted_matches argsort (ms1 ++ 0%Z :: ms2) ss = Ok (map (fun i => nth i (ms1 ++ 0%Z :: ms2) 0%Z) idx)).
  { apply mapM_nth. intros i Hi; specialize (Hidx i Hi); lia. }
  assert (S1 : sorted_matches argsort (ms1 ++ m :: ms2) ss = Ok (map (fun i => nth i (ms1 ++ m :: ms2) 0%Z) idx)).
  { apply mapM_nth. intros i Hi; specialize (Hidx i Hi); lia. }
  assert (A0 := sorted_ap argsort _ _ n_gt _ _ _ _ Hn S0 E).
  assert (A1 := sorted_ap argsort _ _ n_gt _ _ _ _ Hn S1 E').
  refine (ap_of_monotone _ _ n_gt ap ap' Hn _ A0 A1).
  apply good_refl_len; [rewrite !map_length; reflexivity|].
  intro j. apply correct_upto_pointwise; [rewrite !map_length; reflexivity|].
  intros i Hi. rewrite !map_map in *. rewrite map_length in Hi.
  rewrite !(nth_indep (map _ idx) false (verdict 0)) by (rewrite map_length; exact Hi).
  rewrite (nth_indep (map (fun x => verdict (nth x (ms1 ++ 0%Z :: ms2) 0%Z)) idx) _
    ((fun x => verdict (nth x (ms1 ++ 0%Z :: ms2) 0%Z)) 0%nat)) by (rewrite map_length; exact Hi).
  rewrite (nth_indep (map (fun x => verdict (nth x (ms1 ++ m :: ms2) 0%Z)) idx) _
    ((fun x => verdict (nth x (ms1 ++ m :: ms2) 0%Z)) 0%nat)) by (rewrite map_length; exact Hi).
  rewrite (map_nth (fun x => verdict (nth x (ms1 ++ 0%Z :: ms2) 0%Z))).
  rewrite (map_nth (fun x => verdict (nth x (ms1 ++ m :: ms2) 0%Z))).
  generalize (nth i idx 0%nat) as k. intros k Hk.
  destruct (lt_eq_lt_dec k (List.length ms1)) as [[Hlt|Heq]|Hgt].
  - rewrite app_nth1 in * by exact Hlt. exact Hk.
  - subst k. rewrite app_nth2 in Hk by lia. rewrite Nat.sub_diag in Hk. discriminate.
  - rewrite app_nth2 in * by lia. destruct (k - List.length ms1)%nat eqn:Ek; [lia|]. exact Hk.
Qed.

Example C11_example :
  at_least_as_good [true; true; false] [true; false; true; false] /\
  exists ap p r ap' p' r',
    compute_auc_ap stable_argsort [1; 0; 1; 0]%Z [4#5; 3#5; 2#5; 1#5] 3 = Ok (ap, p, r) /\
    compute_auc_ap stable_argsort [1; 1; 0]%Z [4#5; 3#5; 1#5] 3 = Ok (ap', p', r') /\ ap < ap'.
Proof.
  split.
  - intros j Hj _. simpl in Hj.
    do 4 (destruct j as [|j]; [first [exists 0%nat; repeat split; vm_compute; lia
                                     |exists 1%nat; repeat split; vm_compute; lia]|]). lia.
  - do 6 eexists. split; [vm_compute; reflexivity|]. split; [vm_compute; reflexivity|]. reflexivity.
Qed.

(** C12 *)
Theorem C12_sampled_interpolated :
  forall argsort ms ss n_gt samples, argsort_ok argsort ->
  (List.length ss <= List.length ms)%nat -> (0 < n_gt)%nat ->
  exists precision ranked,
    compute_pr argsort ms ss n_gt (Some samples) true = Ok (precision, samples) /\
    ranking (map verdict ms) ss ranked /\
    List.length precision = List.length samples /\
    forall k, (k < List.length samples)%nat ->
      let s := nth k samples 0 in
      ((exists j, (j < List.length ranked)%nat /\ s <= recall_at ranked n_gt j) ->
        is_max (List.length ranked) (fun j => s <= recall_at ranked n_gt j)
          (raw_precision ranked) (nth k precision 0)) /\
      ((forall j, (j < List.length ranked)%nat -> ~ s <= recall_at ranked n_gt j) ->
        nth k precision 0 = 0).
Proof.
  intros argsort ms ss n_gt samples Ha Hl Hn.
  destruct (compute_pr_spec argsort ms ss n_gt true Ha Hl Hn) as (p & r & rk & _ & E & Hr & Lp & Lr & H).
  exists (sample_precision p r samples), rk. split; [apply E|]. split; [exact Hr|].
  split; [apply map_length|]. intros k Hk s.
  fold (get k (sample_precision p r samples)). rewrite sample_precision_get by exact Hk.
  exact (sampled_interp rk n_gt p r s Hn Lp Lr H).
Qed.

Theorem C12_sampled_raw :
  forall argsort ms ss n_gt samples, argsort_ok argsort ->
  (List.length ss <= List.length ms)%nat -> (0 < n_gt)%nat ->
  exists precision ranked,
    compute_pr argsort ms ss n_gt (Some samples) false = Ok (precision, samples) /\
    ranking (map verdict ms) ss ranked /\
    List.length precision = List.length samples /\
    forall k, (k < List.length samples)%nat ->
      let s := nth k samples 0 in
      (forall j, (j < List.length ranked)%nat -> s <= recall_at ranked n_gt j ->
         (forall j', (j' < j)%nat -> ~ s <= recall_at ranked n_gt j') ->
         nth k precision 0 == raw_precision ranked j) /\
      ((forall j, (j < List.length ranked)%nat -> ~ s <= recall_at ranked n_gt j) ->
        nth k precision 0 = 0).
Proof.
  intros argsort ms ss n_gt samples Ha Hl Hn.
  destruct (compute_pr_spec argsort ms ss n_gt false Ha Hl Hn) as (p & r & rk & _ & E & Hr & Lp & Lr & H).
  exists (sample_precision p r samples), rk. split; [apply E|]. split; [exact Hr|].
  split; [apply map_length|]. intros k Hk s.
  fold (get k (sample_precision p r samples)). rewrite sample_precision_get by exact Hk.
  exact (sampled_raw rk n_gt p r s Lp Lr H).
Qed.

Example C12_example :
  exists p, compute_pr stable_argsort ex_ms ex_ss 4 (Some [0; 1#2; 6#10; 1]) true = Ok (p, [0; 1#2; 6#10; 1]) /\
    nth 3 p 1 = 0 /\ nth 1 p 0 == 2 / (3 + epsilon) /\ nth 2 p 0 == 3 / (5 + epsilon).
Proof. eexists. split; [vm_compute; reflexivity|]. repeat split; vm_compute; reflexivity. Qed.

(** np.spacing(1). *)
Example epsilon_value : epsilon == 1 / inject_Z (2 ^ 52).
Proof. reflexivity. Qed.

Print Assumptions C06_compute_ap_defined.
Print Assumptions C06_ap_bounds.
Print Assumptions C06_compute_ap_bounds.
Print Assumptions C07_interpolated_is_envelope.
Print Assumptions C07_auc_returns_envelope.
Print Assumptions C07_idempotent.
Print Assumptions C08_ap_is_area.
Print Assumptions C08_area_unique.
Print Assumptions C08_ap_is_sum_over_correct.
Print Assumptions C09_perfect.
Print Assumptions C09_zero_iff_nothing_correct.
Print Assumptions C10_order_irrelevant.
Print Assumptions C10_sort_irrelevant.
Print Assumptions C10_ties_matter_refuted.
Print Assumptions C11_better_ranking.
Print Assumptions C11_flip_to_correct.
Print Assumptions C11_swap_forward.
Print Assumptions C11_delete_false_positive.
Print Assumptions C11_append_false_positive.
Print Assumptions C11_correcting_a_detection.
Print Assumptions C12_sampled_interpolated.
Print Assumptions C12_sampled_raw.
