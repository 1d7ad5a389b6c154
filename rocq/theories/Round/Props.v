(** Properties C89 and C90: the scores in double arithmetic. *)
From Coq Require Import List Bool String QArith Qabs ZArith Lia Lqa Arith Permutation Sorting.Sorted.
From Verif.Base Require Import Py.
From Verif.Assoc Require Import Model.
From Verif.AP Require Import Model Spec Proofs Props.
From Verif.Round Require Import Model Spec Rounding Proofs Proofs2 Proofs3.
Import ListNotations.
Local Open Scope Q_scope.
Local Close Scope string_scope.

(** [round] is the rounding of IEEE 754; it is determined by its specification, ascending,
    and leaves doubles alone; the relative error is at most 2^-53 above the subnormal
    numbers. *)
Theorem C89_rounding :
  (forall x, rounds_to x (round x)) /\
  (forall x y y', rounds_to x y -> rounds_to x y' -> y == y') /\
  (forall x y, x <= y -> round x <= round y) /\
  (forall x, double x -> round x == x) /\
  (forall x, 2 ^ (-1022) <= Qabs x -> Qabs (round x - x) <= 2 ^ (-53) * Qabs x).
Proof.
  split; [exact round_ok|]. split; [intros x y y'; apply rounds_unique; reflexivity|]. split; [exact round_le|]. split; [exact round_fixed|exact round_normal].
Qed.

(** The operations of the model are the rounded operations. *)
Theorem C89_operations : forall x y,
  rounds_to (x + y) (fadd x y) /\ rounds_to (x - y) (fsub x y) /\ rounds_to (x * y) (fmul x y) /\ rounds_to (x / y) (fdiv x y) /\
  forall n, (Z.of_nat n <= 2 ^ 53)%Z -> of_int n == Qnat n.
Proof. intros x y. repeat split; try apply round_ok. exact of_int_eq. Qed.

Section Call.
  Variable argsort : list Q -> list nat.
  Hypothesis sorts : argsort_ok argsort.
  Variables (ms : list Z) (ss : list Q) (n_gt : nat).
  Hypothesis same : List.length ss = List.length ms.
  Hypothesis n_pos : (0 < n_gt)%nat.
  Hypothesis dets_moderate : moderate (List.length ms).
  Hypothesis gts_moderate : moderate n_gt.
  Hypothesis distinct_matches : (n_correct ms <= n_gt)%nat.

  Lemma call : exists sorted, sorted_matches argsort ms ss = Ok sorted /\ ranking (map verdict ms) ss (map verdict sorted) /\
    small (List.length (map verdict sorted)) /\ correct_upto (List.length (map verdict sorted)) (map verdict sorted) = n_correct ms.
  Proof.
    destruct (sorted_matches_ok argsort ms ss sorts ltac:(lia)) as (sorted & E & R). exists sorted. split; [exact E|]. split; [exact R|].
    split; [|exact (n_correct_ranked ms ss _ same R)].
    destruct R as (order & P & _ & Eq). assert (L := f_equal (@List.length _) Eq). rewrite map_length in L. rewrite map_length. rewrite map_length in L. rewrite L, (Permutation_length P), seq_length, same. exact dets_moderate.
  Qed.

  Theorem C89_curve : exists ap precision recall ranked,
    f_compute_auc_ap argsort ms ss n_gt = Ok (ap, precision, recall) /\ ranking (map verdict ms) ss ranked /\
    List.length precision = List.length ranked /\ List.length recall = List.length ranked /\
    (forall j, (j < List.length ranked)%nat ->
       rounds_to (recall_at ranked n_gt j) (get j recall) /\ 0 <= get j recall <= 1 /\
       double (get j precision) /\ 0 <= get j precision <= 1) /\
    (forall i j, (i <= j < List.length ranked)%nat -> get i recall <= get j recall /\ get j precision <= get i precision) /\
    (exists raw, (forall j, (j < List.length ranked)%nat -> computed_precision ranked j (raw j)) /\
       forall i, (i < List.length ranked)%nat -> is_max (List.length ranked) (fun j => (i <= j)%nat) raw (get i precision)).
  Proof.
    destruct call as (sorted & E & R & Sm & Ct). set (ranked := map verdict sorted) in *.
    assert (Le : (correct_upto (List.length ranked) ranked <= n_gt)%nat) by lia.
    set (p := fst (f_basic_pr sorted n_gt)). set (r := snd (f_basic_pr sorted n_gt)).
    exists (area sorted n_gt), (env p), r, ranked. split.
    { unfold f_compute_auc_ap. rewrite E. cbn [bind]. rewrite (surjective_pairing (f_basic_pr sorted n_gt)). exact (area_eq sorted n_gt). }
    assert (Lp : List.length p = List.length ranked) by apply f_prec_length. assert (Lr : List.length r = List.length ranked) by apply f_rec_length.
    split; [exact R|]. split; [rewrite env_length; exact Lp|]. split; [exact Lr|]. split; [|split].
    - intros j H. split; [|split; [|split]].
      + assert (Q := r_round sorted n_gt n_pos Sm gts_moderate j H). fold r ranked in Q. apply rounds_to_eq, Q.
      + apply r_01; assumption.
      + apply env_double; [|rewrite Lp; exact H]. intros i Hi. rewrite Lp in Hi. apply p_double; assumption.
      + apply e_01; assumption.
    - intros i j [H1 H2]. split; [apply r_mono; assumption|].
      destruct (env_is_max p i) as [_ M]; [rewrite Lp; lia|]. destruct (env_is_max p j) as [(k & K1 & K2 & K3) _]; [rewrite Lp; lia|]. rewrite K3. apply M; [exact K1|lia].
    - exists (fun j => get j p). split.
      + intros [|j] H; cbn [computed_precision].
        * apply p_first; assumption.
        * assert (Q := p_later sorted n_gt n_pos Sm (S j) ltac:(fold ranked; lia)). fold p ranked in Q. apply rounds_to_eq, Q.
      + intros i H. rewrite <- Lp. apply env_is_max. rewrite Lp. exact H.
  Qed.

  (** The value: a double, not negative, zero only without a correct detection, and near
      the exact average precision. *)
  Theorem C89_average_precision : exists ap precision recall ranked exact,
    f_compute_auc_ap argsort ms ss n_gt = Ok (ap, precision, recall) /\ ranking (map verdict ms) ss ranked /\
    exact_ap ranked n_gt exact /\ 0 <= exact <= 1 /\
    double ap /\ 0 <= ap /\ (ap == 0 <-> n_correct ms = 0%nat) /\
    Qabs (ap - exact) <= Qnat (n_correct ms) * 2 ^ (-49).
  Proof.
    destruct call as (sorted & E & R & Sm & Ct). set (ranked := map verdict sorted) in *.
    assert (Le : (correct_upto (List.length ranked) ranked <= n_gt)%nat) by lia.
    set (p := fst (f_basic_pr sorted n_gt)). set (r := snd (f_basic_pr sorted n_gt)).
    exists (area sorted n_gt), (env p), r, ranked, (tail_area sorted n_gt 0).
    destruct (area_inv sorted n_gt n_pos Sm gts_moderate Le) as (A1 & A2 & A3 & A4 & A5).
    assert (F0 : correct_from sorted 0 = n_correct ms). { unfold correct_from. rewrite correct_upto_0, Nat.sub_0_r. exact Ct. }
    rewrite F0 in *. split; [|split; [exact R|split; [|split; [|split; [exact A1|split; [exact A2|split]]]]]].
    - unfold f_compute_auc_ap. rewrite E. cbn [bind]. rewrite (surjective_pairing (f_basic_pr sorted n_gt)). exact (area_eq sorted n_gt).
    - unfold tail_area. cbn [skipn]. apply exact_ap_tp_sum; [exact n_pos|rewrite env_length, map_length, seq_length; reflexivity|].
      fold ranked. intros i Hi. assert (Ql := q_length sorted). cbv zeta in Ql. fold ranked in Ql.
      eapply is_max_ext with (f := fun j => get j (map (exact_precision ranked) (seq 0 (List.length ranked)))); [intros; reflexivity| |].
      + intros j Hj. assert (Qg := q_get sorted j Hj). cbv zeta in Qg. fold ranked in Qg. rewrite Qg. reflexivity.
      + rewrite <- Ql at 1. apply env_is_max. rewrite Ql. exact Hi.
    - split; [apply (tail_le sorted n_gt n_pos Le (List.length ranked) 0); reflexivity|]. apply tail_1; try assumption. lia.
    - split; [|exact A4]. intro Z. destruct (n_correct ms) eqn:C; [reflexivity|]. assert (X := A5 ltac:(lia)). assert (P := two_pos (-98)). lra.
    - eapply Qle_trans; [exact A3|]. rewrite Qmult_comm, Qmult_assoc. rewrite (Qmult_comm (Qnat _ * 12)). 
      assert (E49 : 2 ^ (-49) == 16 * u) by (vm_compute; reflexivity). rewrite E49. assert (U := u_pos). assert (N0 := Qnat_nonneg (n_correct ms)).
      assert (0 <= u * Qnat (n_correct ms)) by (apply Qmult_le_0_compat; lra). lra.
  Qed.

  (** With area_under_curve=False: the mean of precisions is in [0,1], for any order in
      which numpy adds, and near the exact mean of the same precisions. *)
  Theorem C89_sampled : forall samples interp tree precision recall,
    f_compute_pr argsort ms ss n_gt samples interp = Ok (precision, recall) ->
    Permutation (entries tree) (seq 0 (List.length precision)) -> moderate (List.length precision) ->
    exists m, f_sampled_ap argsort tree ms ss n_gt samples interp = Ok m /\
      double m /\ 0 <= m <= 1 /\ Qabs (m - Qsum precision / Qnat (List.length precision)) <= Qnat (List.length precision) * 2 ^ (-52).
  Proof.
    intros samples interp tree precision recall E P M. exists (f_mean tree precision).
    split; [unfold f_sampled_ap; rewrite E; reflexivity|]. apply f_mean_ok; [|exact P|unfold moderate in M; lia].
    unfold f_compute_pr in E. destruct call as (sorted & Es & _ & Sm & Ct). rewrite Es in E. cbn [bind] in E.
    rewrite (surjective_pairing (f_basic_pr sorted n_gt)) in E. set (p := fst (f_basic_pr sorted n_gt)) in *. set (r := snd (f_basic_pr sorted n_gt)) in *.
    set (p' := if interp then interp_loop (List.length p - 1) p else p) in *.
    assert (Lp : List.length p = List.length (map verdict sorted)) by apply f_prec_length.
    assert (B : forall j, (j < List.length p')%nat -> 0 <= get j p' <= 1).
    { unfold p'. destruct interp.
      - rewrite interp_loop_env. intros j H. rewrite env_length in H. apply env_bounds; [|exact H]. intros i Hi. apply p_01; [exact n_pos|exact Sm|rewrite <- Lp; exact Hi].
      - intros j H. apply p_01; [exact n_pos|exact Sm|rewrite <- Lp; exact H]. }
    destruct samples as [s|]; apply (f_equal (fun z => match z with Ok (a, _) => a | Err _ => [] end)) in E; cbn [fst] in E.
    - subst precision. intros x I. unfold sample_precision in I. apply in_map_iff in I. destruct I as (s0 & <- & _). cbv zeta.
      destruct (Nat.ltb (searchsorted r s0) (List.length p')) eqn:L; [apply B, Nat.ltb_lt, L|lra].
    - subst precision. intros x I. apply In_nth with (d := 0) in I. destruct I as (j & Hj & <-). apply B, Hj.
  Qed.
End Call.

(** "AP is at most 1" fails in doubles: nine correct detections of nine objects. *)
Definition nine (x : Z) : list Z := repeat x 9.
Definition scores9 : list Q := [9; 8; 7; 6; 5; 4; 3; 2; 1].
Theorem C89_at_most_one_refuted :
  exists argsort ms ss n_gt ap precision recall, argsort_ok argsort /\ List.length ss = List.length ms /\ n_correct ms = n_gt /\
    f_compute_auc_ap argsort ms ss n_gt = Ok (ap, precision, recall) /\ ap == 1 + 2 ^ (-52).
Proof.
  exists stable_argsort, (nine 1), scores9, 9%nat. do 3 eexists. split; [apply stable_argsort_ok|]. split; [reflexivity|]. split; [reflexivity|].
  split; [vm_compute; reflexivity|]. vm_compute. reflexivity.
Qed.
(** "A perfect submission gets 1" fails too: one correct detection of one object. *)
Theorem C89_perfect_is_one_refuted :
  exists argsort ms ss n_gt ap precision recall, argsort_ok argsort /\ List.length ss = List.length ms /\ n_correct ms = n_gt /\ n_correct ms = List.length ms /\
    f_compute_auc_ap argsort ms ss n_gt = Ok (ap, precision, recall) /\ ap == 1 - 2 ^ (-52).
Proof.
  exists stable_argsort, [1%Z], [1], 1%nat. do 3 eexists. split; [apply stable_argsort_ok|]. split; [reflexivity|]. split; [reflexivity|]. split; [reflexivity|].
  split; [vm_compute; reflexivity|]. vm_compute. reflexivity.
Qed.

(** * Thresholds and recall samples *)

Theorem C90_default_thresholds :
  List.length default_thresholds = 11%nat /\
  forall i, (i <= 10)%nat ->
    if Nat.eqb i 7 then rounds_to (3 # 5) (nth i default_thresholds 0 - 2 ^ (-53))
    else rounds_to (Qnat (5 + i) / 20) (nth i default_thresholds 0).
Proof.
  split; [reflexivity|]. intros i H.
  do 11 (destruct i as [|i]; [cbn [Nat.eqb]; apply rounds_to_eq; vm_compute; reflexivity|]). lia.
Qed.

Lemma threshold_cut : forall i a b, (i <= 10)%nat -> (0 < b)%nat -> (Z.of_nat b <= 2 ^ 46)%Z -> (a <= b)%nat ->
  (Qltb (f_ratio a b) (nth i default_thresholds 0) = false <-> reaches_threshold i a b).
Proof.
  intros i a b Hi Hb Sb Hab. rewrite Qltb_ge.
  assert (Near : Qabs (nth i default_thresholds 0 - Qnat (5 + i) / Qnat 20) <= 2 * u).
  { do 11 (destruct i as [|i]; [vm_compute; discriminate|]). lia. }
  destruct (cut _ (5 + i) 20 a b ltac:(lia) Hb Sb Hab Near) as (L & G & E). unfold reaches_threshold.
  destruct (Nat.eqb_spec i 7) as [->|D7].
  - destruct (Nat.lt_trichotomy (20 * a) (12 * b)) as [C|[C|C]].
    + specialize (L C). split; intro; [lra|lia].
    + specialize (E (eq_sym C)). rewrite E. split; [|lia]. intro X. exfalso. revert X. vm_compute. intro X. apply X. reflexivity.
    + specialize (G C). split; intro; [exact C|lra].
  - destruct (Nat.lt_trichotomy (20 * a) ((5 + i) * b)) as [C|[C|C]].
    + specialize (L C). split; intro; [lra|lia].
    + specialize (E (eq_sym C)). rewrite E. split; intro; [lia|]. clear - Hi D7. do 7 (destruct i as [|i]; [vm_compute; discriminate|]). destruct i as [|i]; [contradiction|]. do 3 (destruct i as [|i]; [vm_compute; discriminate|]). lia.
    + specialize (G C). split; intro; [lia|lra].
Qed.
(** The association of evaluator.py 658-661 keeps a pair with overlap a / b at the default
    threshold i exactly when a / b is at least 0.25 + 0.05 i, except that at i = 7 it must
    be above 0.6. *)
Theorem C90_association : forall i a b cache det row gt c,
  (i <= 10)%nat -> (0 < b)%nat -> (Z.of_nat b <= 2 ^ 46)%Z -> (a <= b)%nat ->
  In (det, row) cache -> In (gt, c) row -> c_sim c = f_ratio a b ->
  exists row', In (det, row') (prune (nth i default_thresholds 0) cache) /\ (In (gt, c) row' <-> reaches_threshold i a b).
Proof.
  intros i a b cache det row gt c Hi Hb Sb Hab I1 I2 Ec. exists (filter (fun gc => negb (Qltb (c_sim (snd gc)) (nth i default_thresholds 0))) row).
  split; [unfold prune; apply in_map_iff; exists (det, row); split; [reflexivity|exact I1]|].
  rewrite filter_In. cbn [snd]. rewrite Ec, negb_true_iff, threshold_cut by assumption. tauto.
Qed.
(** So "a pair whose overlap is exactly the threshold is kept" fails for 0.6. *)
Theorem C90_exact_overlap_refuted :
  exists i a b, (i <= 10)%nat /\ Qnat a / Qnat b == (1 # 4) + Qnat i * (1 # 20) /\
    prune (nth i default_thresholds 0) [("d", [("g", mkCorr "d" "g" (f_ratio a b) 1 true)])]%string = [("d", [])]%string.
Proof. exists 7%nat, 3%nat, 5%nat. split; [lia|]. split; [reflexivity|]. vm_compute. reflexivity. Qed.

Lemma sample_cut : forall i a b, (i <= 10)%nat -> (0 < b)%nat -> (Z.of_nat b <= 2 ^ 46)%Z -> (a <= b)%nat ->
  (nth i default_recall_samples 0 <= f_ratio a b <-> reaches_sample i a b).
Proof.
  intros i a b Hi Hb Sb Hab.
  assert (Near : Qabs (nth i default_recall_samples 0 - Qnat i / Qnat 10) <= 2 * u).
  { do 11 (destruct i as [|i]; [vm_compute; discriminate|]). lia. }
  destruct (cut _ i 10 a b ltac:(lia) Hb Sb Hab Near) as (L & G & E). unfold reaches_sample.
  destruct (Nat.eqb i 3 || Nat.eqb i 6 || Nat.eqb i 7) eqn:D.
  - destruct (Nat.lt_trichotomy (10 * a) (i * b)) as [C|[C|C]].
    + specialize (L C). split; intro; [lra|lia].
    + specialize (E (eq_sym C)). rewrite E. split; [|lia]. intro X. exfalso. clear - Hi D X. do 11 (destruct i as [|i]; [first [discriminate D|revert X; vm_compute; intro X; apply X; reflexivity]|]). lia.
    + specialize (G C). split; intro; [exact C|lra].
  - destruct (Nat.lt_trichotomy (10 * a) (i * b)) as [C|[C|C]].
    + specialize (L C). split; intro; [lra|lia].
    + specialize (E (eq_sym C)). rewrite E. split; intro; [lia|]. clear - Hi D. do 11 (destruct i as [|i]; [first [discriminate D|vm_compute; discriminate]|]). lia.
    + specialize (G C). split; intro; [lia|lra].
Qed.
(** The precision reported at the recall sample i: that of the first detection at which the
    recall reaches i / 10 - exceeds it for 0.3, 0.6 and 0.7 - and 0 when there is none. *)
Theorem C90_recall_samples : forall argsort ms ss n_gt interp, argsort_ok argsort ->
  List.length ss = List.length ms -> (0 < n_gt)%nat -> moderate (List.length ms) -> (Z.of_nat n_gt <= 2 ^ 46)%Z -> (n_correct ms <= n_gt)%nat ->
  exists precision recall sampled ranked, ranking (map verdict ms) ss ranked /\
    f_compute_pr argsort ms ss n_gt None interp = Ok (precision, recall) /\
    f_compute_pr argsort ms ss n_gt (Some default_recall_samples) interp = Ok (sampled, default_recall_samples) /\
    List.length precision = List.length ranked /\ List.length sampled = 11%nat /\
    forall i, (i <= 10)%nat ->
      (exists j, (j < List.length ranked)%nat /\ reaches_sample i (correct_upto (S j) ranked) n_gt /\
         (forall k, (k < j)%nat -> ~ reaches_sample i (correct_upto (S k) ranked) n_gt) /\ nth i sampled 0 = nth j precision 0) \/
      ((forall k, (k < List.length ranked)%nat -> ~ reaches_sample i (correct_upto (S k) ranked) n_gt) /\ nth i sampled 0 = 0).
Proof.
  intros argsort ms ss n_gt interp Ha Hl Hn Md Sn Hc.
  destruct (call argsort Ha ms ss n_gt Hl Hn Md Hc) as (sorted & E & R & Sm & Ct). set (ranked := map verdict sorted) in *.
  assert (Le : (correct_upto (List.length ranked) ranked <= n_gt)%nat) by lia. assert (Mn : small n_gt) by (unfold small; lia).
  set (p := fst (f_basic_pr sorted n_gt)). set (r := snd (f_basic_pr sorted n_gt)). set (p' := if interp then interp_loop (List.length p - 1) p else p).
  assert (Lp : List.length p = List.length ranked) by apply f_prec_length. assert (Lr : List.length r = List.length ranked) by apply f_rec_length.
  assert (Lp' : List.length p' = List.length ranked). { unfold p'. destruct interp; [rewrite interp_loop_env, env_length|]; exact Lp. }
  exists p', r, (sample_precision p' r default_recall_samples), ranked. split; [exact R|].
  split; [unfold f_compute_pr; rewrite E; cbn [bind]; rewrite (surjective_pairing (f_basic_pr sorted n_gt)); reflexivity|].
  split; [unfold f_compute_pr; rewrite E; cbn [bind]; rewrite (surjective_pairing (f_basic_pr sorted n_gt)); reflexivity|].
  split; [exact Lp'|]. split; [unfold sample_precision; rewrite map_length; reflexivity|]. intros i Hi.
  assert (Len : (i < List.length default_recall_samples)%nat) by (change (List.length default_recall_samples) with 11%nat; lia).
  set (f := fun s => let k := searchsorted r s in if Nat.ltb k (List.length p') then get k p' else 0).
  assert (Ns : nth i (sample_precision p' r default_recall_samples) 0 = f (nth i default_recall_samples 0)).
  { unfold sample_precision. fold f. rewrite (nth_indep _ 0 (f 0)) by (rewrite map_length; exact Len). apply map_nth. }
  rewrite Ns. set (s := nth i default_recall_samples 0).
  assert (Cut : forall k, (k < List.length ranked)%nat -> (s <= get k r <-> reaches_sample i (correct_upto (S k) ranked) n_gt)).
  { intros k Hk. assert (Rg := f_rec_get sorted n_gt Hn k Hk). fold r ranked in Rg. rewrite Rg. apply sample_cut; try assumption. apply c_le; assumption. }
  destruct (searchsorted_first r s) as (B1 & B2 & B3). unfold f. cbv zeta. destruct (Nat.ltb (searchsorted r s) (List.length p')) eqn:Lt.
  - left. apply Nat.ltb_lt in Lt. rewrite Lp' in Lt. exists (searchsorted r s). split; [exact Lt|]. split; [apply Cut; [exact Lt|apply B3; lia]|]. split; [|reflexivity].
    intros k Hk Rk. apply Cut in Rk; [|lia]. specialize (B2 k Hk). lra.
  - right. apply Nat.ltb_ge in Lt. rewrite Lp' in Lt. split; [|reflexivity]. intros k Hk Rk. apply Cut in Rk; [|exact Hk]. specialize (B2 k ltac:(lia)). lra.
Qed.
(** "The precision at recall 0.3 is that of the first detection with recall 3/10" fails. *)
Theorem C90_recall_sample_refuted :
  exists argsort ms ss n_gt precision recall sampled, argsort_ok argsort /\ List.length ss = List.length ms /\ (n_correct ms <= n_gt)%nat /\
    Qnat (n_correct ms) / Qnat n_gt == 3 # 10 /\
    f_compute_pr argsort ms ss n_gt None true = Ok (precision, recall) /\ last precision 0 == 1 /\
    f_compute_pr argsort ms ss n_gt (Some default_recall_samples) true = Ok (sampled, default_recall_samples) /\ nth 3 sampled 0 == 0.
Proof.
  exists stable_argsort, [1; 1; 1]%Z, [3; 2; 1], 10%nat. do 3 eexists. split; [apply stable_argsort_ok|]. split; [reflexivity|]. split; [vm_compute; lia|]. split; [reflexivity|].
  split; [vm_compute; reflexivity|]. split; [vm_compute; reflexivity|]. split; [vm_compute; reflexivity|]. vm_compute. reflexivity.
Qed.

(** * Cases *)
Example C89_case :
  argsort_ok stable_argsort /\ moderate 3 /\ (n_correct [1; 0; 1]%Z <= 3)%nat /\
  exists ap precision recall, f_compute_auc_ap stable_argsort [1; 0; 1]%Z [3; 2; 1] 3 = Ok (ap, precision, recall) /\
    1 - 2 ^ (-52) == get 0 precision /\ (555 # 1000) < ap < (556 # 1000) /\ ~ ap == 5 # 9.
Proof.
  split; [apply stable_argsort_ok|]. split; [vm_compute; discriminate|]. split; [vm_compute; lia|]. do 3 eexists. split; [vm_compute; reflexivity|].
  vm_compute. repeat split. discriminate.
Qed.
Example C90_case : reaches_threshold 7 4 5 /\ ~ reaches_threshold 7 3 5 /\ reaches_threshold 6 11 20 /\ reaches_sample 2 2 10 /\ ~ reaches_sample 3 3 10.
Proof. unfold reaches_threshold, reaches_sample. cbn. repeat split; lia. Qed.

Print Assumptions C89_rounding.
Print Assumptions C89_operations.
Print Assumptions C89_curve.
Print Assumptions C89_average_precision.
Print Assumptions C89_sampled.
Print Assumptions C89_at_most_one_refuted.
Print Assumptions C89_perfect_is_one_refuted.
Print Assumptions C90_default_thresholds.
Print Assumptions C90_association.
Print Assumptions C90_exact_overlap_refuted.
Print Assumptions C90_recall_samples.
Print Assumptions C90_recall_sample_refuted.
