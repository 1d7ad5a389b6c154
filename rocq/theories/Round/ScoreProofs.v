(** The scores in double arithmetic against the scores over the rationals. *)
From Coq Require Import List Bool String QArith Qabs ZArith Lia Lqa Arith Permutation.
From Verif.Base Require Import Py PyFacts Sort.
From Verif.Assoc Require Import Model Spec Proofs.
From Verif.AP Require Import Model Spec Proofs Props.
From Verif.Scores Require Import Model Spec Proofs.
From Verif.Round Require Import Model Spec Rounding Proofs Proofs2 Proofs3 Props ScoreModel.
Import ListNotations.
Local Open Scope Q_scope.
Local Close Scope string_scope.

(** * One AP *)
Lemma tp_sum_near : forall n d bs e x, (0 < n)%nat -> 0 <= d -> List.length e = List.length bs -> List.length x = List.length bs ->
  (forall j, (j < List.length bs)%nat -> Qabs (get j e - get j x) <= d) ->
  Qabs (tp_sum n bs e - tp_sum n bs x) <= Qnat (List.length (filter (fun b => b) bs)) * (d / Qnat n).
Proof.
  intros n d bs e x Hn Hd. revert e x. assert (P : 0 < / Qnat n) by (apply Qinv_lt_0_compat, Qnat_pos, Hn).
  induction bs as [|b bs IH]; intros [|a e] [|c x] L1 L2 H; try discriminate L1; try discriminate L2.
  - cbn [tp_sum filter List.length]. apply Qabs_Qle_condition. change (Qnat 0) with 0. split; ring_simplify; apply Qle_refl.
  - cbn [tp_sum]. assert (I := IH e x ltac:(cbn in L1; lia) ltac:(cbn in L2; lia) ltac:(intros j Hj; apply (H (S j)); cbn; lia)).
    assert (H0 := H 0%nat ltac:(cbn; lia)). unfold get in H0. cbn [nth] in H0.
    destruct b; cbn [filter List.length].
    + rewrite Qnat_S. assert (D : Qabs (a / Qnat n - c / Qnat n) <= d / Qnat n).
      { setoid_replace (a / Qnat n - c / Qnat n) with ((a - c) * / Qnat n) by (unfold Qdiv; ring). rewrite Qabs_Qmult, (Qabs_pos (/ Qnat n)) by lra. unfold Qdiv. rewrite (Qmult_le_r _ _ _ P). exact H0. }
      apply Qabs_Qle_condition in I. apply Qabs_Qle_condition in D. apply Qabs_Qle_condition. lra.
    + setoid_replace (0 + tp_sum n bs e - (0 + tp_sum n bs x)) with (tp_sum n bs e - tp_sum n bs x) by ring. exact I.
Qed.

Lemma raw_near : forall ranked j, Qabs (raw_precision ranked j - exact_precision ranked j) <= 2 * u.
Proof.
  intros ranked j. unfold raw_precision, exact_precision. set (t := Qnat (correct_upto (S j) ranked)). set (k := Qnat (S j)).
  assert (Pk : 0 < k) by (apply Qnat_pos; lia). assert (E := eps_pos). assert (T0 : 0 <= t) by apply Qnat_nonneg. assert (Tk : t <= k) by (apply Qnat_le, correct_upto_le).
  assert (K1 : 1 <= k) by (change 1 with (Qnat 1); apply Qnat_le; lia).
  assert (Eu : 2 * u == epsilon) by (vm_compute; reflexivity). rewrite Eu.
  assert (D : t / k - t / (k + epsilon) == t / k * (epsilon / (k + epsilon))) by (field; lra).
  assert (X : 0 <= t / k <= 1) by (split; [apply Qdiv_nonneg; lra|apply Qdiv_le_1; lra]).
  assert (Y : 0 <= epsilon / (k + epsilon) <= epsilon).
  { split; [apply Qdiv_nonneg; lra|]. apply Qle_shift_div_r; [lra|]. assert (epsilon * 1 <= epsilon * (k + epsilon)) by (rewrite (Qmult_le_l _ _ _ E); lra). lra. }
  rewrite Qabs_Qminus, D. apply Qle_trans with (1 * epsilon); [|lra]. apply prod_le; apply Qabs_Qle_condition; lra.
Qed.

Lemma ap_pair : forall argsort ms ss n_gt, argsort_ok argsort -> List.length ss = List.length ms -> (0 < n_gt)%nat ->
  moderate (List.length ms) -> moderate n_gt -> (n_correct ms <= n_gt)%nat ->
  exists ap p r ap' p' r', compute_auc_ap argsort ms ss n_gt = Ok (ap, p, r) /\ f_compute_auc_ap argsort ms ss n_gt = Ok (ap', p', r') /\
    double ap' /\ 0 <= ap' <= 2 /\ Qabs (ap' - ap) <= Qnat (n_correct ms + 1) * 2 ^ (-49) /\ (ap' == 0 <-> n_correct ms = 0%nat).
Proof.
  intros argsort ms ss n_gt Ha Hl Hn Md Mn Hc.
  destruct (call argsort Ha ms ss n_gt Hl Hn Md Hc) as (sorted & Es & R & Sm & Ct). set (ranked := map verdict sorted) in *.
  assert (Le : (correct_upto (List.length ranked) ranked <= n_gt)%nat) by lia.
  destruct (basic_pr sorted n_gt) as [p r] eqn:Eb. destruct (auc_value sorted n_gt p r Hn Eb) as (ap & Ev & Eap).
  exists ap, (env p), r, (area sorted n_gt), (env (fst (f_basic_pr sorted n_gt))), (snd (f_basic_pr sorted n_gt)).
  split; [unfold compute_auc_ap; rewrite Es; cbn [bind]; rewrite Eb; exact Ev|].
  split; [unfold f_compute_auc_ap; rewrite Es; cbn [bind]; rewrite (surjective_pairing (f_basic_pr sorted n_gt)); exact (area_eq sorted n_gt)|].
  destruct (area_inv sorted n_gt Hn Sm Mn Le) as (A1 & A2 & A3 & A4 & A5).
  assert (F0 : correct_from sorted 0 = n_correct ms). { unfold correct_from. rewrite correct_upto_0, Nat.sub_0_r. exact Ct. }
  rewrite F0 in *. split; [exact A1|].
  assert (U := u_pos). assert (US := u_small). assert (E49 : 2 ^ (-49) == 16 * u) by (vm_compute; reflexivity).
  assert (Lp : List.length p = List.length ranked) by (change p with (fst (p, r)); rewrite <- Eb; apply prec_length).
  assert (Nr : Qabs (tail_area sorted n_gt 0 - ap) <= 2 * u).
  { rewrite Eap. unfold tail_area. cbn [skipn]. fold ranked. set (q := map (exact_precision ranked) (seq 0 (List.length ranked))).
    assert (Lq : List.length q = List.length ranked) by (unfold q; rewrite map_length, seq_length; reflexivity).
    assert (T := tp_sum_near n_gt (2 * u) ranked (env q) (env p) Hn ltac:(lra) ltac:(rewrite env_length; exact Lq) ltac:(rewrite env_length; exact Lp)).
    assert (H : forall j, (j < List.length ranked)%nat -> Qabs (get j (env q) - get j (env p)) <= 2 * u).
    { intros j Hj. apply env_near; [rewrite Lq, Lp; reflexivity|lra| |rewrite Lq; exact Hj]. intros i Hi. rewrite Lq in Hi.
      assert (Qg := q_get sorted i Hi). cbv zeta in Qg. fold ranked in Qg. fold q in Qg. rewrite Qg.
      assert (Pg := prec_get sorted n_gt Hn i Hi). rewrite Eb in Pg. cbn [fst] in Pg. fold ranked in Pg. rewrite Pg, Qabs_Qminus. apply raw_near. }
    specialize (T H). eapply Qle_trans; [exact T|]. rewrite <- correct_total, Ct. unfold Qdiv.
    assert (P : 0 < / Qnat n_gt) by (apply Qinv_lt_0_compat, Qnat_pos, Hn).
    apply Qle_trans with (Qnat n_gt * (2 * u * / Qnat n_gt)); [apply Qmult_le_compat_r; [apply Qnat_le; exact Hc|apply Qmult_le_0_compat; lra]|].
    setoid_replace (Qnat n_gt * (2 * u * / Qnat n_gt)) with (2 * u) by (field; assert (X := Qnat_pos n_gt Hn); lra). lra. }
  assert (N0 := Qnat_nonneg (n_correct ms)). assert (T1 := tail_1 sorted n_gt Hn Le 0 ltac:(lia)).
  assert (Un : u * Qnat (n_correct ms) <= 1 # 32).
  { eapply Qle_trans; [|apply US]. rewrite (Qmult_le_l _ _ _ U). apply small_Q. eapply small_le; [exact Hc|exact Mn]. }
  assert (Un0 : 0 <= u * Qnat (n_correct ms)) by (apply Qmult_le_0_compat; lra).
  apply Qabs_Qle_condition in A3. apply Qabs_Qle_condition in Nr.
  assert (A3' : - (12 * (u * Qnat (n_correct ms))) <= area sorted n_gt - tail_area sorted n_gt 0 <= 12 * (u * Qnat (n_correct ms))) by lra.
  split; [|split].
  - split; [exact A2|]. lra.
  - rewrite Qnat_plus, E49. change (Qnat 1) with 1. apply Qabs_Qle_condition. lra.
  - split; [|exact A4]. intro Z. destruct (n_correct ms) eqn:C; [reflexivity|]. assert (X := A5 ltac:(lia)). assert (P := two_pos (-98)). lra.
Qed.

(** * Means of values up to 2 *)
Lemma f_sum_range2 : forall t l, (forall i, In i (entries t) -> 0 <= get i l <= 2) -> (Z.of_nat (List.length (entries t)) <= 2 ^ 52)%Z ->
  0 <= f_sum t l <= 2 * Qnat (List.length (entries t)).
Proof.
  induction t as [i|a IHa b IHb]; intros l H S; cbn [f_sum entries] in *.
  - assert (X := H i (or_introl eq_refl)). change (Qnat (List.length [i])) with 1. lra.
  - rewrite app_length in *. destruct (IHa l) as [A1 A2]; [intros; apply H, in_or_app; left; assumption|lia|].
    destruct (IHb l) as [B1 B2]; [intros; apply H, in_or_app; right; assumption|lia|].
    split; [apply round_nonneg; lra|]. unfold fadd. set (n := (List.length (entries a) + List.length (entries b))%nat) in *.
    assert (D : double (2 * Qnat n)). { eapply double_wd; [|apply (double_int (2 * Z.of_nat n)); lia]. rewrite inject_Z_mult. reflexivity. }
    rewrite <- (round_fixed _ D). apply round_le. unfold n. rewrite Qnat_plus. lra.
Qed.
Lemma f_sum_error2 : forall t l K, (forall i, In i (entries t) -> 0 <= get i l <= 2) -> (List.length (entries t) <= K)%nat -> (Z.of_nat K <= 2 ^ 52)%Z ->
  Qabs (f_sum t l - tree_sum t l) <= (Qnat (List.length (entries t)) - 1) * (u * (2 * Qnat K) + tiny).
Proof.
  assert (U := u_pos). assert (T := tiny_pos).
  induction t as [i|a IHa b IHb]; intros l K H S S2; unfold tree_sum in *; cbn [f_sum entries] in *.
  - cbn [map Qsum fold_right List.length]. setoid_replace (get i l - (get i l + 0)) with 0 by ring. change (Qabs 0) with 0. change (Qnat 1) with 1. lra.
  - rewrite app_length in *. rewrite map_app, Qsum_app, Qnat_plus.
    assert (Ha : forall i, In i (entries a) -> 0 <= get i l <= 2) by (intros; apply H, in_or_app; left; assumption).
    assert (Hb : forall i, In i (entries b) -> 0 <= get i l <= 2) by (intros; apply H, in_or_app; right; assumption).
    assert (Ea := IHa l K Ha ltac:(lia) S2). assert (Eb := IHb l K Hb ltac:(lia) S2).
    assert (Ra := f_sum_range2 a l Ha ltac:(lia)). assert (Rb := f_sum_range2 b l Hb ltac:(lia)).
    assert (KK : Qnat (List.length (entries a)) + Qnat (List.length (entries b)) <= Qnat K) by (rewrite <- Qnat_plus; apply Qnat_le; lia).
    assert (B : Qabs (f_sum a l + f_sum b l) <= 2 * Qnat K) by (apply Qabs_Qle_condition; lra).
    assert (E := error _ _ B). unfold fadd. set (c := u * (2 * Qnat K) + tiny) in *.
    apply Qabs_Qle_condition in Ea. apply Qabs_Qle_condition in Eb. apply Qabs_Qle_condition in E. apply Qabs_Qle_condition.
    setoid_replace ((Qnat (List.length (entries a)) + Qnat (List.length (entries b)) - 1) * c) with ((Qnat (List.length (entries a)) - 1) * c + (Qnat (List.length (entries b)) - 1) * c + c) by ring. lra.
Qed.
Lemma f_mean_ok2 : forall t l, (forall x, In x l -> 0 <= x <= 2) -> Permutation (entries t) (seq 0 (List.length l)) -> (Z.of_nat (List.length l) <= 2 ^ 52)%Z ->
  double (f_mean t l) /\ 0 <= f_mean t l /\ Qabs (f_mean t l - Qsum l / Qnat (List.length l)) <= Qnat (List.length l) * (4 * u).
Proof.
  intros t l H P S. assert (Ln : List.length (entries t) = List.length l) by (rewrite (Permutation_length P), seq_length; reflexivity).
  assert (Hi : forall i, In i (entries t) -> 0 <= get i l <= 2). { intros i I. apply H. unfold get. apply nth_In. apply (Permutation_in _ P) in I. apply in_seq in I. lia. }
  assert (R := f_sum_range2 t l Hi ltac:(lia)). assert (E := f_sum_error2 t l (List.length l) Hi ltac:(lia) S). rewrite (tree_sum_all t l P) in E. rewrite Ln in *.
  assert (Np := entries_ne t). rewrite Ln in Np. assert (Nq := Qnat_pos _ Np). assert (N1 : 1 <= Qnat (List.length l)) by (change 1 with (Qnat 1); apply Qnat_le; lia).
  unfold f_mean. set (n := Qnat (List.length l)) in *. split; [apply round_double|].
  assert (Ef : fdiv (f_sum t l) (of_int (List.length l)) == round (f_sum t l / n)) by (unfold fdiv; apply round_wd; rewrite of_int_eq by lia; reflexivity).
  rewrite Ef. assert (X : 0 <= f_sum t l / n <= 2) by (split; [apply Qdiv_nonneg; lra|apply Qle_shift_div_r; lra]).
  split; [apply round_nonneg, X|]. assert (X2 : Qabs (f_sum t l / n) <= 2) by (apply Qabs_Qle_condition; lra).
  assert (Er := error _ 2 X2). assert (U := u_pos). assert (T := tiny_pos). assert (TS := tiny_small).
  assert (Dv : Qabs (f_sum t l / n - Qsum l / n) <= (n - 1) * (2 * u + tiny)).
  { setoid_replace (f_sum t l / n - Qsum l / n) with ((f_sum t l - Qsum l) * / n) by (unfold Qdiv; ring). rewrite Qabs_Qmult.
    assert (I : 0 < / n) by (apply Qinv_lt_0_compat; exact Nq). rewrite (Qabs_pos (/ n)) by lra.
    apply Qle_trans with ((n - 1) * (u * (2 * n) + tiny) * / n); [rewrite (Qmult_le_r _ _ _ I); exact E|].
    setoid_replace ((n - 1) * (u * (2 * n) + tiny) * / n) with ((n - 1) * (2 * u + tiny * / n)) by (field; lra).
    rewrite !(Qmult_comm (n - 1)). apply Qmult_le_compat_r; [|lra]. assert (In1 : / n <= 1). { setoid_replace (/ n) with (1 / n) by (unfold Qdiv; ring). apply Qdiv_le_1; lra. }
    assert (tiny * / n <= tiny * 1) by (rewrite (Qmult_le_l _ _ _ T); exact In1). lra. }
  apply Qabs_Qle_condition in Dv. apply Qabs_Qle_condition in Er. apply Qabs_Qle_condition.
  assert (Hb : (n - 1) * (2 * u + tiny) + (2 * u + tiny) <= n * (4 * u)). { setoid_replace ((n - 1) * (2 * u + tiny) + (2 * u + tiny)) with (n * (2 * u + tiny)) by ring. rewrite (Qmult_le_l _ _ _ Nq). lra. }
  lra.
Qed.
Lemma Qsum_near : forall d l m, Forall2 (fun a b => Qabs (b - a) <= d) l m -> Qabs (Qsum m - Qsum l) <= Qnat (List.length l) * d.
Proof.
  intros d l m F. induction F as [|a b l m H F IH]; cbn [Qsum fold_right List.length]; [change (Qnat 0) with 0; setoid_replace (0 - 0) with 0 by ring; change (Qabs 0) with 0; lra|].
  fold (Qsum l) (Qsum m). rewrite Qnat_S. apply Qabs_Qle_condition in H. apply Qabs_Qle_condition in IH. apply Qabs_Qle_condition. lra.
Qed.

(** * Lists of APs *)
Definition near_ap (d a b : Q) : Prop := Qabs (b - a) <= d /\ 0 <= b <= 2.
Lemma F2_length : forall A B (R : A -> B -> Prop) l m, Forall2 R l m -> List.length l = List.length m.
Proof. induction 1; simpl; congruence. Qed.
Lemma F2_app : forall A B (R : A -> B -> Prop) l m l' m', Forall2 R l m -> Forall2 R l' m' -> Forall2 R (l ++ l') (m ++ m').
Proof. induction 1; intros; simpl; [assumption|constructor; auto]. Qed.
Lemma mean_pair : forall order d aps aps', (forall n, (0 < n)%nat -> Permutation (entries (order n)) (seq 0 n)) ->
  Forall2 (near_ap d) aps aps' -> (Z.of_nat (List.length aps) <= 2 ^ 48)%Z ->
  (np_mean aps = None /\ f_np_mean order aps' = None) \/
  (exists s s', np_mean aps = Some s /\ f_np_mean order aps' = Some s' /\ double s' /\ 0 <= s' /\ Qabs (s' - s) <= d + Qnat (List.length aps) * (4 * u)).
Proof.
  intros order d aps aps' O F S. assert (L := F2_length _ _ _ _ _ F). destruct aps' as [|b aps'].
  - destruct aps; [left; split; reflexivity|discriminate].
  - right. destruct aps as [|a aps]; [discriminate|]. set (l := a :: aps) in *. set (m := b :: aps') in *. exists (Qsum l / Qnat (List.length l)), (f_mean (order (List.length m)) m).
    split; [reflexivity|]. split; [reflexivity|].
    destruct (f_mean_ok2 (order (List.length m)) m) as (D & P & E); [|apply O; unfold m; simpl; lia|rewrite <- L; lia|].
    { intros x I. clear - F I. induction F as [|y z l' m' H F IH]; [destruct I|]. destruct I as [<-|I]; [apply H|apply IH, I]. }
    split; [exact D|]. split; [exact P|]. rewrite <- L in *.
    assert (Sn : Qabs (Qsum m - Qsum l) <= Qnat (List.length l) * d).
    { apply Qsum_near. clear - F. induction F as [|y z l' m' H F IH]; constructor; [apply H|exact IH]. }
    assert (Np : 0 < Qnat (List.length l)) by (apply Qnat_pos; unfold l; simpl; lia). set (n := Qnat (List.length l)) in *.
    assert (Sd : Qabs (Qsum m / n - Qsum l / n) <= d).
    { setoid_replace (Qsum m / n - Qsum l / n) with ((Qsum m - Qsum l) * / n) by (unfold Qdiv; ring). rewrite Qabs_Qmult.
      assert (I : 0 < / n) by (apply Qinv_lt_0_compat; exact Np). rewrite (Qabs_pos (/ n)) by lra.
      apply Qle_trans with (n * d * / n); [rewrite (Qmult_le_r _ _ _ I); exact Sn|]. setoid_replace (n * d * / n) with d by (field; lra). lra. }
    apply Qabs_Qle_condition in E. apply Qabs_Qle_condition in Sd. apply Qabs_Qle_condition. lra.
Qed.

(** * The loops *)
(** What one iteration appends, with and without rounding. *)
Definition step_rel (d : Q) (f : res (list (option Q))) (g : res (list Q)) : Prop :=
  exists aps aps', f = Ok (map Some aps) /\ g = Ok aps' /\ Forall2 (near_ap d) aps aps'.
Lemma mapM_pair : forall A d (f : A -> res (list (option Q))) (g : A -> res (list Q)) k l,
  (forall x, In x l -> step_rel d (f x) (g x)) -> (forall x r, In x l -> f x = Ok r -> (List.length r <= k)%nat) ->
  exists aps aps' rs rs', mapM f l = Ok rs /\ mapM g l = Ok rs' /\ List.concat rs = map Some aps /\ List.concat rs' = aps' /\
    Forall2 (near_ap d) aps aps' /\ (List.length aps <= List.length l * k)%nat.
Proof.
  intros A d f g k l. induction l as [|x l IH]; intros H K.
  - exists [], [], [], []. repeat split; try reflexivity. constructor.
  - destruct IH as (aps & aps' & rs & rs' & E1 & E2 & C1 & C2 & F & L); [intros; apply H; right; assumption|intros; eapply K; [right|]; eassumption|].
    destruct (H x (or_introl eq_refl)) as (a & a' & Ea & Ea' & Fa). assert (La := K x _ (or_introl eq_refl) Ea). rewrite map_length in La.
    exists (a ++ aps), (a' ++ aps'), (map Some a :: rs), (a' :: rs'). cbn [mapM]. rewrite Ea, Ea', E1, E2. cbn [bind List.concat]. rewrite C1, C2, map_app, app_length.
    repeat split; try reflexivity; [apply F2_app; assumption|cbn [List.length]; lia].
Qed.

Lemma in_combine_map : forall A B (f : A -> B) l a b, In (a, b) (combine l (map f l)) -> b = f a.
Proof. induction l as [|c l IH]; intros a b I; [destruct I|]. destruct I as [I|I]; [injection I as <- <-; reflexivity|apply IH, I]. Qed.

Section Scenes.
  Context {A : Type}.
  Variable sim : elem A -> elem A -> Q.
  Variable argsort : list Q -> list nat.
  Hypothesis sorts : argsort_ok argsort.

  Lemma det_vectors_le : forall assoc (ds : list (elem A)), (List.length (fst (det_vectors assoc ds)) <= List.length ds)%nat.
  Proof.
    intros assoc ds. induction ds as [|d ds IH]; [simpl; lia|]. rewrite det_vectors_cons. cbn [fst]. rewrite app_length, map_length. cbn [List.length].
    assert (List.length (det_entry assoc d) <= 1)%nat; [|lia]. unfold det_entry. destruct (sget (e_id d) assoc) as [c|]; [destruct (c_eval c)|]; simpl; lia.
  Qed.
  Lemma step_pair : forall (sub gt : @scene A) t interp N, keyed_by_id sub -> keyed_by_id gt -> (0 < n_evaluated (elements gt))%nat ->
    moderate (List.length (elements sub)) -> (n_evaluated (elements gt) <= N)%nat -> moderate N ->
    let '(ms, ss) := det_vectors (assoc_at sim sub gt t) (dvalues sub) in
    step_rel (Qnat (N + 1) * 2 ^ (-49))
      (let* r := compute_ap argsort ms ss (n_evaluated (elements gt)) None interp true in Ok [fst (fst r)])
      (let* r := f_compute_auc_ap argsort ms ss (n_evaluated (elements gt)) in Ok [fst (fst r)]).
  Proof.
    intros sub gt t interp N Kd Kg Hn Md Le Mn. assert (Hc := vectors_count sim sub gt t Kd Kg). assert (Hl := det_vectors_length (assoc_at sim sub gt t) (dvalues sub)).
    assert (Hs := det_vectors_le (assoc_at sim sub gt t) (dvalues sub)). destruct (det_vectors (assoc_at sim sub gt t) (dvalues sub)) as [ms ss]. cbn [fst snd] in *.
    destruct (ap_pair argsort ms ss (n_evaluated (elements gt)) sorts Hl Hn) as (ap & p & r & ap' & p' & r' & E & E' & D & B & Nr & _);
      [eapply small_le; [exact Hs|exact Md]|eapply small_le; [exact Le|exact Mn]|exact Hc|].
    exists [ap], [ap']. split; [unfold compute_ap; rewrite E; reflexivity|]. split; [rewrite E'; reflexivity|]. constructor; [|constructor]. split; [|exact B].
    eapply Qle_trans; [exact Nr|]. apply Qmult_le_compat_r; [apply Qnat_le; lia|vm_compute; discriminate].
  Qed.

  Variables (sub gt : @scene A) (ts : list Q) (cats : list string) (ev : @evaluator A).
  Hypothesis sub_keyed : keyed_by_id sub.
  Hypothesis gt_keyed : keyed_by_id gt.
  Hypothesis built : evaluator_init sim sub gt ts cats = Ok ev.
  Hypothesis sub_moderate : moderate (List.length (elements sub)).
  Let N := n_evaluated (elements gt).
  Hypothesis gt_moderate : moderate N.
  Let d := Qnat (N + 1) * 2 ^ (-49).

  Lemma shape_pair : forall t, In t ts -> step_rel d (shape_step argsort ev t) (f_shape_step argsort ev t).
  Proof.
    intros t Ht. destruct (init_fields sim _ _ _ _ _ built) as (F1 & F2 & F3 & F4). unfold shape_step, f_shape_step, dgetE.
    rewrite (keyed_agnostic sim sub gt ts cats ev t sub_keyed gt_keyed built Ht). cbn [bind]. rewrite F3, F4. change (count_evaluated (dvalues gt)) with N.
    assert (P := step_pair sub gt t true N sub_keyed gt_keyed). destruct (det_vectors _ _) as [ms ss].
    destruct (Nat.ltb_spec 0 N) as [L|L]; [apply P; auto|]. exists [], []. repeat split; constructor.
  Qed.
  Lemma shape_length : forall t r, shape_step argsort ev t = Ok r -> (List.length r <= 1)%nat.
  Proof.
    intros t r. unfold shape_step. destruct (dgetE Qeq_bool t (ev_agnostic ev)); cbn [bind]; [|discriminate]. destruct (det_vectors _ _) as [ms ss].
    destruct (Nat.ltb _ _); [|intro H; injection H as <-; simpl; lia]. destruct (compute_ap _ _ _ _ _ _ _); cbn [bind]; [|discriminate]. intro H; injection H as <-; simpl; lia.
  Qed.

  Lemma category_le : forall c, (n_evaluated (elements (by_category c gt)) <= N)%nat.
  Proof.
    intro c. unfold N, n_evaluated, elements, by_category. clear. induction gt as [|[k e] l IH]; [simpl; lia|]. cbn [filter map snd].
    destruct (String.eqb (e_category e) c); cbn [map snd filter]; destruct (e_evaluated e); cbn [List.length]; simpl in *; lia.
  Qed.
  Lemma category_moderate : forall c, moderate (List.length (elements (by_category c sub))).
  Proof.
    intro c. eapply small_le; [|exact sub_moderate]. unfold elements, by_category. rewrite !map_length. clear. induction sub as [|[k e] l IH]; [simpl; lia|]. cbn [filter snd].
    destruct (String.eqb (e_category e) c); cbn [List.length]; lia.
  Qed.
  Lemma cat_pair : forall t c, step_rel d
    (cat_ap argsort ev (c, det_vectors (assoc_at sim (by_category c sub) (by_category c gt) t) (dvalues (by_category c sub))))
    (f_cat_ap argsort ev (c, det_vectors (assoc_at sim (by_category c sub) (by_category c gt) t) (dvalues (by_category c sub)))).
  Proof.
    intros t c. destruct (init_fields sim _ _ _ _ _ built) as (F1 & F2 & F3 & F4). unfold cat_ap, f_cat_ap. rewrite cat_count_spec, F4.
    assert (P := step_pair (by_category c sub) (by_category c gt) t false N (by_category_keyed sim c sub sub_keyed) (by_category_keyed sim c gt gt_keyed)).
    destruct (det_vectors _ _) as [ms ss]. destruct (Nat.ltb_spec 0 (n_evaluated (elements (by_category c gt)))) as [L|L].
    - apply P; [exact L|apply category_moderate|apply category_le|exact gt_moderate].
    - exists [], []. repeat split; constructor.
  Qed.
  Lemma cat_length : forall cv r, cat_ap argsort ev cv = Ok r -> (List.length r <= 1)%nat.
  Proof.
    intros [c [ms ss]] r. unfold cat_ap. destruct (Nat.ltb _ _); [|intro H; injection H as <-; simpl; lia].
    destruct (compute_ap _ _ _ _ _ _ _); cbn [bind]; [|discriminate]. intro H; injection H as <-; simpl; lia.
  Qed.
  Lemma semantics_pair : forall t, In t ts -> step_rel d (semantics_step argsort ev t) (f_semantics_step argsort ev t) /\
    forall r, semantics_step argsort ev t = Ok r -> (List.length r <= List.length cats)%nat.
  Proof.
    intros t Ht. destruct (init_fields sim _ _ _ _ _ built) as (F1 & F2 & F3 & F4). unfold semantics_step, f_semantics_step. rewrite F2.
    set (v := fun cat => det_vectors (assoc_at sim (by_category cat sub) (by_category cat gt) t) (dvalues (by_category cat sub))).
    rewrite (mapM_Ok _ _ (cat_vectors ev t) v cats) by (intros cat Hc; exact (cat_vectors_ok sim sub gt ts cats ev t cat sub_keyed gt_keyed built Ht Hc)). cbn [bind].
    destruct (mapM_pair _ d (cat_ap argsort ev) (f_cat_ap argsort ev) 1 (combine cats (map v cats))) as (aps & aps' & rs & rs' & E1 & E2 & C1 & C2 & F & L).
    - intros [c x] I. rewrite (in_combine_map _ _ v cats c x I). exact (cat_pair t c).
    - intros x r _. apply cat_length.
    - rewrite E1, E2. cbn [bind]. rewrite C1, C2. rewrite combine_length, map_length, Nat.min_id in L. split.
      + exists aps, aps'. auto.
      + intros r H. injection H as <-. rewrite map_length. lia.
  Qed.

  Variable order : nat -> sum_tree.
  Hypothesis ordered : forall n, (0 < n)%nat -> Permutation (entries (order n)) (seq 0 n).

  Lemma bound_le : forall k L x, (L <= k)%nat -> x <= d + Qnat L * (4 * u) -> x <= Qnat (N + 1 + k) * 2 ^ (-49).
  Proof.
    intros k L x H B. unfold d in B. rewrite (Qnat_plus (N + 1)). assert (E49 : 2 ^ (-49) == 16 * u) by (vm_compute; reflexivity). rewrite E49 in *.
    assert (U := u_pos). assert (Lk := Qnat_le _ _ H). assert (L0 := Qnat_nonneg L). assert (u * Qnat L <= u * Qnat k) by (rewrite (Qmult_le_l _ _ _ U); exact Lk).
    assert (0 <= u * Qnat L) by (apply Qmult_le_0_compat; lra). lra.
  Qed.

  Lemma shape_near : moderate (List.length ts) ->
    (shape_score argsort ev = Ok None /\ f_shape_score argsort order ev = Ok None) \/
    (exists s s', shape_score argsort ev = Ok (Some s) /\ f_shape_score argsort order ev = Ok (Some s') /\ double s' /\ 0 <= s' /\
       Qabs (s' - s) <= Qnat (N + 1 + List.length ts) * 2 ^ (-49)).
  Proof.
    intro Mt. destruct (init_fields sim _ _ _ _ _ built) as (F1 & F2 & F3 & F4). unfold shape_score, f_shape_score. rewrite F1.
    assert (Lt : List.length (sort_thresholds ts) = List.length ts) by (apply Permutation_length; unfold sort_thresholds; apply Permutation_sym, isort_perm).
    destruct (mapM_pair _ d (shape_step argsort ev) (f_shape_step argsort ev) 1 (sort_thresholds ts)) as (aps & aps' & rs & rs' & E1 & E2 & C1 & C2 & F & L).
    - intros t Ht. apply shape_pair. rewrite sort_thresholds_In in Ht. exact Ht.
    - intros t r _. apply shape_length.
    - rewrite E1, E2. cbn [bind]. rewrite C1, C2, mean_opt_some. rewrite Lt in L. unfold moderate in Mt.
      destruct (mean_pair order d aps aps' ordered F ltac:(lia)) as [[-> ->]|(s & s' & -> & -> & D & P & B)]; [left; split; reflexivity|right].
      exists s, s'. repeat split; try assumption. eapply bound_le; [|exact B]. lia.
  Qed.
  Lemma semantics_near : moderate (List.length ts * List.length cats) ->
    (semantics_score argsort ev = Ok None /\ f_semantics_score argsort order ev = Ok None) \/
    (exists s s', semantics_score argsort ev = Ok (Some s) /\ f_semantics_score argsort order ev = Ok (Some s') /\ double s' /\ 0 <= s' /\
       Qabs (s' - s) <= Qnat (N + 1 + List.length ts * List.length cats) * 2 ^ (-49)).
  Proof.
    intro Mt. destruct (init_fields sim _ _ _ _ _ built) as (F1 & F2 & F3 & F4). unfold semantics_score, f_semantics_score. rewrite F1.
    assert (Lt : List.length (sort_thresholds ts) = List.length ts) by (apply Permutation_length; unfold sort_thresholds; apply Permutation_sym, isort_perm).
    destruct (mapM_pair _ d (semantics_step argsort ev) (f_semantics_step argsort ev) (List.length cats) (sort_thresholds ts)) as (aps & aps' & rs & rs' & E1 & E2 & C1 & C2 & F & L).
    - intros t Ht. apply semantics_pair. rewrite sort_thresholds_In in Ht. exact Ht.
    - intros t r Ht. apply semantics_pair. rewrite sort_thresholds_In in Ht. exact Ht.
    - rewrite E1, E2. cbn [bind]. rewrite C1, C2, mean_opt_some. rewrite Lt in L. unfold moderate in Mt.
      destruct (mean_pair order d aps aps' ordered F ltac:(lia)) as [[-> ->]|(s & s' & -> & -> & D & P & B)]; [left; split; reflexivity|right].
      exists s, s'. repeat split; try assumption. eapply bound_le; [|exact B]. lia.
  Qed.
End Scenes.
