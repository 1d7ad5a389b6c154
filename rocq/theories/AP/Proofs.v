(** Proofs about precision-recall curves and average precision. *)
From Coq Require Import List Bool QArith ZArith Permutation Sorting.Sorted Arith Lia Lqa.
From Verif.Base Require Import Py PyFacts Sort.
From Verif.Assoc Require Import Model Proofs.
From Verif.AP Require Import Model Spec.
Import ListNotations.

(** * Small facts *)
Lemma Qnat_le : forall a b, (a <= b)%nat -> Qnat a <= Qnat b.
Proof. intros a b H. unfold Qnat. rewrite <- Zle_Qle. lia. Qed.

Lemma Qnat_lt : forall a b, (a < b)%nat -> Qnat a < Qnat b.
Proof. intros a b H. unfold Qnat. rewrite <- Zlt_Qlt. lia. Qed.

Lemma Qnat_plus : forall a b, Qnat (a + b) == Qnat a + Qnat b.
Proof. intros a b. unfold Qnat. rewrite Nat2Z.inj_add, inject_Z_plus. reflexivity. Qed.

Lemma Qnat_nonneg : forall a, 0 <= Qnat a.
Proof. intro a. apply (Qnat_le 0 a). lia. Qed.

Lemma Qnat_pos : forall a, (0 < a)%nat -> 0 < Qnat a.
Proof. intros a H. apply (Qnat_lt 0 a H). Qed.

Lemma Qnat_S : forall a, Qnat (S a) == Qnat a + 1.
Proof. intro a. replace (S a) with (a + 1)%nat by lia. rewrite Qnat_plus. reflexivity. Qed.

Lemma eps_pos : 0 < epsilon.
Proof. reflexivity. Qed.

Lemma Qdiv_le : forall a b c, 0 < c -> a <= b -> a / c <= b / c.
Proof. intros a b c Hc H. apply Qmult_le_compat_r; [exact H|]. apply Qlt_le_weak, Qinv_lt_0_compat, Hc. Qed.

Lemma Qdiv_nonneg : forall a b, 0 <= a -> 0 < b -> 0 <= a / b.
Proof. intros a b Ha Hb. apply Qle_shift_div_l; [exact Hb|]. rewrite Qmult_0_l. exact Ha. Qed.

Lemma Qdiv_le_1 : forall a b, 0 < b -> a <= b -> a / b <= 1.
Proof. intros a b Hb H. apply Qle_shift_div_r; [exact Hb|]. rewrite Qmult_1_l. exact H. Qed.

Lemma Qltb_true : forall x y, Qltb x y = true <-> x < y.
Proof.
  intros x y. unfold Qltb. rewrite negb_true_iff. apply Qle_bool_false.
Qed.

Lemma Qltb_false' : forall x y, Qltb x y = false <-> y <= x.
Proof. intros x y. rewrite <- negb_true_iff. apply Qltb_false. Qed.

Lemma get_app1 : forall l m i, (i < List.length l)%nat -> get i (l ++ m) = get i l.
Proof. intros; unfold get; apply app_nth1; assumption. Qed.

Lemma get_app2 : forall l m i, get (List.length l + i) (l ++ m) = get i m.
Proof. intros; unfold get. rewrite app_nth2_plus. reflexivity. Qed.

Lemma upd_app : forall l v x m, upd (List.length l) v (l ++ x :: m) = l ++ v :: m.
Proof. induction l; intros; simpl; [reflexivity|]. rewrite IHl; reflexivity. Qed.

(** * Suffix maxima *)
Fixpoint env (l : list Q) : list Q :=
  match l with
  | [] => []
  | x :: t => (match env t with [] => x | y :: _ => if Qltb x y then y else x end) :: env t
  end.

Lemma env_length : forall l, List.length (env l) = List.length l.
Proof. induction l; simpl; congruence. Qed.

Lemma env_app : forall l m, exists l', env (l ++ m) = l' ++ env m /\ List.length l' = List.length l.
Proof.
  induction l as [|x l IH]; intro m; simpl; [exists []; split; reflexivity|].
  destruct (IH m) as (l' & E & Hl). rewrite E. eexists (_ :: l'); split; [reflexivity|]. simpl; congruence.
Qed.

Lemma env_is_max : forall l i, (i < List.length l)%nat ->
  is_max (List.length l) (fun j => (i <= j)%nat) (fun j => get j l) (get i (env l)).
Proof.
  induction l as [|x t IH]; intros i Hi; [simpl in Hi; lia|].
  destruct i as [|i].
  - simpl. unfold get at 2; simpl. destruct (env t) as [|y e] eqn:E.
    + assert (t = []) by (destruct t; [reflexivity|simpl in E; discriminate]). subst. split.
      * exists 0%nat. repeat split; simpl; auto; try lia; reflexivity.
      * intros j Hj _. simpl in Hj. replace j with 0%nat by lia. unfold get; simpl; lra.
    + assert (Hlen : (0 < List.length t)%nat).
      { rewrite <- env_length, E; simpl; lia. }
      destruct (IH 0%nat Hlen) as [(j & Hj & _ & Ej) Hmax]. unfold get at 1 in Ej; simpl in Ej.
      destruct (Qltb x y) eqn:C.
      * apply Qltb_true in C. split.
        -- exists (S j). simpl. repeat split; try lia. unfold get; simpl. exact Ej.
        -- intros [|k] Hk _; unfold get; simpl; [lra|].
           apply (Hmax k); lia.
      * apply Qltb_false' in C. split.
        -- exists 0%nat. repeat split; try lia; reflexivity.
        -- intros [|k] Hk _; unfold get; simpl; [lra|].
           apply Qle_trans with y; [apply (Hmax k); lia|exact C].
  - simpl in Hi. destruct (IH i ltac:(lia)) as [(j & Hj & Hij & Ej) Hmax].
    split.
    + exists (S j). simpl. repeat split; try lia. unfold get in *; simpl. exact Ej.
    + intros [|k] Hk Hik; [lia|]. unfold get; simpl. apply (Hmax k); simpl in Hk; lia.
Qed.

Lemma interp_step_env : forall l y suf, suf <> [] ->
  interp_step (S (List.length l)) (l ++ y :: env suf) = l ++ env (y :: suf).
Proof.
  intros l y suf Hne. unfold interp_step. rewrite Nat.sub_succ, Nat.sub_0_r.
  destruct suf as [|x suf]; [congruence|]. 
  set (e := env (x :: suf)). assert (He : exists z r, e = z :: r) by (unfold e; simpl; eauto).
  destruct He as (z & r & He).
  assert (G1 : get (List.length l) (l ++ y :: e) = y).
  { rewrite <- (Nat.add_0_r (List.length l)), get_app2. reflexivity. }
  assert (G2 : get (S (List.length l)) (l ++ y :: e) = z).
  { rewrite <- Nat.add_1_r, get_app2. rewrite He. reflexivity. }
  rewrite G1, G2. change (env (y :: x :: suf)) with
    ((match e with [] => y | z :: _ => if Qltb y z then z else y end) :: e).
  rewrite He at 3. destruct (Qltb y z); [rewrite upd_app|]; reflexivity.
Qed.

Lemma interp_loop_env_gen : forall l suf, suf <> [] ->
  interp_loop (List.length l) (l ++ env suf) = env (l ++ suf).
Proof.
  induction l as [|y l IH] using rev_ind; intros suf Hne; [reflexivity|].
  rewrite app_length; simpl. rewrite Nat.add_1_r; simpl.
  rewrite <- app_assoc; simpl. rewrite interp_step_env by exact Hne.
  rewrite IH by discriminate. rewrite <- app_assoc; reflexivity.
Qed.

Lemma interp_loop_env : forall l, interp_loop (List.length l - 1) l = env l.
Proof.
  intro l. destruct l as [|z l'] using rev_ind; [reflexivity|].
  rewrite app_length; simpl. rewrite Nat.add_sub.
  change [z] with (env [z]) at 1. apply interp_loop_env_gen. discriminate.
Qed.

(** Sum accumulated by the AP loop for positions 1..k. *)
Fixpoint incr_sum (k : nat) (p r : list Q) : Q :=
  match k with
  | O => 0
  | S j => get k p * (get k r - get j r) + incr_sum j p r
  end.

Lemma auc_loop_eq : forall l suf r ap, suf <> [] ->
  exists ap', auc_loop (List.length l) (l ++ env suf) r ap = (env (l ++ suf), ap') /\
    ap' == ap + incr_sum (List.length l) (env (l ++ suf)) r.
Proof.
  induction l as [|y l IH] using rev_ind; intros suf r ap Hne.
  - exists ap. simpl. split; [reflexivity|]. lra.
  - rewrite app_length; simpl. rewrite Nat.add_1_r.
    cbn [auc_loop]. rewrite <- app_assoc; cbn [app]. rewrite interp_step_env by exact Hne.
    cbv zeta. rewrite Nat.sub_succ, Nat.sub_0_r.
    destruct (IH (y :: suf) r (ap + get (S (List.length l)) (l ++ env (y :: suf)) *
        (get (S (List.length l)) r - get (List.length l) r)) ltac:(discriminate)) as (ap' & E1 & E2).
    exists ap'. rewrite E1. rewrite <- app_assoc; cbn [app]. split; [reflexivity|].
    rewrite E2. cbn [incr_sum].
    destruct (env_app l (y :: suf)) as (l' & El & Hl). rewrite El.
    assert (G : get (S (List.length l)) (l ++ env (y :: suf)) = get (S (List.length l)) (l' ++ env (y :: suf))).
    { replace (S (List.length l)) with (List.length l + 1)%nat by lia.
      rewrite get_app2. rewrite <- Hl. rewrite get_app2. reflexivity. }
    rewrite G. lra.
Qed.

(** * The raw curve *)
Lemma cumsum_from_length : forall l c, List.length (cumsum_from c l) = List.length l.
Proof. induction l; intro c; simpl; [reflexivity|]. rewrite IHl; reflexivity. Qed.

Lemma cumsum_from_nth : forall l c j, (j < List.length l)%nat ->
  nth j (cumsum_from c l) 0%nat = (c + correct_upto (S j) l)%nat.
Proof.
  induction l as [|b l IH]; intros c j Hj; [simpl in Hj; lia|].
  destruct j as [|j].
  - unfold correct_upto. simpl. destruct b; simpl; lia.
  - cbn [cumsum_from nth]. simpl in Hj. rewrite IH by lia.
    unfold correct_upto. cbn [firstn filter]. destruct b; simpl; lia.
Qed.

Lemma correct_upto_fp : forall l j, (j <= List.length l)%nat ->
  (correct_upto j l + correct_upto j (map negb l) = j)%nat.
Proof.
  unfold correct_upto. induction l as [|b l IH]; intros j Hj; simpl in Hj.
  - replace j with 0%nat by lia. reflexivity.
  - destruct j as [|j]; [reflexivity|]. simpl. specialize (IH j ltac:(lia)).
    destruct b; simpl; lia.
Qed.

Lemma map2_length : forall A B C (f : A -> B -> C) l m,
  List.length l = List.length m -> List.length (map2 f l m) = List.length l.
Proof.
  induction l as [|x l IH]; intros [|y m] H; simpl in *; try discriminate; [reflexivity|].
  rewrite IH by congruence; reflexivity.
Qed.

Lemma map2_nth : forall A B C (f : A -> B -> C) l m i da db dc,
  List.length l = List.length m -> (i < List.length l)%nat ->
  nth i (map2 f l m) dc = f (nth i l da) (nth i m db).
Proof.
  induction l as [|x l IH]; intros [|y m] i da db dc H Hi; simpl in *; try discriminate; try lia.
  destruct i as [|i]; [reflexivity|]. apply IH; lia.
Qed.

Section Curve.
  Variable sorted : list Z.
  Variable n_gt : nat.
  Hypothesis n_pos : (0 < n_gt)%nat.
  Let ranked := map verdict sorted.
  Let N := List.length ranked.

  Lemma prec_length : List.length (fst (basic_pr sorted n_gt)) = N.
  Proof.
    unfold basic_pr; simpl. rewrite map2_length; unfold cumsum; rewrite !cumsum_from_length, !map_length;
    unfold N, ranked; rewrite ?map_length; reflexivity.
  Qed.

  Lemma rec_length : List.length (snd (basic_pr sorted n_gt)) = N.
  Proof.
    unfold basic_pr; simpl. rewrite map_length; unfold cumsum; rewrite cumsum_from_length, map_length.
    unfold N, ranked; rewrite map_length; reflexivity.
  Qed.

  Lemma prec_get : forall j, (j < N)%nat ->
    get j (fst (basic_pr sorted n_gt)) == raw_precision ranked j.
  Proof.
    intros j Hj. unfold basic_pr, get; cbn [fst].
    assert (HN : N = List.length sorted) by (unfold N, ranked; apply map_length).
    rewrite (map2_nth _ _ _ _ _ _ j 0%nat 0%nat);
      [|unfold cumsum; rewrite !cumsum_from_length, !map_length; reflexivity
       |unfold cumsum; rewrite cumsum_from_length, map_length; lia].
    unfold cumsum. rewrite !cumsum_from_nth by (rewrite map_length; lia).
    unfold raw_precision. cbn [Nat.add].
    replace (map (fun m : Z => Z.eqb m 0) sorted) with (map negb ranked).
    2:{ unfold ranked. rewrite map_map. apply map_ext. intro m. unfold verdict. apply negb_involutive. }
    change (map (fun m : Z => negb (Z.eqb m 0)) sorted) with ranked.
    assert (H := correct_upto_fp ranked (S j) ltac:(unfold N in Hj; lia)).
    rewrite <- Qnat_plus. rewrite H. reflexivity.
  Qed.

  Lemma rec_get : forall j, (j < N)%nat ->
    get j (snd (basic_pr sorted n_gt)) = recall_at ranked n_gt j.
  Proof.
    intros j Hj. unfold basic_pr, get; cbn [snd].
    assert (HN : N = List.length sorted) by (unfold N, ranked; apply map_length).
    rewrite (nth_indep _ _ ((fun tp => Qnat tp / Qnat n_gt) 0%nat))
      by (rewrite map_length; unfold cumsum; rewrite cumsum_from_length, map_length; lia).
    rewrite (map_nth (fun tp => Qnat tp / Qnat n_gt)).
    unfold cumsum. rewrite cumsum_from_nth by (rewrite map_length; lia). reflexivity.
  Qed.
End Curve.

(** * Counting *)
Lemma correct_upto_S : forall l j, (j < List.length l)%nat ->
  correct_upto (S j) l = (correct_upto j l + if nth j l false then 1 else 0)%nat.
Proof.
  unfold correct_upto. induction l as [|b l IH]; intros j Hj; simpl in Hj; [lia|].
  destruct j as [|j].
  - destruct b; reflexivity.
  - assert (H := IH j ltac:(lia)). change (firstn (S (S j)) (b :: l)) with (b :: firstn (S j) l).
    change (firstn (S j) (b :: l)) with (b :: firstn j l). cbn [nth].
    destruct b; cbn [List.length filter]; rewrite H; lia.
Qed.

Lemma correct_upto_mono : forall l i j, (i <= j)%nat -> (correct_upto i l <= correct_upto j l)%nat.
Proof.
  unfold correct_upto. induction l as [|b l IH]; intros i j H.
  - rewrite !firstn_nil. lia.
  - destruct i as [|i]; [simpl; lia|]. destruct j as [|j]; [lia|].
    cbn [firstn filter]. specialize (IH i j ltac:(lia)). destruct b; simpl; lia.
Qed.

Lemma correct_upto_0 : forall l, correct_upto 0 l = 0%nat.
Proof. reflexivity. Qed.

Lemma correct_upto_le : forall l j, (correct_upto j l <= j)%nat.
Proof.
  unfold correct_upto. intros l j.
  apply Nat.le_trans with (List.length (firstn j l)); [|rewrite firstn_length; lia].
  generalize (firstn j l) as m. induction m as [|b m IH]; simpl; [lia|]. destruct b; simpl; lia.
Qed.

Lemma correct_upto_all : forall l j, (List.length l <= j)%nat ->
  correct_upto j l = correct_upto (List.length l) l.
Proof. intros l j H. unfold correct_upto. rewrite !firstn_all2 by lia. reflexivity. Qed.

(** * AP as a sum over correct detections *)
Fixpoint tp_sum (n : nat) (bs : list bool) (e : list Q) : Q :=
  match bs, e with
  | b :: bs', x :: e' => (if b then x / Qnat n else 0) + tp_sum n bs' e'
  | _, _ => 0
  end.

Lemma tp_sum_snoc : forall n bs e b x, List.length bs = List.length e ->
  tp_sum n (bs ++ [b]) (e ++ [x]) == tp_sum n bs e + (if b then x / Qnat n else 0).
Proof.
  induction bs as [|c bs IH]; intros [|y e] b x H; simpl in *; try discriminate; [lra|].
  rewrite IH by congruence. lra.
Qed.

Lemma incr_sum_tp : forall n_gt bs e r, (0 < n_gt)%nat ->
  List.length e = List.length bs -> (0 < List.length bs)%nat ->
  (forall j, (j < List.length bs)%nat -> get j r = recall_at bs n_gt j) ->
  get 0 e * get 0 r + incr_sum (List.length bs - 1) e r == tp_sum n_gt bs e.
Proof.
  intros n_gt bs e r Hn Hl Hpos Hr.
  assert (Hgen : forall k, (k < List.length bs)%nat ->
    get 0 e * get 0 r + incr_sum k e r == tp_sum n_gt (firstn (S k) bs) (firstn (S k) e)).
  { induction k as [|k IH]; intro Hk.
    - destruct bs as [|b bs]; [simpl in Hpos; lia|]. destruct e as [|x e]; [discriminate|].
      rewrite Hr by exact Hk. cbn [firstn tp_sum incr_sum]. unfold get, recall_at; cbn [nth].
      assert (Hb : correct_upto 1 (b :: bs) = if b then 1%nat else 0%nat).
      { destruct b; reflexivity. }
      rewrite Hb. destruct b.
      + setoid_replace (Qnat 1) with 1 by reflexivity. unfold Qdiv. lra.
      + setoid_replace (Qnat 0) with 0 by reflexivity. unfold Qdiv. lra.
    - cbn [incr_sum]. rewrite (Hr (S k)) by exact Hk. rewrite (Hr k) by lia.
      specialize (IH ltac:(lia)).
      assert (F : forall A (l : list A) d j, (j < List.length l)%nat -> firstn (S j) l = firstn j l ++ [nth j l d]).
      { clear. induction l as [|x l IHl]; intros d j H; simpl in H; [lia|].
        destruct j as [|j]; [reflexivity|]. cbn [firstn nth app]. rewrite <- (IHl d) by lia. reflexivity. }
      rewrite (F _ bs false (S k)) by exact Hk. rewrite (F _ e 0 (S k)) by lia.
      rewrite tp_sum_snoc by (rewrite !firstn_length; lia).
      rewrite <- IH. unfold recall_at. rewrite (correct_upto_S bs (S k)) by exact Hk.
      fold (get (S k) e). destruct (nth (S k) bs false).
      + rewrite Qnat_plus. setoid_replace (Qnat 1) with 1 by reflexivity. unfold Qdiv. lra.
      + rewrite Nat.add_0_r. unfold Qdiv. lra. }
  rewrite (Hgen (List.length bs - 1)%nat) by lia.
  replace (S (List.length bs - 1)) with (List.length bs) by lia.
  rewrite firstn_all. rewrite <- Hl at 1. rewrite firstn_all. reflexivity.
Qed.

(** The value returned by compute_auc_ap once sorted. *)
Lemma auc_value : forall sorted n_gt p r, (0 < n_gt)%nat ->
  basic_pr sorted n_gt = (p, r) ->
  exists ap,
    (match p with
     | [] => Ok (0, p, r)
     | _ => let '(precision', ap) := auc_loop (List.length p - 1) p r 0 in
            Ok (ap + get 0 precision' * get 0 r, precision', r)
     end) = Ok (ap, env p, r) /\
    ap == tp_sum n_gt (map verdict sorted) (env p).
Proof.
  intros sorted n_gt p r Hn E.
  assert (Hp : List.length p = List.length (map verdict sorted)).
  { change p with (fst (p, r)). rewrite <- E. apply prec_length. }
  destruct p as [|x p].
  - exists 0. split; [reflexivity|].
    destruct (map verdict sorted); [reflexivity|discriminate].
  - destruct (@exists_last _ (x :: p)) as (l & z & El); [discriminate|]. rewrite El in *.
    destruct (auc_loop_eq l [z] r 0 ltac:(discriminate)) as (ap' & E1 & E2).
    cbn [env] in E1. rewrite app_length in *. cbn [List.length] in *.
    replace (List.length l + 1 - 1)%nat with (List.length l) by lia.
    rewrite E1.
    exists (ap' + get 0 (env (l ++ [z])) * get 0 r).
    split; [destruct (l ++ [z]) eqn:C; [destruct l; discriminate|reflexivity]|].
    rewrite E2, Qplus_0_l.
    rewrite <- (incr_sum_tp n_gt (map verdict sorted) (env (l ++ [z])) r Hn).
    + rewrite <- Hp. replace (List.length l + 1 - 1)%nat with (List.length l) by lia. lra.
    + rewrite env_length, app_length; simpl; exact Hp.
    + lia.
    + intros j Hj. change r with (snd (l ++ [z], r)). rewrite <- E. apply rec_get; auto.
Qed.

(** * The specification of AP *)

Lemma is_max_unique : forall n P f q q', is_max n P f q -> is_max n P f q' -> q == q'.
Proof.
  intros n P f q q' [(j & Hj & Pj & E) H] [(j' & Hj' & Pj' & E') H'].
  assert (q <= q') by (rewrite E; apply H'; assumption).
  assert (q' <= q) by (rewrite E'; apply H; assumption). lra.
Qed.

Lemma is_max_ext : forall n (P P' : nat -> Prop) f f' q,
  (forall j, (j < n)%nat -> (P j <-> P' j)) -> (forall j, (j < n)%nat -> f j == f' j) ->
  is_max n P f q -> is_max n P' f' q.
Proof.
  intros n P P' f f' q HP Hf [(j & Hj & Pj & E) H]. split.
  - exists j. repeat split; auto; [apply HP; auto|]. rewrite E; apply Hf; exact Hj.
  - intros k Hk Pk. rewrite <- Hf by exact Hk. apply H; auto. apply HP; auto.
Qed.

Lemma recall_level : forall ranked n_gt k j, (0 < n_gt)%nat ->
  (Qnat k / Qnat n_gt <= recall_at ranked n_gt j <-> (k <= correct_upto (S j) ranked)%nat).
Proof.
  intros ranked n_gt k j Hn. unfold recall_at. assert (Hq := Qnat_pos _ Hn). split; intro H.
  - destruct (le_lt_dec k (correct_upto (S j) ranked)) as [Hle|Hlt]; [exact Hle|].
    exfalso. apply Qnat_lt in Hlt.
    assert (Qnat (correct_upto (S j) ranked) / Qnat n_gt < Qnat k / Qnat n_gt).
    { apply Qmult_lt_compat_r; [apply Qinv_lt_0_compat; exact Hq|exact Hlt]. }
    lra.
  - apply Qdiv_le; [exact Hq|]. apply Qnat_le; exact H.
Qed.

(** The envelope at the position of the k-th correct detection is the best
    precision at recall level k. *)
Lemma level_positions : forall ranked i k j, (i < List.length ranked)%nat ->
  nth i ranked false = true -> correct_upto (S i) ranked = k -> (j < List.length ranked)%nat ->
  ((k <= correct_upto (S j) ranked)%nat <-> (i <= j)%nat).
Proof.
  intros ranked i k j Hi Hb Hk Hj. rewrite correct_upto_S in Hk by exact Hi. rewrite Hb in Hk. split; intro H.
  - destruct (le_lt_dec i j) as [Hle|Hlt]; [exact Hle|exfalso].
    assert (Hm := correct_upto_mono ranked (S j) i ltac:(lia)). lia.
  - assert (Hm := correct_upto_mono ranked (S i) (S j) ltac:(lia)).
    rewrite (correct_upto_S ranked i) in Hm by exact Hi. rewrite Hb in Hm. lia.
Qed.

Lemma Qsum_app : forall l m, Qsum (l ++ m) == Qsum l + Qsum m.
Proof. induction l as [|x l IH]; intro m; simpl; [lra|]. rewrite IH. lra. Qed.

Lemma Qsum_ext : forall (f g : nat -> Q) l, (forall k, In k l -> f k == g k) ->
  Qsum (map f l) == Qsum (map g l).
Proof.
  induction l as [|x l IH]; intro H; simpl; [reflexivity|].
  rewrite (H x) by (left; reflexivity). rewrite IH; [reflexivity|]. intros k Hk; apply H; right; exact Hk.
Qed.

Lemma Qsum_le : forall (f g : nat -> Q) l, (forall k, In k l -> f k <= g k) ->
  Qsum (map f l) <= Qsum (map g l).
Proof.
  induction l as [|x l IH]; intro H; simpl; [lra|].
  assert (f x <= g x) by (apply H; left; reflexivity).
  assert (Qsum (map f l) <= Qsum (map g l)) by (apply IH; intros k Hk; apply H; right; exact Hk). lra.
Qed.

Lemma Qsum_nonneg : forall l, (forall x, In x l -> 0 <= x) -> 0 <= Qsum l.
Proof.
  induction l as [|x l IH]; intro H; simpl; [lra|].
  assert (0 <= x) by (apply H; left; reflexivity).
  assert (0 <= Qsum l) by (apply IH; intros y Hy; apply H; right; exact Hy). lra.
Qed.

Lemma tp_sum_levels : forall ranked n_gt e, (0 < n_gt)%nat ->
  List.length e = List.length ranked ->
  forall best,
  (forall i, (i < List.length ranked)%nat -> nth i ranked false = true ->
     best (correct_upto (S i) ranked) == get i e) ->
  tp_sum n_gt ranked e == Qsum (map best (seq 1 (correct_upto (List.length ranked) ranked))) / Qnat n_gt.
Proof.
  intros ranked n_gt e Hn. revert e.
  induction ranked as [|b ranked IH] using rev_ind; intros e He best Hbest.
  - simpl. destruct e; simpl; unfold Qdiv; lra.
  - destruct e as [|x e _] using rev_ind; [rewrite app_length in He; simpl in He; lia|].
    rewrite !app_length in He; simpl in He.
    rewrite tp_sum_snoc by lia.
    assert (Hc : forall j, (j <= List.length ranked)%nat -> correct_upto j (ranked ++ [b]) = correct_upto j ranked).
    { intros j Hj. unfold correct_upto. rewrite firstn_app.
      replace (j - List.length ranked)%nat with 0%nat by lia. rewrite firstn_O, app_nil_r. reflexivity. }
    rewrite (IH e ltac:(lia) best).
    2:{ intros i Hi Hb. rewrite <- (Hc (S i)) by lia. rewrite Hbest.
        - rewrite get_app1 by lia. reflexivity.
        - rewrite app_length; lia.
        - rewrite app_nth1 by exact Hi. exact Hb. }
    assert (Hlast : nth (List.length ranked) (ranked ++ [b]) false = b).
    { rewrite app_nth2 by lia. rewrite Nat.sub_diag. reflexivity. }
    rewrite app_length; simpl List.length. rewrite Nat.add_1_r.
    rewrite correct_upto_S by (rewrite app_length; simpl; lia). rewrite Hlast.
    rewrite Hc by lia. destruct b.
    + rewrite Nat.add_1_r, seq_S, map_app, Qsum_app. simpl map. simpl Qsum.
      assert (Hb := Hbest (List.length ranked)). rewrite Hlast in Hb.
      rewrite correct_upto_S in Hb by (rewrite app_length; simpl; lia).
      rewrite Hlast, Hc in Hb by lia. rewrite Nat.add_1_r in Hb.
      rewrite app_length in Hb; simpl in Hb. specialize (Hb ltac:(lia) eq_refl).
      replace (List.length ranked) with (List.length e + 0)%nat in Hb at 2 by lia.
      rewrite get_app2 in Hb. unfold get in Hb; simpl in Hb.
      rewrite Hb. unfold Qdiv. lra.
    + rewrite Nat.add_0_r. lra.
Qed.

(** Position of the k-th correct detection. *)
Lemma level_exists : forall ranked k, (1 <= k <= correct_upto (List.length ranked) ranked)%nat ->
  exists i, (i < List.length ranked)%nat /\ nth i ranked false = true /\ correct_upto (S i) ranked = k.
Proof.
  intros ranked k [Hk1 Hk2].
  assert (Hgen : forall n, (n <= List.length ranked)%nat -> (k <= correct_upto n ranked)%nat ->
     exists i, (i < n)%nat /\ nth i ranked false = true /\ correct_upto (S i) ranked = k).
  { induction n as [|n IH]; intros Hn Hc; [rewrite correct_upto_0 in Hc; lia|].
    destruct (le_lt_dec k (correct_upto n ranked)) as [Hle|Hlt].
    - destruct (IH ltac:(lia) Hle) as (i & Hi & H). exists i; split; [lia|exact H].
    - rewrite correct_upto_S in Hc by lia. destruct (nth n ranked false) eqn:Eb; [|lia].
      exists n. split; [lia|]. split; [exact Eb|]. rewrite correct_upto_S by lia. rewrite Eb. lia. }
  destruct (Hgen (List.length ranked) ltac:(lia) Hk2) as (i & Hi & H). exists i; auto.
Qed.

Lemma ap_of_tp_sum : forall ranked n_gt e, (0 < n_gt)%nat ->
  List.length e = List.length ranked ->
  (forall i, (i < List.length ranked)%nat ->
     is_max (List.length ranked) (fun j => (i <= j)%nat) (raw_precision ranked) (get i e)) ->
  ap_of ranked n_gt (tp_sum n_gt ranked e).
Proof.
  intros ranked n_gt e Hn He Hmax.
  set (pos := fun k => match find (fun i => andb (nth i ranked false) (Nat.eqb (correct_upto (S i) ranked) k))
                               (seq 0 (List.length ranked)) with Some i => i | None => 0%nat end).
  assert (Hpos : forall i, (i < List.length ranked)%nat -> nth i ranked false = true ->
            pos (correct_upto (S i) ranked) = i).
  { intros i Hi Hb. unfold pos.
    destruct (find _ (seq 0 (List.length ranked))) as [i'|] eqn:E.
    - apply find_some in E as (Hin & E). apply in_seq in Hin. apply andb_true_iff in E as (Hb' & E).
      apply Nat.eqb_eq in E.
      assert (H1 := proj1 (level_positions ranked i _ i' Hi Hb eq_refl ltac:(lia))).
      assert (H2 := proj1 (level_positions ranked i' _ i ltac:(lia) Hb' eq_refl Hi)). lia.
    - exfalso. assert (Hf := find_none _ _ E i ltac:(apply in_seq; lia)). cbv beta in Hf.
      rewrite Hb, Nat.eqb_refl in Hf. discriminate. }
  exists (fun k => get (pos k) e). split.
  - intros k Hk. destruct (level_exists ranked k Hk) as (i & Hi & Hb & Ek).
    rewrite <- Ek, Hpos by assumption.
    eapply is_max_ext; [| |apply Hmax; exact Hi].
    + intros j Hj. rewrite recall_level by exact Hn. symmetry. rewrite Ek.
      apply level_positions; auto.
    + intros; reflexivity.
  - apply tp_sum_levels; auto. intros i Hi Hb. rewrite Hpos by assumption. reflexivity.
Qed.

(** * Rankings and the sort *)
Lemma mapM_nth : forall A (v : list A) d idx, (forall i, In i idx -> (i < List.length v)%nat) ->
  fancy v idx = Ok (map (fun i => nth i v d) idx).
Proof.
  intros A v d idx H. unfold fancy. apply mapM_Ok. intros i Hi.
  rewrite (nth_error_nth' v d) by (apply H; exact Hi). reflexivity.
Qed.

Lemma StronglySorted_impl : forall A (R S : A -> A -> Prop) l,
  (forall x y, R x y -> S x y) -> StronglySorted R l -> StronglySorted S l.
Proof.
  intros A R S l H Hs. induction Hs as [|x l Hs IH Hf]; constructor; [exact IH|].
  eapply Forall_impl; [|exact Hf]. intros; apply H; assumption.
Qed.

Lemma sorted_matches_ok : forall argsort ms ss, argsort_ok argsort ->
  (List.length ss <= List.length ms)%nat ->
  exists sorted, sorted_matches argsort ms ss = Ok sorted /\
    ranking (map verdict ms) ss (map verdict sorted).
Proof.
  intros argsort ms ss Ha Hl. destruct (Ha (map Qopp ss)) as [Hp Hs]. rewrite map_length in Hp.
  set (idx := argsort (map Qopp ss)) in *.
  assert (Hin : forall i, In i idx -> (i < List.length ss)%nat).
  { intros i Hi. apply (Permutation_in _ Hp) in Hi. apply in_seq in Hi. lia. }
  exists (map (fun i => nth i ms 0%Z) idx). split.
  - unfold sorted_matches. fold idx. apply mapM_nth. intros i Hi. specialize (Hin i Hi). lia.
  - exists idx. split; [exact Hp|]. split.
    + eapply StronglySorted_impl; [|exact Hs]. intros x y Hxy. cbv beta in Hxy.
      change 0 with (Qopp 0) in Hxy. rewrite !map_nth in Hxy. lra.
    + rewrite map_map. apply map_ext_in. intros i _.
      change false with (verdict 0%Z). rewrite map_nth. reflexivity.
Qed.

Lemma sorted_matches_err : forall argsort ms ss, argsort_ok argsort ->
  (List.length ms < List.length ss)%nat ->
  sorted_matches argsort ms ss = Err IndexError.
Proof.
  intros argsort ms ss Ha Hl. destruct (Ha (map Qopp ss)) as [Hp _]. rewrite map_length in Hp.
  unfold sorted_matches. set (idx := argsort (map Qopp ss)) in *.
  assert (Hin : In (List.length ms) idx).
  { apply (Permutation_in _ (Permutation_sym Hp)). apply in_seq. lia. }
  unfold fancy. clear Hp. clearbody idx. induction idx as [|i idx IH]; [contradiction|].
  simpl. destruct (nth_error ms i) eqn:E; simpl.
  - destruct Hin as [->|Hin].
    + exfalso. assert (nth_error ms (List.length ms) = None) by (apply nth_error_None; lia). congruence.
    + rewrite IH by exact Hin. reflexivity.
  - reflexivity.
Qed.

(** * Main lemma about compute_auc_ap *)
Lemma compute_auc_ap_spec : forall argsort ms ss n_gt, argsort_ok argsort ->
  (List.length ss <= List.length ms)%nat -> (0 < n_gt)%nat ->
  exists ap precision recall ranked,
    compute_auc_ap argsort ms ss n_gt = Ok (ap, precision, recall) /\
    ranking (map verdict ms) ss ranked /\
    List.length precision = List.length ranked /\
    List.length recall = List.length ranked /\
    (forall i, (i < List.length ranked)%nat ->
       get i recall = recall_at ranked n_gt i /\
       is_max (List.length ranked) (fun j => (i <= j)%nat) (raw_precision ranked) (get i precision)) /\
    ap_of ranked n_gt ap.
Proof.
  intros argsort ms ss n_gt Ha Hl Hn.
  destruct (sorted_matches_ok argsort ms ss Ha Hl) as (sorted & Es & Hr).
  destruct (basic_pr sorted n_gt) as [p r] eqn:Eb.
  destruct (auc_value sorted n_gt p r Hn Eb) as (ap & Ev & Eap).
  assert (Hp : List.length p = List.length (map verdict sorted)).
  { change p with (fst (p, r)). rewrite <- Eb. apply prec_length. }
  assert (Hrl : List.length r = List.length (map verdict sorted)).
  { change r with (snd (p, r)). rewrite <- Eb. apply rec_length. }
  assert (Hmax : forall i, (i < List.length (map verdict sorted))%nat ->
    is_max (List.length (map verdict sorted)) (fun j => (i <= j)%nat) (raw_precision (map verdict sorted)) (get i (env p))).
  { intros i Hi. rewrite <- Hp. eapply is_max_ext; [| |apply env_is_max; lia].
    - intros; reflexivity.
    - intros j Hj. change p with (fst (p, r)). rewrite <- Eb. apply prec_get; lia. }
  exists ap, (env p), r, (map verdict sorted). split.
  { unfold compute_auc_ap. rewrite Es. cbn [bind]. rewrite Eb. exact Ev. }
  split; [exact Hr|]. split; [rewrite env_length; exact Hp|]. split; [exact Hrl|]. split.
  - intros i Hi. split; [|apply Hmax; exact Hi].
    change r with (snd (p, r)). rewrite <- Eb. apply rec_get; auto.
  - destruct (ap_of_tp_sum (map verdict sorted) n_gt (env p) Hn) as (best & H1 & H2); auto.
    { rewrite env_length; exact Hp. }
    exists best. split; [exact H1|]. rewrite Eap. exact H2.
Qed.

(** compute_pr without sampling. *)
Lemma compute_pr_spec : forall argsort ms ss n_gt (interp : bool), argsort_ok argsort ->
  (List.length ss <= List.length ms)%nat -> (0 < n_gt)%nat ->
  exists precision recall ranked,
    compute_pr argsort ms ss n_gt None interp = Ok (precision, recall) /\
    (forall samples, compute_pr argsort ms ss n_gt (Some samples) interp =
                     Ok (sample_precision precision recall samples, samples)) /\
    ranking (map verdict ms) ss ranked /\
    List.length precision = List.length ranked /\
    List.length recall = List.length ranked /\
    (forall i, (i < List.length ranked)%nat ->
       get i recall = recall_at ranked n_gt i /\
       if interp
       then is_max (List.length ranked) (fun j => (i <= j)%nat) (raw_precision ranked) (get i precision)
       else get i precision == raw_precision ranked i).
Proof.
  intros argsort ms ss n_gt interp Ha Hl Hn.
  destruct (sorted_matches_ok argsort ms ss Ha Hl) as (sorted & Es & Hr).
  destruct (basic_pr sorted n_gt) as [p r] eqn:Eb.
  assert (Hp : List.length p = List.length (map verdict sorted)).
  { change p with (fst (p, r)). rewrite <- Eb. apply prec_length. }
  assert (Hrl : List.length r = List.length (map verdict sorted)).
  { change r with (snd (p, r)). rewrite <- Eb. apply rec_length. }
  exists (if interp then env p else p), r, (map verdict sorted).
  split. { unfold compute_pr. rewrite Es. cbn [bind]. rewrite Eb. rewrite interp_loop_env. reflexivity. }
  split. { intro samples. unfold compute_pr. rewrite Es. cbn [bind]. rewrite Eb. rewrite interp_loop_env. reflexivity. }
  split; [exact Hr|]. split; [destruct interp; [rewrite env_length|]; exact Hp|].
  split; [exact Hrl|]. intros i Hi. split.
  - change r with (snd (p, r)). rewrite <- Eb. apply rec_get; auto.
  - destruct interp.
    + rewrite <- Hp. eapply is_max_ext; [| |apply env_is_max; lia].
      * intros; reflexivity.
      * intros j Hj. change p with (fst (p, r)). rewrite <- Eb. apply prec_get; lia.
    + change p with (fst (p, r)). rewrite <- Eb. apply prec_get; auto.
Qed.

(** * Bounds *)
Lemma raw_bounds : forall ranked j, 0 <= raw_precision ranked j /\ raw_precision ranked j < 1.
Proof.
  intros ranked j. unfold raw_precision.
  assert (H1 := correct_upto_le ranked (S j)). apply Qnat_le in H1.
  assert (H2 := Qnat_nonneg (correct_upto (S j) ranked)). assert (He := eps_pos).
  split; [apply Qdiv_nonneg; lra|]. apply Qlt_shift_div_r; lra.
Qed.

Lemma is_max_bounds : forall n P f q lo hi, is_max n P f q ->
  (forall j, lo <= f j /\ f j < hi) -> lo <= q /\ q < hi.
Proof. intros n P f q lo hi [(j & _ & _ & E) _] H. rewrite E. apply H. Qed.

Lemma ranking_total : forall vs ss ranked, ranking vs ss ranked ->
  (List.length ss <= List.length vs)%nat ->
  List.length ranked = List.length ss.
Proof.
  intros vs ss ranked (order & Hp & _ & ->) _. rewrite map_length.
  rewrite (Permutation_length Hp), seq_length. reflexivity.
Qed.

Lemma count_perm : forall l l' : list bool, Permutation l l' ->
  List.length (filter (fun b => b) l) = List.length (filter (fun b => b) l').
Proof.
  induction 1; simpl; auto.
  - destruct x; simpl; auto.
  - destruct x, y; reflexivity.
  - congruence.
Qed.

Lemma map_nth_seq : forall A (l : list A) d, map (fun i => nth i l d) (seq 0 (List.length l)) = l.
Proof.
  induction l as [|x l IH]; intro d; simpl; [reflexivity|]. f_equal.
  rewrite <- seq_shift, map_map. apply IH.
Qed.

Lemma ranking_perm : forall vs ss ranked, ranking vs ss ranked ->
  List.length ss = List.length vs -> Permutation ranked vs.
Proof.
  intros vs ss ranked (order & Hp & _ & ->) Hl. rewrite Hl in Hp.
  apply Permutation_trans with (map (fun i => nth i vs false) (seq 0 (List.length vs))).
  - apply Permutation_map. exact Hp.
  - rewrite map_nth_seq. apply Permutation_refl.
Qed.

Lemma correct_total : forall l, correct_upto (List.length l) l = List.length (filter (fun b => b) l).
Proof. intro l. unfold correct_upto. rewrite firstn_all. reflexivity. Qed.

Lemma ranking_correct : forall vs ss ranked, ranking vs ss ranked ->
  List.length ss = List.length vs ->
  correct_upto (List.length ranked) ranked = List.length (filter (fun b => b) vs).
Proof.
  intros vs ss ranked Hr Hl. rewrite correct_total. apply count_perm. eapply ranking_perm; eassumption.
Qed.

Lemma ap_of_bounds : forall ranked n_gt ap, (0 < n_gt)%nat -> ap_of ranked n_gt ap ->
  0 <= ap /\ ap <= Qnat (correct_upto (List.length ranked) ranked) / Qnat n_gt.
Proof.
  intros ranked n_gt ap Hn (best & Hb & E). assert (Hq := Qnat_pos _ Hn). rewrite E.
  assert (Hk : forall k, In k (seq 1 (correct_upto (List.length ranked) ranked)) -> 0 <= best k /\ best k < 1).
  { intros k Hk. apply in_seq in Hk. eapply is_max_bounds; [apply Hb; lia|]. apply raw_bounds. }
  split.
  - apply Qdiv_nonneg; [|exact Hq]. apply Qsum_nonneg. intros x Hx.
    apply in_map_iff in Hx as (k & <- & Hin). apply Hk; exact Hin.
  - apply Qdiv_le; [exact Hq|].
    assert (Hs : forall l, (forall k, In k l -> best k < 1) -> Qsum (map best l) <= Qnat (List.length l)).
    { induction l as [|k l IH]; intro H; [apply Qnat_nonneg|].
      cbn [map Qsum fold_right List.length]. fold (Qsum (map best l)). rewrite Qnat_S.
      assert (best k < 1) by (apply H; left; reflexivity).
      assert (Qsum (map best l) <= Qnat (List.length l)) by (apply IH; intros x Hx; apply H; right; exact Hx). lra. }
    specialize (Hs (seq 1 (correct_upto (List.length ranked) ranked))). rewrite seq_length in Hs.
    apply Hs. intros k Hin; apply Hk; exact Hin.
Qed.

(** * Perfect and hopeless submissions *)

Lemma Qdiv_compat : forall a b c, a == b -> a / c == b / c.
Proof. intros a b c H. rewrite H. reflexivity. Qed.

Lemma ap_of_unique : forall ranked n a b, ap_of ranked n a -> ap_of ranked n b -> a == b.
Proof.
  intros ranked n a b (ba & Ha & Ea) (bb & Hb & Eb). rewrite Ea, Eb.
  apply Qdiv_compat. apply Qsum_ext. intros k Hk. apply in_seq in Hk.
  eapply is_max_unique; [apply Ha|apply Hb]; lia.
Qed.

Lemma raw_incr : forall a b, (a <= b)%nat ->
  Qnat (S a) / (Qnat (S a) + epsilon) <= Qnat (S b) / (Qnat (S b) + epsilon).
Proof.
  intros a b H. assert (He := eps_pos).
  assert (Ha := Qnat_pos (S a) ltac:(lia)). assert (Hb := Qnat_pos (S b) ltac:(lia)).
  assert (Hab := Qnat_le (S a) (S b) ltac:(lia)).
  apply Qle_shift_div_r; [lra|].
  setoid_replace (Qnat (S b) / (Qnat (S b) + epsilon) * (Qnat (S a) + epsilon))
    with (Qnat (S b) * (Qnat (S a) + epsilon) / (Qnat (S b) + epsilon)) by (unfold Qdiv; ring).
  apply Qle_shift_div_l; [lra|].
  assert (Qnat (S a) * epsilon <= Qnat (S b) * epsilon) by (apply Qmult_le_compat_r; lra).
  lra.
Qed.

Lemma correct_all_true : forall m j, (j <= m)%nat -> correct_upto j (repeat true m) = j.
Proof.
  intros m. unfold correct_upto. induction m as [|m IH]; intros j Hj; [replace j with 0%nat by lia; reflexivity|].
  destruct j as [|j]; [reflexivity|]. simpl. rewrite IH by lia. reflexivity.
Qed.

Lemma ap_of_perfect : forall n ap, (0 < n)%nat -> ap_of (repeat true n) n ap ->
  ap == Qnat n / (Qnat n + epsilon).
Proof.
  intros n ap Hn (best & Hb & E). rewrite repeat_length in *. unfold best_precision in Hb. rewrite repeat_length in Hb.
  rewrite correct_all_true in * by lia.
  assert (Hq := Qnat_pos _ Hn). assert (He := eps_pos).
  assert (Hbest : forall k, (1 <= k <= n)%nat -> best k == Qnat n / (Qnat n + epsilon)).
  { intros k Hk. destruct (Hb k Hk) as [(j & Hj & _ & Ej) Hmax].
    assert (H1 : best k <= Qnat n / (Qnat n + epsilon)).
    { rewrite Ej. unfold raw_precision. rewrite correct_all_true by lia.
      destruct n as [|n]; [lia|]. apply raw_incr. lia. }
    assert (H2 : Qnat n / (Qnat n + epsilon) <= best k).
    { specialize (Hmax (n - 1)%nat ltac:(lia)).
      unfold raw_precision in Hmax. replace (S (n - 1)) with n in Hmax by lia.
      rewrite correct_all_true in Hmax by lia. apply Hmax.
      apply recall_level; [exact Hn|]. replace (S (n - 1)) with n by lia. rewrite correct_all_true; lia. }
    lra. }
  assert (Hs : forall l, (forall k, In k l -> (1 <= k <= n)%nat) ->
     Qsum (map best l) == Qnat (List.length l) * (Qnat n / (Qnat n + epsilon))).
  { induction l as [|k l IH]; intro H.
    - simpl. setoid_replace (Qnat 0) with 0 by reflexivity. lra.
    - cbn [map Qsum fold_right List.length]. fold (Qsum (map best l)). rewrite Qnat_S.
      rewrite (Hbest k) by (apply H; left; reflexivity). rewrite IH by (intros x Hx; apply H; right; exact Hx). lra. }
  rewrite E, Hs by (intros k Hk; apply in_seq in Hk; lia). rewrite seq_length.
  field. split; lra.
Qed.

Lemma ap_of_zero : forall ranked n ap, (0 < n)%nat -> ap_of ranked n ap ->
  (ap == 0 <-> forall b, In b ranked -> b = false).
Proof.
  intros ranked n ap Hn (best & Hb & E). assert (Hq := Qnat_pos _ Hn). split.
  - intros H0 b Hin. destruct b; [exfalso|reflexivity].
    assert (Hc : (1 <= correct_upto (List.length ranked) ranked)%nat).
    { rewrite correct_total. destruct (filter (fun b => b) ranked) eqn:Ef; [|simpl; lia].
      assert (In true (filter (fun b => b) ranked)) by (apply filter_In; auto). rewrite Ef in H; contradiction. }
    assert (Hpos : forall k, (1 <= k <= correct_upto (List.length ranked) ranked)%nat -> 0 < best k).
    { intros k Hk. destruct (Hb k Hk) as [(j & Hj & Hlev & Ej) _].
      apply recall_level in Hlev; [|exact Hn]. rewrite Ej. unfold raw_precision.
      apply Qlt_shift_div_l.
      - assert (H := Qnat_nonneg (S j)). assert (He := eps_pos). lra.
      - rewrite Qmult_0_l. apply Qnat_pos. lia. }
    set (T := correct_upto (List.length ranked) ranked) in *. destruct T as [|T]; [lia|].
    simpl seq in E. simpl map in E. cbn [Qsum fold_right] in E. fold (Qsum (map best (seq 2 T))) in E.
    assert (0 <= Qsum (map best (seq 2 T))).
    { apply Qsum_nonneg. intros x Hx. apply in_map_iff in Hx as (k & <- & Hk). apply in_seq in Hk.
      apply Qlt_le_weak, Hpos. lia. }
    assert (0 < best 1%nat) by (apply Hpos; lia).
    assert (0 < (best 1%nat + Qsum (map best (seq 2 T))) / Qnat n).
    { apply Qlt_shift_div_l; [exact Hq|]. rewrite Qmult_0_l. lra. }
    lra.
  - intro H. rewrite E.
    assert (Hc : correct_upto (List.length ranked) ranked = 0%nat).
    { rewrite correct_total. clear - H. induction ranked as [|b l IH]; [reflexivity|].
      simpl. rewrite (H b) by (left; reflexivity). apply IH. intros c Hc; apply H; right; exact Hc. }
    rewrite Hc. simpl. unfold Qdiv. lra.
Qed.

(** * Better rankings *)
Lemma raw_le : forall c c' j j', (j' <= j)%nat -> (c <= c')%nat ->
  Qnat c / (Qnat (S j) + epsilon) <= Qnat c' / (Qnat (S j') + epsilon).
Proof.
  intros c c' j j' Hj Hc. assert (He := eps_pos).
  assert (H1 := Qnat_pos (S j') ltac:(lia)). assert (H2 := Qnat_le (S j') (S j) ltac:(lia)).
  assert (H3 := Qnat_le _ _ Hc). assert (H4 := Qnat_nonneg c).
  apply Qle_shift_div_r; [lra|].
  setoid_replace (Qnat c' / (Qnat (S j') + epsilon) * (Qnat (S j) + epsilon))
    with (Qnat c' * (Qnat (S j) + epsilon) / (Qnat (S j') + epsilon)) by (unfold Qdiv; ring).
  apply Qle_shift_div_l; [lra|].
  assert (Qnat c * (Qnat (S j') + epsilon) <= Qnat c' * (Qnat (S j') + epsilon)) by (apply Qmult_le_compat_r; lra).
  assert ((Qnat (S j') + epsilon) * Qnat c' <= (Qnat (S j) + epsilon) * Qnat c') by (apply Qmult_le_compat_r; lra).
  lra.
Qed.

Lemma correct_upto_cap : forall l j, (correct_upto j l <= correct_upto (List.length l) l)%nat.
Proof.
  intros l j. destruct (le_lt_dec j (List.length l)) as [H|H].
  - apply correct_upto_mono; exact H.
  - rewrite (correct_upto_all l j) by lia. lia.
Qed.

Lemma ap_of_monotone : forall r r' n a a', (0 < n)%nat ->
  at_least_as_good r' r -> ap_of r n a -> ap_of r' n a' -> a <= a'.
Proof.
  intros r r' n a a' Hn Hg (best & Hb & E) (best' & Hb' & E').
  assert (Hq := Qnat_pos _ Hn). rewrite E, E'. apply Qdiv_le; [exact Hq|].
  set (T := correct_upto (List.length r) r) in *. set (T' := correct_upto (List.length r') r') in *.
  assert (HT : (T <= T')%nat).
  { destruct T as [|T0] eqn:ET; [lia|].
    destruct (level_exists r (S T0)) as (i & Hi & _ & Ei); [unfold T in ET; lia|].
    destruct (Hg i Hi ltac:(lia)) as (j' & _ & _ & Hc).
    assert (H := correct_upto_cap r' (S j')). unfold T'. lia. }
  replace T' with (T + (T' - T))%nat by lia. rewrite seq_app, map_app, Qsum_app.
  assert (H1 : Qsum (map best (seq 1 T)) <= Qsum (map best' (seq 1 T))).
  { apply Qsum_le. intros k Hk. apply in_seq in Hk.
    destruct (Hb k ltac:(unfold T in Hk; lia)) as [(j & Hj & Hlev & Ej) _].
    destruct (Hb' k ltac:(unfold T' in *; lia)) as [_ Hmax'].
    apply recall_level in Hlev; [|exact Hn].
    destruct (Hg j Hj ltac:(lia)) as (j' & Hj1 & Hj2 & Hc).
    rewrite Ej. apply Qle_trans with (raw_precision r' j').
    - unfold raw_precision. apply raw_le; assumption.
    - apply Hmax'; [exact Hj2|]. apply recall_level; [exact Hn|]. lia. }
  assert (H2 : 0 <= Qsum (map best' (seq (1 + T) (T' - T)))).
  { apply Qsum_nonneg. intros x Hx. apply in_map_iff in Hx as (k & <- & Hk). apply in_seq in Hk.
    destruct (Hb' k ltac:(unfold T' in *; lia)) as [(j & _ & _ & Ej) _]. rewrite Ej. apply raw_bounds. }
  lra.
Qed.

(** Ways of improving a ranking. *)
Lemma correct_upto_app : forall l m j,
  correct_upto j (l ++ m) = (correct_upto j l + correct_upto (j - List.length l) m)%nat.
Proof.
  intros l m j. unfold correct_upto. rewrite firstn_app, filter_app, app_length. reflexivity.
Qed.

Lemma correct_upto_cons : forall b m j,
  correct_upto (S j) (b :: m) = ((if b then 1 else 0) + correct_upto j m)%nat.
Proof. intros b m j. unfold correct_upto. simpl. destruct b; reflexivity. Qed.

Lemma good_refl_len : forall r r', List.length r = List.length r' ->
  (forall j, (correct_upto (S j) r <= correct_upto (S j) r')%nat) -> at_least_as_good r' r.
Proof. intros r r' Hl H j Hj _. exists j. repeat split; auto. lia. Qed.

Lemma good_append_fp : forall r, at_least_as_good r (r ++ [false]).
Proof.
  intros r j Hj Hpos. rewrite app_length in Hj; simpl in Hj.
  assert (Hc : forall i, correct_upto i (r ++ [false]) = correct_upto i r).
  { intro i. rewrite correct_upto_app.
    destruct (i - List.length r)%nat; [rewrite correct_upto_0|rewrite correct_upto_cons, ?Nat.add_0_l]; [lia|].
    unfold correct_upto at 2. rewrite firstn_nil. simpl. lia. }
  rewrite Hc in *. destruct (Nat.eq_dec j (List.length r)) as [->|Hne].
  - destruct r as [|b r]; [unfold correct_upto in Hpos; simpl in Hpos; lia|].
    exists (List.length r). simpl List.length. repeat split; try lia.
    rewrite (correct_upto_all (b :: r) (S (S (List.length r)))) by (simpl; lia). simpl List.length. lia.
  - exists j. repeat split; lia.
Qed.

Lemma good_append_fp_conv : forall r, at_least_as_good (r ++ [false]) r.
Proof.
  intros r j Hj Hpos. exists j. rewrite app_length. repeat split; simpl; try lia.
  rewrite correct_upto_app. lia.
Qed.

Lemma good_flip : forall l m, at_least_as_good (l ++ true :: m) (l ++ false :: m).
Proof.
  intros l m. apply good_refl_len; [rewrite !app_length; reflexivity|].
  intro j. rewrite !correct_upto_app. destruct (S j - List.length l)%nat; [rewrite !correct_upto_0; lia|].
  rewrite !correct_upto_cons. lia.
Qed.

Lemma good_swap : forall l m, at_least_as_good (l ++ true :: false :: m) (l ++ false :: true :: m).
Proof.
  intros l m. apply good_refl_len; [rewrite !app_length; reflexivity|].
  intro j. rewrite !correct_upto_app. destruct (S j - List.length l)%nat as [|k]; [rewrite !correct_upto_0; lia|].
  rewrite !correct_upto_cons. destruct k as [|k]; [rewrite !correct_upto_0; lia|].
  rewrite !correct_upto_cons. lia.
Qed.

Lemma good_delete_fp : forall l m, at_least_as_good (l ++ m) (l ++ false :: m).
Proof.
  intros l m j Hj Hpos. rewrite app_length in *; simpl in Hj.
  rewrite correct_upto_app in *.
  destruct (le_lt_dec (S j) (List.length l)) as [Hle|Hlt].
  - exists j. repeat split; try lia. rewrite correct_upto_app.
    replace (S j - List.length l)%nat with 0%nat by lia. rewrite !correct_upto_0. lia.
  - replace (S j - List.length l)%nat with (S (j - List.length l)) in * by lia.
    rewrite correct_upto_cons in *.
    destruct j as [|j].
    + destruct l; [|simpl in Hlt; lia]. exfalso. unfold correct_upto in Hpos; simpl in Hpos. lia.
    + exists j. repeat split; try lia. rewrite correct_upto_app.
      replace (S j - List.length l)%nat with (S j - List.length l)%nat by lia.
      rewrite (correct_upto_all l (S (S j))) by lia.
      rewrite (correct_upto_all l (S j)) by lia. lia.
Qed.

(** * Distinct scores: the ranking is determined *)
Lemma sorted_perm_unique : forall A (R : A -> A -> Prop) l l',
  (forall x y, In x l -> In y l -> R x y -> R y x -> x = y) ->
  StronglySorted R l -> StronglySorted R l' -> Permutation l l' -> l = l'.
Proof.
  intros A R l. induction l as [|x l IH]; intros l' Hanti Hs Hs' Hp.
  - apply Permutation_nil in Hp. congruence.
  - destruct l' as [|y l']; [apply Permutation_sym, Permutation_nil in Hp; discriminate|].
    inversion Hs as [|? ? Hsl Hfl]; subst. inversion Hs' as [|? ? Hsl' Hfl']; subst.
    rewrite Forall_forall in Hfl, Hfl'.
    assert (x = y).
    { assert (Hy : In y (x :: l)) by (apply (Permutation_in _ (Permutation_sym Hp)); left; reflexivity).
      assert (Hx : In x (y :: l')) by (apply (Permutation_in _ Hp); left; reflexivity).
      destruct Hy as [Hy|Hy]; [exact Hy|]. destruct Hx as [Hx|Hx]; [congruence|].
      apply Hanti; [left; reflexivity|right; exact Hy|apply Hfl; exact Hy|apply Hfl'; exact Hx]. }
    subst y. f_equal. apply IH; auto.
    + intros a b Ha Hb; apply Hanti; right; assumption.
    + eapply Permutation_cons_inv; exact Hp.
Qed.

Lemma ranking_unique : forall vs ss r r', distinct ss ->
  ranking vs ss r -> ranking vs ss r' -> r = r'.
Proof.
  intros vs ss r r' Hd (o & Hp & Hs & ->) (o' & Hp' & Hs' & ->). f_equal.
  apply (sorted_perm_unique _ (fun i j => nth j ss 0 <= nth i ss 0)); auto.
  - intros x y Hx Hy H1 H2. apply (Permutation_in _ Hp) in Hx, Hy. apply in_seq in Hx, Hy.
    apply Hd; try lia. lra.
  - eapply Permutation_trans; [exact Hp|apply Permutation_sym; exact Hp'].
Qed.

Lemma nth_map_nth : forall A (l : list A) d pi i, (i < List.length pi)%nat ->
  nth i (map (fun k => nth k l d) pi) d = nth (nth i pi 0%nat) l d.
Proof.
  intros A l d pi i H. rewrite (nth_indep _ d (nth 0%nat l d)) by (rewrite map_length; exact H).
  rewrite (map_nth (fun k => nth k l d)). reflexivity.
Qed.

(** Permuting the detections. *)
Lemma ranking_permuted : forall pi vs ss r, distinct ss ->
  List.length vs = List.length ss ->
  Permutation pi (seq 0 (List.length ss)) ->
  ranking (map (fun i => nth i vs false) pi) (map (fun i => nth i ss 0) pi) r ->
  ranking vs ss r.
Proof.
  intros pi vs ss r Hd Hl Hpi (o & Hp & Hs & ->). rewrite map_length in Hp.
  exists (map (fun i => nth i pi 0%nat) o). split; [|split].
  - eapply Permutation_trans; [|exact Hpi].
    apply Permutation_trans with (map (fun i => nth i pi 0%nat) (seq 0 (List.length pi))).
    + apply Permutation_map. exact Hp.
    + rewrite map_nth_seq. apply Permutation_refl.
  - assert (Hin : forall i, In i o -> (i < List.length pi)%nat).
    { intros i Hi. apply (Permutation_in _ Hp) in Hi. apply in_seq in Hi. lia. }
    clear Hp. induction Hs as [|i o Hs IH Hf]; simpl; constructor.
    + apply IH. intros j Hj; apply Hin; right; exact Hj.
    + rewrite Forall_forall in *. intros k Hk. apply in_map_iff in Hk as (j & <- & Hj).
      specialize (Hf j Hj). cbv beta in Hf.
      rewrite (nth_map_nth _ ss 0 pi i), (nth_map_nth _ ss 0 pi j) in Hf by (apply Hin; simpl; auto). exact Hf.
  - rewrite map_map. apply map_ext_in. intros i Hi.
    assert (Hlt : (i < List.length pi)%nat).
    { apply (Permutation_in _ Hp) in Hi. apply in_seq in Hi. lia. }
    rewrite nth_map_nth by exact Hlt. reflexivity.
Qed.

Lemma distinct_permuted : forall pi ss, distinct ss -> Permutation pi (seq 0 (List.length ss)) ->
  distinct (map (fun i => nth i ss 0) pi).
Proof.
  intros pi ss Hd Hp i j Hi Hj E. rewrite map_length in Hi, Hj.
  rewrite (nth_map_nth _ ss 0 pi i), (nth_map_nth _ ss 0 pi j) in E by assumption.
  assert (Hin : forall i, (i < List.length pi)%nat -> (nth i pi 0%nat < List.length ss)%nat).
  { intros k Hk. assert (H := nth_In pi 0%nat Hk). apply (Permutation_in _ Hp) in H. apply in_seq in H. lia. }
  apply Hd in E; auto. apply (NoDup_nth pi 0%nat); auto.
  eapply Permutation_NoDup; [apply Permutation_sym; exact Hp|apply seq_NoDup].
Qed.

(** * Sampling *)
Lemma searchsorted_first : forall r s, 
  (searchsorted r s <= List.length r)%nat /\
  (forall j, (j < searchsorted r s)%nat -> get j r < s) /\
  ((searchsorted r s < List.length r)%nat -> s <= get (searchsorted r s) r).
Proof.
  induction r as [|x r IH]; intro s; simpl.
  - repeat split; lia.
  - destruct (Qltb x s) eqn:E.
    + apply Qltb_true in E. destruct (IH s) as (H1 & H2 & H3). repeat split; [lia| |].
      * intros [|j] Hj; unfold get; simpl; [exact E|]. apply H2; lia.
      * intro H. unfold get; simpl. apply H3; lia.
    + apply Qltb_false' in E. repeat split; [lia|intros j Hj; lia|]. intros _. unfold get; simpl. exact E.
Qed.

Lemma sample_precision_get : forall p r samples k, (k < List.length samples)%nat ->
  get k (sample_precision p r samples) =
    let i := searchsorted r (get k samples) in
    if Nat.ltb i (List.length p) then get i p else 0.
Proof.
  intros p r samples k Hk. unfold sample_precision, get at 1.
  set (f := fun s => let i := searchsorted r s in if Nat.ltb i (List.length p) then get i p else 0).
  rewrite (nth_indep _ 0 (f 0)) by (rewrite map_length; exact Hk). rewrite map_nth. reflexivity.
Qed.

Lemma sampled_interp : forall ranked n_gt p r s, (0 < n_gt)%nat ->
  List.length p = List.length ranked -> List.length r = List.length ranked ->
  (forall i, (i < List.length ranked)%nat ->
       get i r = recall_at ranked n_gt i /\
       is_max (List.length ranked) (fun j => (i <= j)%nat) (raw_precision ranked) (get i p)) ->
  let i := searchsorted r s in
  let q := if Nat.ltb i (List.length p) then get i p else 0 in
  ((exists j, (j < List.length ranked)%nat /\ s <= recall_at ranked n_gt j) ->
     is_max (List.length ranked) (fun j => s <= recall_at ranked n_gt j) (raw_precision ranked) q) /\
  ((forall j, (j < List.length ranked)%nat -> ~ s <= recall_at ranked n_gt j) -> q = 0).
Proof.
  intros ranked n_gt p r s Hn Hp Hr H. cbv zeta.
  destruct (searchsorted_first r s) as (H1 & H2 & H3). set (i := searchsorted r s) in *.
  split.
  - intros (j0 & Hj0 & Hs0).
    assert (Hi : (i <= j0)%nat).
    { destruct (le_lt_dec i j0) as [Hle|Hlt]; [exact Hle|]. specialize (H2 j0 Hlt).
      rewrite (proj1 (H j0 Hj0)) in H2. lra. }
    replace (Nat.ltb i (List.length p)) with true by (symmetry; apply Nat.ltb_lt; lia).
    destruct (H i ltac:(lia)) as [Eri Hmax]. specialize (H3 ltac:(lia)). rewrite Eri in H3.
    eapply is_max_ext; [| |exact Hmax]; [|intros; reflexivity].
    intros j Hj. split; intro Hij.
    + apply Qle_trans with (recall_at ranked n_gt i); [exact H3|].
      unfold recall_at. apply Qdiv_le; [apply Qnat_pos; exact Hn|]. apply Qnat_le, correct_upto_mono. lia.
    + destruct (le_lt_dec i j) as [Hle|Hlt]; [exact Hle|]. specialize (H2 j Hlt).
      rewrite (proj1 (H j Hj)) in H2. lra.
  - intro Hno. destruct (Nat.ltb i (List.length p)) eqn:E; [|reflexivity].
    exfalso. apply Nat.ltb_lt in E. specialize (H3 ltac:(lia)).
    rewrite (proj1 (H i ltac:(lia))) in H3. apply (Hno i); [lia|exact H3].
Qed.

Lemma sampled_raw : forall ranked n_gt p r s,
  List.length p = List.length ranked -> List.length r = List.length ranked ->
  (forall i, (i < List.length ranked)%nat ->
       get i r = recall_at ranked n_gt i /\ get i p == raw_precision ranked i) ->
  let i := searchsorted r s in
  let q := if Nat.ltb i (List.length p) then get i p else 0 in
  (forall j, (j < List.length ranked)%nat -> s <= recall_at ranked n_gt j ->
     (forall j', (j' < j)%nat -> ~ s <= recall_at ranked n_gt j') -> q == raw_precision ranked j) /\
  ((forall j, (j < List.length ranked)%nat -> ~ s <= recall_at ranked n_gt j) -> q = 0).
Proof.
  intros ranked n_gt p r s Hp Hr H. cbv zeta.
  destruct (searchsorted_first r s) as (H1 & H2 & H3). set (i := searchsorted r s) in *.
  split.
  - intros j Hj Hs Hfirst.
    assert (Hi : (i <= j)%nat).
    { destruct (le_lt_dec i j) as [Hle|Hlt]; [exact Hle|]. specialize (H2 j Hlt).
      rewrite (proj1 (H j Hj)) in H2. lra. }
    assert (Hij : i = j).
    { destruct (Nat.eq_dec i j) as [E|Hne]; [exact E|exfalso].
      apply (Hfirst i); [lia|]. rewrite <- (proj1 (H i ltac:(lia))). apply H3. lia. }
    rewrite Hij. replace (Nat.ltb j (List.length p)) with true by (symmetry; apply Nat.ltb_lt; lia).
    apply H. exact Hj.
  - intro Hno. destruct (Nat.ltb i (List.length p)) eqn:E; [|reflexivity].
    exfalso. apply Nat.ltb_lt in E. specialize (H3 ltac:(lia)).
    rewrite (proj1 (H i ltac:(lia))) in H3. apply (Hno i); [lia|exact H3].
Qed.

(** * A concrete sort satisfying the contract *)
Definition stable_argsort (l : list Q) : list nat :=
  isort (fun i j => Qle_bool (nth i l 0) (nth j l 0)) (seq 0 (List.length l)).

Lemma stable_argsort_ok : argsort_ok stable_argsort.
Proof.
  intro l. split.
  - apply Permutation_sym, isort_perm.
  - eapply StronglySorted_impl; [|apply isort_sorted].
    + intros x y H. apply Qle_bool_iff. exact H.
    + intros; apply Qle_bool_total.
    + intros a b c; apply Qle_bool_trans.
Qed.

(** * More lemmas used by Props *)
Lemma sorted_by_index : forall (R : Q -> Q -> Prop) l,
  (forall i j, (i < j)%nat -> (j < List.length l)%nat -> R (nth i l 0) (nth j l 0)) ->
  StronglySorted R l.
Proof.
  intros R l. induction l as [|x l IH]; intro H; constructor.
  - apply IH. intros i j Hij Hj. apply (H (S i) (S j)); simpl; lia.
  - apply Forall_forall. intros y Hy. apply (In_nth _ _ 0) in Hy as (j & Hj & <-).
    apply (H 0%nat (S j)); simpl; lia.
Qed.

Lemma env_idem : forall l, env (env l) = env l.
Proof.
  induction l as [|x t IH]; [reflexivity|].
  simpl. rewrite IH. f_equal. destruct (env t) as [|y e]; [reflexivity|].
  destruct (Qltb x y) eqn:E.
  - destruct (Qltb y y); reflexivity.
  - rewrite E. reflexivity.
Qed.

Lemma correct_upto_pointwise : forall l l' j, List.length l = List.length l' ->
  (forall i, (i < List.length l)%nat -> nth i l false = true -> nth i l' false = true) ->
  (correct_upto j l <= correct_upto j l')%nat.
Proof.
  induction l as [|b l IH]; intros [|b' l'] j Hl H; try discriminate; [lia|].
  destruct j as [|j]; [rewrite !correct_upto_0; lia|]. rewrite !correct_upto_cons.
  assert (H0 := H 0%nat ltac:(simpl; lia)). simpl in H0.
  assert (correct_upto j l <= correct_upto j l')%nat.
  { apply IH; [simpl in Hl; lia|]. intros i Hi. apply (H (S i)). simpl; lia. }
  destruct b, b'; try lia; specialize (H0 eq_refl); discriminate.
Qed.

Lemma sorted_ap : forall argsort ms ss n_gt sorted ap p r, (0 < n_gt)%nat ->
  sorted_matches argsort ms ss = Ok sorted ->
  compute_auc_ap argsort ms ss n_gt = Ok (ap, p, r) ->
  ap_of (map verdict sorted) n_gt ap.
Proof.
  intros argsort ms ss n_gt sorted ap p r Hn Es E. unfold compute_auc_ap in E. rewrite Es in E. cbn [bind] in E.
  destruct (basic_pr sorted n_gt) as [p0 r0] eqn:Eb.
  destruct (auc_value sorted n_gt p0 r0 Hn Eb) as (ap' & Ev & Eap). rewrite Ev in E. injection E as <- <- <-.
  assert (Hp : List.length p0 = List.length (map verdict sorted)).
  { change p0 with (fst (p0, r0)). rewrite <- Eb. apply prec_length. }
  destruct (ap_of_tp_sum (map verdict sorted) n_gt (env p0) Hn) as (best & H1 & H2).
  - rewrite env_length; exact Hp.
  - intros i Hi. rewrite <- Hp. eapply is_max_ext; [| |apply env_is_max; lia].
    + intros; reflexivity.
    + intros j Hj. change p0 with (fst (p0, r0)). rewrite <- Eb. apply prec_get; lia.
  - exists best. split; [exact H1|]. rewrite Eap. exact H2.
Qed.

Lemma nth_opp : forall i l, nth i (map Qopp l) 0 = - nth i l 0.
Proof. intros i l. exact (map_nth Qopp l 0 i). Qed.

(** With distinct scores the sorted vector does not depend on the order of the
    detections. *)
Lemma sorted_matches_permuted : forall argsort argsort' ms ss pi,
  argsort_ok argsort -> argsort_ok argsort' -> List.length ss = List.length ms -> distinct ss ->
  Permutation pi (seq 0 (List.length ss)) ->
  sorted_matches argsort' (map (fun i => nth i ms 0%Z) pi) (map (fun i => nth i ss 0) pi)
  = sorted_matches argsort ms ss.
Proof.
  intros argsort argsort' ms ss pi Ha Ha' Hl Hd Hp.
  destruct (Ha (map Qopp ss)) as [P1 S1]. rewrite map_length in P1.
  destruct (Ha' (map Qopp (map (fun i => nth i ss 0) pi))) as [P2 S2]. rewrite !map_length in P2.
  unfold sorted_matches.
  set (o := argsort (map Qopp ss)) in *. set (o' := argsort' (map Qopp (map (fun i => nth i ss 0) pi))) in *.
  assert (Hpl : List.length pi = List.length ss) by (rewrite (Permutation_length Hp), seq_length; reflexivity).
  assert (I1 : forall i, In i o -> (i < List.length ss)%nat).
  { intros i Hi. apply (Permutation_in _ P1) in Hi. apply in_seq in Hi. lia. }
  assert (I2 : forall i, In i o' -> (i < List.length pi)%nat).
  { intros i Hi. apply (Permutation_in _ P2) in Hi. apply in_seq in Hi. lia. }
  rewrite (mapM_nth _ ms 0%Z) by (intros i Hi; specialize (I1 i Hi); lia).
  rewrite (mapM_nth _ _ 0%Z) by (intros i Hi; rewrite map_length; apply I2; exact Hi).
  f_equal.
  assert (E : map (fun i => nth i pi 0%nat) o' = o).
  { apply (sorted_perm_unique _ (fun i j => nth j ss 0 <= nth i ss 0)).
    - intros x y Hx Hy H1 H2. apply in_map_iff in Hx as (a & <- & Ha0). apply in_map_iff in Hy as (b & <- & Hb0).
      assert (Hin : forall k, (k < List.length pi)%nat -> (nth k pi 0%nat < List.length ss)%nat).
      { intros k Hk. assert (H := nth_In pi 0%nat Hk). apply (Permutation_in _ Hp) in H. apply in_seq in H. lia. }
      apply Hd; auto. lra.
    - clear P2. induction S2 as [|i l S2 IH Hf]; simpl; constructor.
      + apply IH. intros k Hk; apply I2; right; exact Hk.
      + rewrite Forall_forall in *. intros k Hk. apply in_map_iff in Hk as (j & <- & Hj).
        specialize (Hf j Hj). cbv beta in Hf. rewrite !nth_opp in Hf.
        rewrite (nth_map_nth _ ss 0 pi i), (nth_map_nth _ ss 0 pi j) in Hf by (apply I2; simpl; auto). lra.
    - eapply StronglySorted_impl; [|exact S1]. intros x y H. cbv beta in H.
      rewrite !nth_opp in H. lra.
    - apply Permutation_trans with (map (fun i => nth i pi 0%nat) (seq 0 (List.length pi))).
      + apply Permutation_map. exact P2.
      + rewrite map_nth_seq. eapply Permutation_trans; [exact Hp|apply Permutation_sym; exact P1]. }
  rewrite <- E. rewrite map_map. apply map_ext_in. intros i Hi. apply nth_map_nth. apply I2; exact Hi.
Qed.

Lemma mean_bounds : forall l a, np_mean l = Some a -> (forall x, In x l -> 0 <= x <= 1) -> 0 <= a <= 1.
Proof.
  intros l a Hm H. destruct l as [|x l]; [discriminate|]. unfold np_mean in Hm. injection Hm as <-.
  set (v := x :: l) in *.
  assert (Hq : 0 < Qnat (List.length v)) by (apply Qnat_pos; simpl; lia).
  assert (Hs : 0 <= Qsum v <= Qnat (List.length v)).
  { generalize v H. clear. induction v as [|y v IH]; intro H; [simpl; split; apply Qle_refl|].
    simpl Qsum. simpl List.length. rewrite Qnat_S.
    assert (0 <= y <= 1) by (apply H; left; reflexivity).
    assert (0 <= Qsum v <= Qnat (List.length v)) by (apply IH; intros; apply H; right; assumption). lra. }
  split; [apply Qdiv_nonneg; tauto|apply Qdiv_le_1; tauto].
Qed.
