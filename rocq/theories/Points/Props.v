(** Properties C14-C17: point-set IoU and surface errors. *)
From Coq Require Import Reals Lra Lia List Bool String QArith ZArith.
From Verif.Base Require Import Py PyFacts Vec.
From Verif.Assoc Require Import Model Spec Proofs.
From Verif.Box Require Import Model Spec Proofs.
From Verif.Points Require Import Model Spec Proofs.
Import ListNotations.
Open Scope R_scope.

(** The contract of the nearest neighbour query can be met: exhaustive search. *)
Fixpoint brute (tree : list vec) (q : vec) : R * nat :=
  match tree with
  | [] => (0, 0%nat)
  | [p] => (dist q p, 0%nat)
  | p :: t => let '(d, i) := brute t q in if Rle_dec (dist q p) d then (dist q p, 0%nat) else (d, S i)
  end.
Lemma brute_ok : query_ok brute.
Proof.
  intros tree q. induction tree as [|p t IH]; intro H; [congruence|]. destruct t as [|p' t].
  - simpl. split; [lia|]. split; [reflexivity|]. intros x [<-|[]]. lra.
  - cbn [brute] in *. specialize (IH ltac:(discriminate)).
    destruct (match t with [] => _ | _ => _ end) as [d i]. destruct IH as (Hi & Hd & Hm).
    destruct (Rle_dec (dist q p) d).
    + split; [simpl; lia|]. split; [reflexivity|]. intros x [<-|Hx]; [lra|]. specialize (Hm x Hx). lra.
    + split; [simpl in *; lia|]. split; [exact Hd|]. intros x [<-|Hx]; [lra|apply Hm, Hx].
Qed.

(** * C14 *)

(** The value: the share of points of both sets with a point of the other set
    within the threshold. *)
Theorem C14_value : forall query, query_ok query ->
  forall ps b1 qs b2 thresh n1 n2,
  (forall r, In r ps -> inside b1 (r_pos r)) -> (forall r, In r qs -> inside b2 (r_pos r)) ->
  counts (near thresh (map r_pos qs)) (map r_pos ps) n1 ->
  counts (near thresh (map r_pos ps)) (map r_pos qs) n2 ->
  (points_iou query ps b1 qs b2 thresh ==
   inject_Z (Z.of_nat (n1 + n2)) / inject_Z (Z.of_nat (List.length ps + List.length qs)))%Q.
Proof.
  intros query HQ ps b1 qs b2 thresh n1 n2 E1 E2 H1 H2. rewrite <- (iou_full_value query HQ ps qs thresh n1 n2 H1 H2).
  unfold points_iou. destruct (iou_quick_reject b1 b2 thresh) eqn:E; [|reflexivity].
  symmetry. eapply quick_full; eassumption.
Qed.

Theorem C14_bounds : forall query ps b1 qs b2 thresh,
  (0 <= points_iou query ps b1 qs b2 thresh /\ points_iou query ps b1 qs b2 thresh <= 1)%Q.
Proof.
  intros. unfold points_iou. destruct (iou_quick_reject _ _ _); [split; discriminate|apply iou_full_bounds].
Qed.

Theorem C14_symmetric : forall query ps b1 qs b2 thresh,
  points_iou query ps b1 qs b2 thresh = points_iou query qs b2 ps b1 thresh.
Proof. intros. unfold points_iou. rewrite quick_sym, iou_full_sym. reflexivity. Qed.

Theorem C14_identical : forall query, query_ok query -> forall ps b thresh,
  ps <> [] -> normalized b -> 0 <= thresh -> (points_iou query ps b ps b thresh == 1)%Q.
Proof.
  intros query HQ ps b thresh Hn Hb Ht. unfold points_iou.
  destruct (iou_quick_reject b b thresh) eqn:E.
  - exfalso. apply quick_iff in E. destruct E as (axis & Ha & K). unfold normalized in Hb. rewrite coord_le in Hb.
    specialize (Hb axis Ha). lra.
  - assert (C : counts (near thresh (map r_pos ps)) (map r_pos ps) (List.length ps)).
    { rewrite <- (map_length r_pos). apply counts_all. intros x Hx. exists x. split; [exact Hx|]. rewrite dist_self. exact Ht. }
    rewrite (iou_full_value query HQ ps ps thresh _ _ C C).
    field. intro Z. assert (L : (0 < List.length ps)%nat) by (destruct ps; [congruence|simpl; lia]).
    change 0%Q with (inject_Z 0) in Z. rewrite inject_Z_injective in Z. lia.
Qed.

Theorem C14_empty : forall query ps b1 qs b2 thresh,
  ps = [] \/ qs = [] -> (points_iou query ps b1 qs b2 thresh == 0)%Q.
Proof.
  intros. unfold points_iou. destruct (iou_quick_reject _ _ _); [reflexivity|apply iou_full_empty; assumption].
Qed.

Theorem C14_monotone : forall query ps b1 qs b2 t1 t2,
  t1 <= t2 -> (points_iou query ps b1 qs b2 t1 <= points_iou query ps b1 qs b2 t2)%Q.
Proof.
  intros query ps b1 qs b2 t1 t2 H. unfold points_iou.
  destruct (iou_quick_reject b1 b2 t2) eqn:E2.
  - assert (E1 : iou_quick_reject b1 b2 t1 = true).
    { apply quick_iff. apply quick_iff in E2. destruct E2 as (a & Ha & K). exists a. split; [exact Ha|]. lra. }
    rewrite E1. apply Qle_refl.
  - destruct (iou_quick_reject b1 b2 t1); [apply iou_full_bounds|apply iou_full_mono, H].
Qed.

(** The value is 1 exactly when each point has a neighbour in the other set. *)
Theorem C14_one_iff : forall query, query_ok query -> forall ps b1 qs b2 thresh,
  (forall r, In r ps -> inside b1 (r_pos r)) -> (forall r, In r qs -> inside b2 (r_pos r)) ->
  ((points_iou query ps b1 qs b2 thresh == 1)%Q <->
   (ps <> [] \/ qs <> []) /\
   (forall r, In r ps -> near thresh (map r_pos qs) (r_pos r)) /\
   (forall r, In r qs -> near thresh (map r_pos ps) (r_pos r))).
Proof.
  intros query HQ ps b1 qs b2 thresh E1 E2.
  assert (CE : forall xs ys, exists n, counts (near thresh ys) xs n /\ (n <= List.length xs)%nat /\
    (n = List.length xs -> forall x, In x xs -> near thresh ys x)).
  { intros xs ys. exists (hits query thresh xs ys). split; [apply (hits_counts query HQ); reflexivity|].
    split; [apply hits_le|]. intro H. apply (hits_counts query HQ) in H.
    remember (List.length xs) as n eqn:En. revert En. clear E1 E2.
    assert (LE : forall l m, counts (near thresh ys) l m -> (m <= List.length l)%nat) by (induction 1; simpl; lia).
    induction H as [|x l m Hx Hc IH|x l m Hx Hc IH]; intros En y Hy; [destruct Hy| |].
    - destruct Hy as [<-|Hy]; [exact Hx|]. apply IH; [simpl in En; lia|exact Hy].
    - specialize (LE _ _ Hc). simpl in En. lia. }
  destruct (CE (map r_pos ps) (map r_pos qs)) as (n1 & C1 & L1 & F1).
  destruct (CE (map r_pos qs) (map r_pos ps)) as (n2 & C2 & L2 & F2).
  rewrite (C14_value query HQ ps b1 qs b2 thresh n1 n2 E1 E2 C1 C2). rewrite map_length in *. split.
  - intro H.
    assert (LN : (List.length ps + List.length qs <> 0)%nat).
    { intro Z. rewrite Z in H. unfold Qdiv in H. change (/ inject_Z (Z.of_nat 0))%Q with 0%Q in H.
      rewrite Qmult_0_r in H. discriminate H. }
    assert (P : ~ (inject_Z (Z.of_nat (List.length ps + List.length qs)) == 0)%Q).
    { change 0%Q with (inject_Z 0). rewrite inject_Z_injective. lia. }
    assert (H' : (inject_Z (Z.of_nat (n1 + n2)) == inject_Z (Z.of_nat (List.length ps + List.length qs)))%Q).
    { rewrite <- (Qmult_1_l (inject_Z (Z.of_nat (List.length ps + List.length qs)))). rewrite <- H. field. exact P. }
    rewrite inject_Z_injective in H'. split; [destruct ps; destruct qs; simpl in LN; (left; discriminate) || (right; discriminate) || lia|].
    split; intros r Hr; [apply F1|apply F2]; try lia; apply in_map, Hr.
  - intros (N & A1 & A2).
    assert (G1 : counts (near thresh (map r_pos qs)) (map r_pos ps) (List.length ps)).
    { rewrite <- (map_length r_pos). apply counts_all. intros x Hx. apply in_map_iff in Hx. destruct Hx as (r & <- & Hr). auto. }
    assert (G2 : counts (near thresh (map r_pos ps)) (map r_pos qs) (List.length qs)).
    { rewrite <- (map_length r_pos). apply counts_all. intros x Hx. apply in_map_iff in Hx. destruct Hx as (r & <- & Hr). auto. }
    apply (hits_counts query HQ) in G1. apply (hits_counts query HQ) in G2.
    apply (hits_counts query HQ) in C1. apply (hits_counts query HQ) in C2.
    assert (X1 : n1 = List.length ps) by congruence. assert (X2 : n2 = List.length qs) by congruence. rewrite X1, X2.
    field. change 0%Q with (inject_Z 0). rewrite inject_Z_injective.
    destruct N as [N|N]; [destruct ps|destruct qs]; try congruence; simpl; lia.
Qed.

(** Two points against one of them: 2/3. *)
Definition ex_near_pts : list row := [Row (V 0 0 0) [1; 0; 0]; Row (V 3 4 0) [0; 1; 0]].
Definition ex_one_pt : list row := [Row (V 0 0 0) [0; 0; 0]].
Lemma dist_345 : dist (V 3 4 0) (V 0 0 0) = 5.
Proof.
  unfold dist, norm. replace (dot _ _) with (5 * 5); [apply sqrt_square; lra|unfold dot, vsub; simpl; ring].
Qed.
Example C14_example : (points_iou brute ex_near_pts (Box vzero (V 3 4 0)) ex_one_pt (Box vzero vzero) 1 == 2 # 3)%Q /\
  (points_iou brute ex_near_pts (Box vzero (V 3 4 0)) ex_one_pt (Box vzero vzero) 5 == 1)%Q.
Proof.
  assert (I1 : forall r, In r ex_near_pts -> inside (Box vzero (V 3 4 0)) (r_pos r)).
  { intros r [<-|[<-|[]]]; unfold inside, vle, vzero; simpl; lra. }
  assert (I2 : forall r, In r ex_one_pt -> inside (Box vzero vzero) (r_pos r)).
  { intros r [<-|[]]; unfold inside, vle, vzero; simpl; lra. }
  assert (N0 : forall t ps, 0 <= t -> In (V 0 0 0) ps -> near t ps (V 0 0 0)).
  { intros t ps Ht H. exists (V 0 0 0). split; [exact H|]. rewrite dist_self. exact Ht. }
  split.
  - rewrite (C14_value brute brute_ok ex_near_pts _ ex_one_pt _ 1 1 1 I1 I2); [reflexivity| |].
    + apply counts_yes; [apply N0; [lra|left; reflexivity]|]. apply counts_no; [|constructor].
      intros (q & [<-|[]] & D). simpl in D. rewrite dist_345 in D. lra.
    + apply counts_yes; [apply N0; [lra|left; reflexivity]|constructor].
  - apply (C14_one_iff brute brute_ok); [exact I1|exact I2|]. split; [left; discriminate|]. split.
    + intros r [<-|[<-|[]]]; exists (V 0 0 0); (split; [left; reflexivity|]); cbn [r_pos]; [rewrite dist_self|rewrite dist_345]; lra.
    + intros r [<-|[]]; exists (V 0 0 0); (split; [left; reflexivity|]); cbn [r_pos]; rewrite dist_self; lra.
Qed.

(** * C15 *)
Theorem C15_shortcut_sound : forall query, query_ok query ->
  forall ps b1 qs b2 thresh,
  (forall r, In r ps -> inside b1 (r_pos r)) -> (forall r, In r qs -> inside b2 (r_pos r)) ->
  iou_quick_reject b1 b2 thresh = true ->
  (points_iou query ps b1 qs b2 thresh == iou_full query ps qs thresh)%Q /\
  (iou_full query ps qs thresh == 0)%Q.
Proof.
  intros query HQ ps b1 qs b2 thresh E1 E2 H. assert (Z := quick_full query HQ ps qs b1 b2 thresh E1 E2 H).
  split; [|exact Z]. unfold points_iou. rewrite H. symmetry. exact Z.
Qed.

(** So the boxes never matter, as long as they enclose the points; for the mesh
    track they are the bounding boxes of the samples. *)
Theorem C15_boxes_irrelevant : forall query, query_ok query ->
  forall ps b1 b1' qs b2 b2' thresh,
  (forall r, In r ps -> inside b1 (r_pos r) /\ inside b1' (r_pos r)) ->
  (forall r, In r qs -> inside b2 (r_pos r) /\ inside b2' (r_pos r)) ->
  (points_iou query ps b1 qs b2 thresh == points_iou query ps b1' qs b2' thresh)%Q.
Proof.
  intros query HQ ps b1 b1' qs b2 b2' thresh E1 E2.
  assert (K : forall c1 c2, (forall r, In r ps -> inside c1 (r_pos r)) -> (forall r, In r qs -> inside c2 (r_pos r)) ->
    (points_iou query ps c1 qs c2 thresh == iou_full query ps qs thresh)%Q).
  { intros c1 c2 H1 H2. unfold points_iou. destruct (iou_quick_reject c1 c2 thresh) eqn:E; [|reflexivity].
    symmetry. eapply quick_full; eassumption. }
  rewrite !K; [reflexivity| | | |]; intros r Hr; (apply E1 in Hr || apply E2 in Hr); tauto.
Qed.

Lemma mesh_bbox_encloses : forall rs r, In r rs -> inside (mesh_bbox rs) (r_pos r).
Proof.
  intros rs r Hr. apply (from_point_cloud_tight (map r_pos rs)); [|apply in_map, Hr].
  destruct rs; [destruct Hr|discriminate].
Qed.

Theorem C15_mesh_similarity : forall query, query_ok query -> forall thresh (e1 e2 : elem (list row)) n1 n2,
  counts (near thresh (map r_pos (e_info e2))) (map r_pos (e_info e1)) n1 ->
  counts (near thresh (map r_pos (e_info e1))) (map r_pos (e_info e2)) n2 ->
  (mesh_similarity query thresh e1 e2 ==
   inject_Z (Z.of_nat (n1 + n2)) / inject_Z (Z.of_nat (List.length (e_info e1) + List.length (e_info e2))))%Q.
Proof.
  intros query HQ thresh e1 e2 n1 n2 H1 H2. apply C14_value; [exact HQ| | |exact H1|exact H2];
    apply mesh_bbox_encloses.
Qed.

(** Boxes that do not enclose the points make the shortcut wrong. *)
Example C15_needs_enclosure :
  (points_iou brute ex_one_pt (Box (V 9 9 9) (V 9 9 9)) ex_one_pt (Box vzero vzero) 1 == 0)%Q /\
  (iou_full brute ex_one_pt ex_one_pt 1 == 1)%Q.
Proof.
  split.
  - unfold points_iou. replace (iou_quick_reject _ _ _) with true; [reflexivity|]. symmetry. apply quick_iff.
    exists 0%nat. split; [lia|]. left. simpl. lra.
  - rewrite (iou_full_value brute brute_ok ex_one_pt ex_one_pt 1 1 1); [reflexivity| |];
      (apply counts_yes; [|constructor]); exists (V 0 0 0); (split; [left; reflexivity|]); cbn [r_pos]; rewrite dist_self; lra.
Qed.

(** * C16 *)
Theorem C16_pair_value : forall query, query_ok query -> forall ps qs,
  exists v, pair_rmsssd query ps qs = Ok v /\ 0 <= v /\ surface_error (map r_pos ps) (map r_pos qs) v.
Proof.
  intros query HQ ps qs. destruct (pair_surface query HQ ps qs) as (v & E & S). exists v. split; [exact E|]. split; [|exact S].
  destruct S as [[_ ->]|(_ & _ & d12 & d21 & _ & _ & H & _)]; [lra|exact H].
Qed.

Theorem C16_pair_symmetric : forall query ps qs, pair_rmsssd query ps qs = pair_rmsssd query qs ps.
Proof. intros; apply pair_sym. Qed.

Theorem C16_pair_zero : forall query, query_ok query -> forall ps qs,
  pair_rmsssd query ps qs = Ok 0 <->
  ps = [] \/ qs = [] \/ (forall p, In p (map r_pos ps) <-> In p (map r_pos qs)).
Proof.
  intros query HQ ps qs. destruct ps as [|p ps]; [split; auto; intro; apply pair_empty; auto|].
  destruct qs as [|q qs]; [split; auto; intro; apply pair_empty; auto|].
  rewrite (pair_zero query HQ) by discriminate. split; [auto|]. intros [H|[H|H]]; [discriminate|discriminate|exact H].
Qed.

(** The per-pair cache: with it the loop computes what it would compute without,
    for any evaluator state and any measure. *)
Theorem C16_cache_transparent : forall A (pts : A -> list row) pair (ev : @evaluator A),
  assoc_average pts pair ev = (let* vals := direct_values pts pair ev in Ok (mean_or_inf vals)).
Proof. intros. apply average_direct. Qed.

(** The reported error on scenes keyed by id: never an exception, infinity exactly
    when no threshold has a correspondence, otherwise the mean of the surface
    errors of matched elements, hence non-negative. *)
Theorem C16_reported : forall query, query_ok query ->
  forall A (sim : elem A -> elem A -> Q) (pts : A -> list row) sub gt ts cats ev,
  keyed_by_id sub -> keyed_by_id gt -> evaluator_init sim sub gt ts cats = Ok ev ->
  exists r, points_rmsssd query pts ev = Ok r /\
    (r = None <-> forall t table, In t ts -> dget Qeq_bool t (ev_agnostic ev) = Some table -> table = []) /\
    (forall m, r = Some m -> 0 <= m /\ exists vals,
       direct_values pts (pair_rmsssd query) ev = Ok vals /\ vals <> [] /\
       m * INR (List.length vals) = fold_right Rplus 0 vals /\
       Forall (fun v => exists d g, In d (elements sub) /\ In g (elements gt) /\
         surface_error (map r_pos (pts (e_info d))) (map r_pos (pts (e_info g))) v) vals).
Proof.
  intros query HQ A sim pts sub gt ts cats ev Kd Kg Hev.
  destruct (direct_ok sim pts (pair_rmsssd query) sub gt ts cats ev Kd Kg Hev) as (vals & E).
  { intros d g _ _ _. destruct (pair_surface query HQ (pts (e_info d)) (pts (e_info g))) as (v & Ev & _). eauto. }
  exists (mean_or_inf vals). unfold points_rmsssd. rewrite average_direct, E. split; [reflexivity|].
  split.
  - rewrite <- (direct_empty sim pts (pair_rmsssd query) sub gt ts cats ev Kd Kg Hev vals E).
    destruct vals; simpl; split; congruence.
  - intros m Hm. destruct vals as [|v0 vals]; [discriminate|].
    assert (S : forall v, In v (v0 :: vals) -> exists d g, In d (elements sub) /\ In g (elements gt) /\
         surface_error (map r_pos (pts (e_info d))) (map r_pos (pts (e_info g))) v).
    { intros v Hv. destruct (direct_values_in sim pts (pair_rmsssd query) sub gt ts cats ev Kd Kg Hev _ E v Hv) as (d & g & Id & Ig & Ep).
      destruct (pair_surface query HQ (pts (e_info d)) (pts (e_info g))) as (v' & E' & S').
      assert (v' = v) by congruence. subst v'. exists d, g. auto. }
    assert (P : 0 < INR (List.length (v0 :: vals))) by (apply lt_0_INR; simpl; lia).
    unfold mean_or_inf in Hm. injection Hm as <-. split.
    + apply Rmult_le_pos; [|left; apply Rinv_0_lt_compat; exact P].
      apply (Rsum_ge0 (v0 :: vals)). intros x Hx. destruct (S x Hx) as (d & g & _ & _ & [[_ ->]|(_ & _ & d12 & d21 & _ & _ & H & _)]); [lra|exact H].
    + exists (v0 :: vals). split; [reflexivity|]. split; [discriminate|]. split.
      * unfold Rdiv. rewrite Rmult_assoc, Rinv_l by lra. apply Rmult_1_r.
      * apply Forall_forall. exact S.
Qed.

(** 0, 0 and 5 over three points: sqrt(25/3). *)
Example C16_example : exists v, pair_rmsssd brute ex_near_pts ex_one_pt = Ok v /\ v * v = 25 / 3.
Proof.
  destruct (pair_surface brute brute_ok ex_near_pts ex_one_pt) as (v & E & S). exists v. split; [exact E|].
  destruct S as [[[H|H] _]|(_ & _ & d12 & d21 & F1 & F2 & _ & K)]; [discriminate|discriminate|].
  assert (D0 : forall ps d, In (V 0 0 0) ps -> set_distance ps (V 0 0 0) d -> d = 0).
  { intros ps d H [(q & _ & ->) M]. specialize (M _ H). rewrite dist_self in M. assert (G := dist_ge0 (V 0 0 0) q). lra. }
  inversion F1 as [|? a ? l1 A1 F1']; subst. inversion F1' as [|? b ? l2 A2 F1'']; subst. inversion F1''; subst.
  inversion F2 as [|? c ? l3 A3 F2']; subst. inversion F2'; subst.
  apply D0 in A1; [|left; reflexivity]. apply D0 in A3; [|left; reflexivity].
  destruct A2 as [(q & [<-|[]] & A2) _]. cbn [r_pos] in A2. rewrite dist_345 in A2. subst. cbn in K. lra.
Qed.

(** * C17 *)
Theorem C17_defined : forall query, query_ok query -> forall rs ss,
  (rs <> [] /\ ss <> [] -> exists v, pair_color query rs ss = Ok v /\ 0 <= v /\ color_error rs ss v) /\
  (rs = [] /\ ss = [] -> pair_color query rs ss = Ok 0) /\
  (rs <> [] /\ ss = [] \/ rs = [] /\ ss <> [] ->
     pair_color query rs ss =
     if Nat.eqb (List.length rs + List.length ss) 1 then Ok 0 else Err BroadcastError).
Proof.
  intros query HQ rs ss. split; [|split].
  - intros [Hr Hs]. destruct (pair_color_value query HQ rs ss Hr Hs) as (v & E & C). exists v. split; [exact E|].
    split; [|exact C]. destruct C as (n12 & n21 & _ & _ & H & _). exact H.
  - intros [-> ->]. reflexivity.
  - intros [[Hr ->]|[-> Hs]].
    + rewrite Nat.add_0_r. apply pair_color_one_empty, Hr.
    + apply pair_color_one_empty, Hs.
Qed.

Theorem C17_symmetric : forall query, query_ok query -> forall rs ss,
  pair_color query rs ss = pair_color query ss rs.
Proof. intros; apply pair_color_sym; assumption. Qed.

(** Rows without color columns (the voxel track): the error is 0 whenever it is
    defined, whatever the points. *)
Theorem C17_colorless_always_zero : forall query, query_ok query -> forall rs ss,
  (forall r, In r rs -> r_col r = []) -> (forall r, In r ss -> r_col r = []) ->
  pair_color query rs ss = Ok 0 \/ pair_color query rs ss = Err BroadcastError.
Proof.
  intros query HQ rs ss Cr Cs. destruct (C17_defined query HQ rs ss) as (D1 & D2 & D3).
  destruct rs as [|r rs]; destruct ss as [|s ss].
  - left; apply D2; auto.
  - rewrite D3 by (right; split; [reflexivity|discriminate]). destruct (Nat.eqb _ _); auto.
  - rewrite D3 by (left; split; [discriminate|reflexivity]). destruct (Nat.eqb _ _); auto.
  - destruct D1 as (v & E & Hv & n12 & n21 & _ & _ & _ & S); [split; discriminate|]. left. rewrite E. f_equal.
    assert (Z : forall xs ys, (forall x, In x xs -> r_col x = []) ->
      fold_right Rplus 0 (map (fun p => color_gap (r_col (fst p)) (r_col (snd p))) (combine xs ys)) = 0).
    { induction xs as [|x xs IH]; intros [|y ys] H; try reflexivity. cbn [combine map fold_right fst snd].
      rewrite IH by (intros; apply H; right; assumption). rewrite (H x (or_introl eq_refl)). cbn. lra. }
    rewrite !Z in S by assumption. assert (P : 0 < INR (List.length (r :: rs) + List.length (s :: ss))) by (apply lt_0_INR; simpl; lia).
    rewrite Rplus_0_l in S. apply Rmult_integral in S. destruct S as [S|S]; [|lra]. apply Rmult_integral in S. tauto.
Qed.

(** With the mesh similarity and positive thresholds a matched pair has points on
    both sides, so color_rmsssd does not raise. *)
Theorem C17_positive_thresholds_safe : forall query, query_ok query ->
  forall thresh sub gt ts cats ev,
  keyed_by_id sub -> keyed_by_id gt -> (forall t, In t ts -> 0 < t)%Q ->
  evaluator_init (mesh_similarity query thresh) sub gt ts cats = Ok ev ->
  exists r, color_rmsssd query (fun rows => rows) ev = Ok r.
Proof.
  intros query HQ thresh sub gt ts cats ev Kd Kg Ht Hev.
  destruct (direct_ok (mesh_similarity query thresh) (fun rows => rows) (pair_color query) sub gt ts cats ev Kd Kg Hev) as (vals & E).
  { intros d g _ _ (t & It & Hs).
    assert (N : e_info d <> [] /\ e_info g <> []).
    { split; intro Z; assert (P := Ht t It); unfold mesh_similarity in Hs; rewrite C14_empty in Hs by auto;
        exact (Qlt_not_le _ _ P Hs). }
    destruct (C17_defined query HQ (e_info d) (e_info g)) as (D1 & _). destruct (D1 N) as (v & Ev & _). eauto. }
  exists (mean_or_inf vals). unfold color_rmsssd. rewrite average_direct, E. reflexivity.
Qed.

(** At threshold 0 it does: an element without points matches anything. *)
Definition ex_d : elem (list row) := mkElem "d"%string "chair"%string 1 true ex_near_pts.
Definition ex_g : elem (list row) := mkElem "g"%string "chair"%string 1 true [].
Theorem C17_total_refuted : exists query thresh sub gt ts cats ev,
  query_ok query /\ keyed_by_id sub /\ keyed_by_id gt /\ (forall t, In t ts -> 0 <= t)%Q /\
  evaluator_init (mesh_similarity query thresh) sub gt ts cats = Ok ev /\
  color_rmsssd query (fun rows => rows) ev = Err BroadcastError.
Proof.
  exists brute, 1, [("d"%string, ex_d)], [("g"%string, ex_g)], [0%Q], [].
  assert (S : Qle_bool 0 (mesh_similarity brute 1 ex_d ex_g) = true).
  { apply Qle_bool_iff. unfold mesh_similarity. rewrite C14_empty by (right; reflexivity). apply Qle_refl. }
  remember (mesh_similarity brute 1) as sim eqn:Es.
  assert (E : exists ev, evaluator_init sim [("d"%string, ex_d)] [("g"%string, ex_g)] [0%Q] [] = Ok ev /\
     ev = mkEvaluator [0%Q] [] [("d"%string, ex_d)] [("g"%string, ex_g)]
       [("d"%string, [("g"%string, mkCorr "d" "g" (sim ex_d ex_g) 1 true)])]
       [(0%Q, [("d"%string, mkCorr "d" "g" (sim ex_d ex_g) 1 true)])] []).
  { eexists. split; [|reflexivity]. unfold evaluator_init. cbn -[Qle_bool]. unfold Qltb. cbn -[Qle_bool].
    unfold compute_agnostic. cbn -[Qle_bool]. unfold Qltb. rewrite S. cbn. reflexivity. }
  destruct E as (ev & E & Ev). exists ev.
  split; [apply brute_ok|].
  split; [split; [repeat constructor; intros []|intros k e [H|[]]; injection H as <- <-; reflexivity]|].
  split; [split; [repeat constructor; intros []|intros k e [H|[]]; injection H as <- <-; reflexivity]|].
  split; [intros t [<-|[]]; apply Qle_refl|]. split; [exact E|].
  subst ev. reflexivity.
Qed.

(** Red against black over three points. *)
Example C17_example : exists v, pair_color brute ex_near_pts ex_one_pt = Ok v /\ 0 <= v /\
  pair_color brute ex_near_pts [] = Err BroadcastError /\ pair_color brute [] ex_one_pt = Ok 0.
Proof.
  destruct (C17_defined brute brute_ok ex_near_pts ex_one_pt) as (D & _).
  destruct D as (v & E & H & _); [split; discriminate|]. exists v. repeat split; auto.
Qed.

Print Assumptions C14_value.
Print Assumptions C14_bounds.
Print Assumptions C14_symmetric.
Print Assumptions C14_identical.
Print Assumptions C14_empty.
Print Assumptions C14_monotone.
Print Assumptions C14_one_iff.
Print Assumptions C15_shortcut_sound.
Print Assumptions C15_boxes_irrelevant.
Print Assumptions C15_mesh_similarity.
Print Assumptions C16_pair_value.
Print Assumptions C16_pair_symmetric.
Print Assumptions C16_pair_zero.
Print Assumptions C16_cache_transparent.
Print Assumptions C16_reported.
Print Assumptions C17_defined.
Print Assumptions C17_symmetric.
Print Assumptions C17_colorless_always_zero.
Print Assumptions C17_positive_thresholds_safe.
Print Assumptions C17_total_refuted.
