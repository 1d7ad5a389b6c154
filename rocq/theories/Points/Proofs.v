From Coq Require Import Reals Lra Lia List Bool String QArith ZArith.
From Verif.Base Require Import Py PyFacts Vec.
From Verif.Assoc Require Import Model Spec Proofs.
From Verif.Box Require Import Model Spec Proofs.
From Verif.Scores Require Import Proofs.
From Verif.Points Require Import Model Spec.
Import ListNotations.
Open Scope R_scope.

(** * Distances *)
Lemma dist_ge0 : forall a b, 0 <= dist a b.
Proof. intros. apply sqrt_pos. Qed.
Lemma dist_sym : forall a b, dist a b = dist b a.
Proof. intros. unfold dist, norm. f_equal. unfold dot, vsub; simpl. ring. Qed.
Lemma dist_self : forall a, dist a a = 0.
Proof. intros. unfold dist, norm. replace (dot (vsub a a) (vsub a a)) with 0; [apply sqrt_0|]. unfold dot, vsub; simpl. ring. Qed.
Lemma dist_0 : forall a b, dist a b = 0 -> a = b.
Proof.
  intros a b H. unfold dist, norm in H.
  assert (K : 0 <= dot (vsub a b) (vsub a b)).
  { unfold dot. assert (S := fun x => Rle_0_sqr x). unfold Rsqr in S.
    assert (S1 := S (vx (vsub a b))). assert (S2 := S (vy (vsub a b))). assert (S3 := S (vz (vsub a b))). lra. }
  apply sqrt_eq_0 in H; [|exact K]. unfold dot, vsub in H; simpl in H.
  assert (S := fun x => Rle_0_sqr x). unfold Rsqr in S.
  assert (S1 := S (vx a - vx b)). assert (S2 := S (vy a - vy b)). assert (S3 := S (vz a - vz b)).
  assert (Z : forall x, x * x = 0 -> x = 0) by (intros x Hx; apply Rmult_integral in Hx; tauto).
  apply vec_eq; apply Rminus_diag_uniq; apply Z; lra.
Qed.
Lemma coord_gap_dist : forall axis a b, (axis < 3)%nat -> coord axis a - coord axis b <= dist a b.
Proof.
  intros axis a b Ha. unfold dist, norm.
  apply Rle_trans with (Rabs (coord axis a - coord axis b)); [apply Rle_abs|].
  rewrite <- sqrt_Rsqr_abs. apply sqrt_le_1_alt. unfold Rsqr, dot, vsub; simpl.
  assert (S := fun x => Rle_0_sqr x). unfold Rsqr in S.
  assert (S1 := S (vx a - vx b)). assert (S2 := S (vy a - vy b)). assert (S3 := S (vz a - vz b)).
  destruct axis as [|[|axis]]; simpl; lra.
Qed.

Lemma Rleb_le : forall x y, Rleb x y = true <-> x <= y.
Proof. intros. unfold Rleb. destruct (Rle_dec x y); split; intro; try tauto; discriminate. Qed.

Lemma count_filter : forall A (P : A -> Prop) (f : A -> bool) l n,
  (forall x, f x = true <-> P x) -> (counts P l n <-> List.length (filter f l) = n).
Proof.
  intros A P f l n H. split.
  - induction 1 as [|x l n Hx _ IH|x l n Hx _ IH]; simpl; [reflexivity| |].
    + rewrite (proj2 (H x) Hx). simpl. congruence.
    + destruct (f x) eqn:E; [exfalso; apply Hx, H, E|exact IH].
  - revert n. induction l as [|x l IH]; simpl; intros n E; [subst; constructor|].
    destruct (f x) eqn:Ex; simpl in E; subst n.
    + apply counts_yes; [apply H, Ex|apply IH; reflexivity].
    + apply counts_no; [intro; apply H in H0; congruence|apply IH; reflexivity].
Qed.

Lemma sget_sset : forall V (d : sdict V) k k' v,
  sget k' (sset k v d) = if String.eqb k' k then Some v else sget k' d.
Proof.
  induction d as [|[k0 v0] d IH]; intros k k' v; simpl; [destruct (String.eqb k' k); reflexivity|].
  destruct (String.eqb k k0) eqn:E.
  - apply String.eqb_eq in E. subst k0. simpl. destruct (String.eqb k' k); reflexivity.
  - simpl. rewrite IH. destruct (String.eqb k' k0) eqn:E'; [|reflexivity].
    apply String.eqb_eq in E'. subst k0. destruct (String.eqb k' k) eqn:E2; [|reflexivity].
    apply String.eqb_eq in E2. subst k'. rewrite String.eqb_refl in E. discriminate.
Qed.

Lemma length_filter_map : forall A B (f : A -> B) (p : B -> bool) l,
  List.length (filter p (map f l)) = List.length (filter (fun x => p (f x)) l).
Proof. intros. rewrite filter_map_comm, map_length. reflexivity. Qed.

Section P.
  Variable query : list vec -> vec -> R * nat.

  Lemma query_near : query_ok query -> forall tree q thresh, tree <> [] ->
    (Rleb (fst (query tree q)) thresh = true <-> near thresh tree q).
  Proof.
    intros HQ tree q thresh Hn. rewrite Rleb_le. specialize (HQ tree q Hn).
    destruct (query tree q) as [d i]. simpl. destruct HQ as (Hi & Hd & Hm). split.
    - intro H. exists (nth i tree vzero). split; [apply nth_In, Hi|lra].
    - intros (p & Hp & H). specialize (Hm p Hp). lra.
  Qed.

  (** ** IoU *)
  Definition hits (thresh : R) (ps qs : list vec) : nat :=
    match qs with [] => 0%nat | _ => List.length (filter (fun p => Rleb (fst (query qs p)) thresh) ps) end.

  Lemma nn_nonempty : forall ps qs, ps <> [] -> qs <> [] -> nearest_neighbors query ps qs =
    (map snd (map (query qs) ps), map snd (map (query ps) qs), map fst (map (query qs) ps), map fst (map (query ps) qs)).
  Proof. intros [|p ps] [|q qs] H K; congruence || reflexivity. Qed.
  Lemma hits_nonempty : forall thresh ps qs, qs <> [] ->
    hits thresh ps qs = List.length (filter (fun p => Rleb (fst (query qs p)) thresh) ps).
  Proof. intros thresh ps [|q qs] H; congruence || reflexivity. Qed.

  Lemma iou_full_hits : forall ps qs thresh,
    iou_full query ps qs thresh =
    if Nat.eqb (List.length ps + List.length qs) 0 then 0%Q
    else (inject_Z (Z.of_nat (hits thresh (map r_pos ps) (map r_pos qs) + hits thresh (map r_pos qs) (map r_pos ps)))
          / inject_Z (Z.of_nat (List.length ps + List.length qs)))%Q.
  Proof.
    intros ps qs thresh. unfold iou_full.
    destruct ps as [|p ps]; [destruct qs; reflexivity|]. destruct qs as [|q qs]; [reflexivity|].
    rewrite nn_nonempty by discriminate. rewrite !hits_nonempty by discriminate.
    rewrite !map_map, !length_filter_map. reflexivity.
  Qed.

  Lemma hits_le : forall thresh ps qs, (hits thresh ps qs <= List.length ps)%nat.
  Proof. intros thresh ps [|q qs]; simpl; [lia|].
    induction ps as [|p ps IH]; simpl; [lia|]. destruct (Rleb _ _); simpl; lia. Qed.

  Lemma hits_counts : query_ok query -> forall thresh ps qs n,
    counts (near thresh qs) ps n <-> hits thresh ps qs = n.
  Proof.
    intros HQ thresh ps qs n. destruct qs as [|q qs].
    - unfold hits. rewrite (count_filter _ (near thresh []) (fun _ => false)).
      + clear.
        assert (E : filter (fun _ : vec => false) ps = []) by (induction ps; auto). rewrite E. reflexivity.
      + intro x. split; [discriminate|]. intros (p & [] & _).
    - apply count_filter. intro x. apply query_near; [exact HQ|discriminate].
  Qed.

  Lemma hits_mono : forall t1 t2 ps qs, t1 <= t2 -> (hits t1 ps qs <= hits t2 ps qs)%nat.
  Proof.
    intros t1 t2 ps [|q qs] H; [simpl; lia|]. unfold hits.
    induction ps as [|p ps IH]; simpl; [lia|].
    destruct (Rleb _ t1) eqn:E1; destruct (Rleb _ t2) eqn:E2; simpl; try lia.
    exfalso. apply Rleb_le in E1. assert (Rleb (fst (query (q :: qs) p)) t2 = true) by (apply Rleb_le; lra). congruence.
  Qed.

  Lemma Qdiv_nat_bounds : forall a b, (a <= b)%nat -> b <> 0%nat ->
    (0 <= inject_Z (Z.of_nat a) / inject_Z (Z.of_nat b) /\ inject_Z (Z.of_nat a) / inject_Z (Z.of_nat b) <= 1)%Q.
  Proof.
    intros a b H Hb. assert (P : (0 < inject_Z (Z.of_nat b))%Q) by (rewrite <- (Zlt_Qlt 0); lia). split.
    - apply Qle_shift_div_l; [exact P|]. rewrite Qmult_0_l. change 0%Q with (inject_Z 0). rewrite <- Zle_Qle. lia.
    - apply Qle_shift_div_r; [exact P|]. rewrite Qmult_1_l, <- Zle_Qle. lia.
  Qed.

  Lemma iou_full_bounds : forall ps qs t, (0 <= iou_full query ps qs t /\ iou_full query ps qs t <= 1)%Q.
  Proof.
    intros. rewrite iou_full_hits. destruct (Nat.eqb _ 0) eqn:E; [split; discriminate|].
    apply Nat.eqb_neq in E. apply Qdiv_nat_bounds; [|exact E].
    assert (H := hits_le t (map r_pos ps) (map r_pos qs)). assert (K := hits_le t (map r_pos qs) (map r_pos ps)).
    rewrite map_length in *. lia.
  Qed.

  Lemma iou_full_sym : forall ps qs t, iou_full query ps qs t = iou_full query qs ps t.
  Proof.
    intros. rewrite !iou_full_hits. rewrite (Nat.add_comm (List.length qs)).
    rewrite (Nat.add_comm (hits t (map r_pos qs) _)). reflexivity.
  Qed.

  Lemma iou_full_mono : forall ps qs t1 t2, t1 <= t2 -> (iou_full query ps qs t1 <= iou_full query ps qs t2)%Q.
  Proof.
    intros. rewrite !iou_full_hits. destruct (Nat.eqb _ 0) eqn:E; [apply Qle_refl|].
    apply Nat.eqb_neq in E. unfold Qdiv. apply Qmult_le_compat_r.
    - rewrite <- Zle_Qle. assert (A := hits_mono t1 t2 (map r_pos ps) (map r_pos qs) H).
      assert (B := hits_mono t1 t2 (map r_pos qs) (map r_pos ps) H). lia.
    - apply Qinv_le_0_compat. change 0%Q with (inject_Z 0). rewrite <- Zle_Qle. lia.
  Qed.

  Lemma iou_full_empty : forall ps qs t, ps = [] \/ qs = [] -> (iou_full query ps qs t == 0)%Q.
  Proof.
    intros ps qs t H. rewrite iou_full_hits. destruct (Nat.eqb _ 0); [reflexivity|].
    assert (Z : hits t (map r_pos ps) (map r_pos qs) = 0%nat /\ hits t (map r_pos qs) (map r_pos ps) = 0%nat).
    { destruct H as [-> | ->]; simpl; split; try reflexivity; destruct (map r_pos _); reflexivity. }
    destruct Z as [-> ->]. simpl. unfold Qdiv. apply Qmult_0_l.
  Qed.

  Lemma iou_full_value : query_ok query -> forall ps qs t n1 n2,
    counts (near t (map r_pos qs)) (map r_pos ps) n1 -> counts (near t (map r_pos ps)) (map r_pos qs) n2 ->
    (iou_full query ps qs t ==
     inject_Z (Z.of_nat (n1 + n2)) / inject_Z (Z.of_nat (List.length ps + List.length qs)))%Q.
  Proof.
    intros HQ ps qs t n1 n2 H1 H2. apply hits_counts in H1; [|exact HQ]. apply hits_counts in H2; [|exact HQ].
    rewrite iou_full_hits, H1, H2. destruct (Nat.eqb _ 0) eqn:E; [|reflexivity].
    apply Nat.eqb_eq in E. rewrite E. simpl. unfold Qdiv. change (/ inject_Z 0)%Q with 0%Q. rewrite Qmult_0_r. reflexivity.
  Qed.

  Lemma counts_all : forall A (P : A -> Prop) l, (forall x, In x l -> P x) -> counts P l (List.length l).
  Proof.
    induction l as [|x l IH]; intro H; simpl; constructor; [apply H; left; reflexivity|].
    apply IH. intros; apply H; right; assumption.
  Qed.
  Lemma counts_none : forall A (P : A -> Prop) l, (forall x, In x l -> ~ P x) -> counts P l 0.
  Proof.
    induction l as [|x l IH]; intro H; [constructor|]. apply counts_no; [apply H; left; reflexivity|].
    apply IH. intros; apply H; right; assumption.
  Qed.

  Lemma quick_iff : forall b1 b2 t, iou_quick_reject b1 b2 t = true <->
    exists axis, (axis < 3)%nat /\
      (coord axis (max_corner b2) + t < coord axis (min_corner b1) \/
       coord axis (max_corner b1) + t < coord axis (min_corner b2)).
  Proof.
    intros. unfold iou_quick_reject. rewrite existsb_exists. split; intros (axis & H & K); exists axis.
    - apply in_seq in H. split; [lia|]. apply orb_true_iff in K. rewrite !Rltb_lt in K. exact K.
    - split; [apply in_seq; lia|]. apply orb_true_iff. rewrite !Rltb_lt. exact K.
  Qed.

  Lemma quick_sym : forall b1 b2 t, iou_quick_reject b1 b2 t = iou_quick_reject b2 b1 t.
  Proof.
    intros. apply eq_iff_eq_true. rewrite !quick_iff. split; intros (a & H & K); exists a; tauto.
  Qed.

  Lemma quick_far : forall b1 b2 t p q, iou_quick_reject b1 b2 t = true -> inside b1 p -> inside b2 q -> t < dist p q.
  Proof.
    intros b1 b2 t p q H [I1 I1'] [I2 I2']. apply quick_iff in H. destruct H as (axis & Ha & K).
    rewrite coord_le in I1, I1', I2, I2'.
    specialize (I1 axis Ha). specialize (I1' axis Ha). specialize (I2 axis Ha). specialize (I2' axis Ha).
    destruct K as [K|K].
    - assert (D := coord_gap_dist axis p q Ha). lra.
    - assert (D := coord_gap_dist axis q p Ha). rewrite dist_sym in D. lra.
  Qed.

  Definition encloses (b : box) (rs : list row) : Prop := forall r, In r rs -> inside b (r_pos r).

  Lemma quick_full : query_ok query -> forall ps qs b1 b2 t,
    (forall r, In r ps -> inside b1 (r_pos r)) -> (forall r, In r qs -> inside b2 (r_pos r)) ->
    iou_quick_reject b1 b2 t = true -> (iou_full query ps qs t == 0)%Q.
  Proof.
    intros HQ ps qs b1 b2 t E1 E2 H. rewrite (iou_full_value HQ ps qs t 0 0).
    - simpl. unfold Qdiv. apply Qmult_0_l.
    - apply counts_none. intros x Hx (y & Hy & D). apply in_map_iff in Hx, Hy.
      destruct Hx as (r & <- & Hr). destruct Hy as (s & <- & Hs).
      assert (K := quick_far _ _ _ _ _ H (E1 r Hr) (E2 s Hs)). lra.
    - apply counts_none. intros x Hx (y & Hy & D). apply in_map_iff in Hx, Hy.
      destruct Hx as (r & <- & Hr). destruct Hy as (s & <- & Hs).
      assert (K := quick_far _ _ _ _ _ H (E1 s Hs) (E2 r Hr)). rewrite dist_sym in K. lra.
  Qed.

  (** ** RMSSSD *)
  Lemma Rsum_app : forall l1 l2, Rsum (l1 ++ l2) = Rsum l1 + Rsum l2.
  Proof. unfold Rsum. induction l1; intros; simpl; [lra|]. rewrite IHl1. lra. Qed.
  Lemma Rsum_ge0 : forall l, (forall x, In x l -> 0 <= x) -> 0 <= Rsum l.
  Proof.
    unfold Rsum. induction l as [|x l IH]; intro H; simpl; [lra|].
    assert (A := H x (or_introl eq_refl)). assert (B := IH (fun y Hy => H y (or_intror Hy))). lra.
  Qed.
  Lemma Rsum_zero : forall l, (forall x, In x l -> 0 <= x) -> Rsum l = 0 -> forall x, In x l -> x = 0.
  Proof.
    induction l as [|y l IH]; intros H E x Hx; [destruct Hx|].
    assert (A := H y (or_introl eq_refl)). assert (B := Rsum_ge0 l (fun y Hy => H y (or_intror Hy))).
    unfold Rsum in *. simpl in E. destruct Hx as [<-|Hx]; [lra|].
    apply IH; [intros; apply H; right; assumption|lra|exact Hx].
  Qed.

  Lemma sqrt_mean : forall s n, 0 <= s -> (0 < n)%nat -> 0 <= sqrt (s / INR n) /\ sqrt (s / INR n) * sqrt (s / INR n) * INR n = s.
  Proof.
    intros s n Hs Hn. assert (P : 0 < INR n) by (apply lt_0_INR; exact Hn). split; [apply sqrt_pos|].
    rewrite sqrt_sqrt; [field; lra|]. apply Rmult_le_pos; [exact Hs|]. left; apply Rinv_0_lt_compat; exact P.
  Qed.

  Lemma query_distance : query_ok query -> forall tree q, tree <> [] -> set_distance tree q (fst (query tree q)).
  Proof.
    intros HQ tree q Hn. specialize (HQ tree q Hn). destruct (query tree q) as [d i]. simpl.
    destruct HQ as (Hi & Hd & Hm). split; [|exact Hm]. exists (nth i tree vzero). split; [apply nth_In, Hi|exact Hd].
  Qed.

  Lemma set_distance_unique : forall ps p d d', set_distance ps p d -> set_distance ps p d' -> d = d'.
  Proof. intros ps p d d' [(q & H & E) M] [(q' & H' & E') M']. assert (A := M q' H'). assert (B := M' q H). lra. Qed.

  Lemma Forall2_unique : forall A B (P : A -> B -> Prop) l l1 l2, (forall a b b', P a b -> P a b' -> b = b') ->
    Forall2 P l l1 -> Forall2 P l l2 -> l1 = l2.
  Proof.
    intros A B P l l1 l2 H F1. revert l2. induction F1; intros l2 F2; inversion F2; subst; [reflexivity|].
    f_equal; eauto.
  Qed.

  Lemma Forall2_map_r : forall A B (P : A -> B -> Prop) (f : A -> B) l, (forall a, In a l -> P a (f a)) -> Forall2 P l (map f l).
  Proof.
    induction l as [|a l IH]; intro H; simpl; constructor; [apply H; left; reflexivity|].
    apply IH; intros; apply H; right; assumption.
  Qed.

  Lemma map_nonempty : forall A B (f : A -> B) l, l <> [] -> map f l <> [].
  Proof. intros A B f [|x l] H; [congruence|discriminate]. Qed.

  Definition dists (ps qs : list vec) : list R := map (fun p => fst (query qs p)) ps.

  Lemma pair_nonempty : forall ps qs, ps <> [] -> qs <> [] ->
    pair_rmsssd query ps qs =
    Ok (sqrt ((Rsum (map Rsqr (dists (map r_pos ps) (map r_pos qs))) + Rsum (map Rsqr (dists (map r_pos qs) (map r_pos ps))))
        / INR (List.length ps + List.length qs))).
  Proof.
    intros ps qs Hp Hq. unfold pair_rmsssd, dists. rewrite nn_nonempty by (apply map_nonempty; assumption).
    rewrite !map_map, !map_length. destruct ps as [|p ps]; [congruence|]. reflexivity.
  Qed.

  Lemma pair_empty : forall ps qs, ps = [] \/ qs = [] -> pair_rmsssd query ps qs = Ok 0.
  Proof. intros ps qs [-> | ->]; [reflexivity|]. destruct ps; reflexivity. Qed.

  Lemma dists_spec : query_ok query -> forall ps qs, qs <> [] -> Forall2 (set_distance qs) ps (dists ps qs).
  Proof. intros HQ ps qs H. apply Forall2_map_r. intros. apply query_distance; assumption. Qed.

  Lemma Rsum_sq_ge0 : forall l, 0 <= Rsum (map Rsqr l).
  Proof. intro. apply Rsum_ge0. intros x H. apply in_map_iff in H. destruct H as (y & <- & _). apply Rle_0_sqr. Qed.



  Lemma pair_surface : query_ok query -> forall ps qs, exists v, pair_rmsssd query ps qs = Ok v /\
    surface_error (map r_pos ps) (map r_pos qs) v.
  Proof.
    intros HQ ps qs. destruct ps as [|p ps]; [exists 0; split; [reflexivity|left; auto]|].
    destruct qs as [|q qs]; [exists 0; split; [reflexivity|left; auto]|].
    eexists; split; [apply pair_nonempty; discriminate|]. right.
    split; [discriminate|]. split; [discriminate|].
    set (P := map r_pos (p :: ps)). set (Q' := map r_pos (q :: qs)).
    exists (dists P Q'), (dists Q' P).
    split; [apply dists_spec; [exact HQ|discriminate]|].
    split; [apply dists_spec; [exact HQ|discriminate]|].
    unfold rms. rewrite <- Rsum_app, <- map_app.
    destruct (sqrt_mean (Rsum (map Rsqr (dists P Q' ++ dists Q' P))) (List.length (p :: ps) + List.length (q :: qs))) as [A B];
      [apply Rsum_sq_ge0|simpl; lia|].
    split; [exact A|].
    replace (List.length (dists P Q' ++ dists Q' P)) with (List.length (p :: ps) + List.length (q :: qs))%nat
      by (unfold dists, P, Q'; rewrite app_length, !map_length; reflexivity).
    exact B.
  Qed.

  Lemma pair_sym : forall ps qs, pair_rmsssd query ps qs = pair_rmsssd query qs ps.
  Proof.
    intros ps qs. destruct ps as [|p ps]; [rewrite !pair_empty by auto; reflexivity|].
    destruct qs as [|q qs]; [rewrite !pair_empty by auto; reflexivity|].
    rewrite !pair_nonempty by discriminate. do 2 f_equal. rewrite Rplus_comm, (Nat.add_comm (List.length (q :: qs))). reflexivity.
  Qed.

  Lemma pair_zero : query_ok query -> forall ps qs, ps <> [] -> qs <> [] ->
    (pair_rmsssd query ps qs = Ok 0 <-> forall p, In p (map r_pos ps) <-> In p (map r_pos qs)).
  Proof.
    intros HQ ps qs Hp Hq. rewrite pair_nonempty by assumption.
    set (P := map r_pos ps). set (Q' := map r_pos qs).
    assert (NP : P <> []) by (apply map_nonempty, Hp). assert (NQ : Q' <> []) by (apply map_nonempty, Hq).
    assert (L : (0 < List.length ps + List.length qs)%nat) by (destruct ps; [congruence|simpl; lia]).
    rewrite <- Rsum_app, <- map_app.
    set (D := dists P Q' ++ dists Q' P).
    destruct (sqrt_mean (Rsum (map Rsqr D)) _ (Rsum_sq_ge0 D) L) as [A B].
    assert (E : sqrt (Rsum (map Rsqr D) / INR (List.length ps + List.length qs)) = 0 <-> forall d, In d D -> d = 0).
    { split.
      - intros E d Hd. rewrite E in B. rewrite !Rmult_0_l in B. symmetry in B.
        apply Rsqr_0_uniq. apply (Rsum_zero (map Rsqr D)); [|exact B|apply in_map, Hd].
        intros x H. apply in_map_iff in H. destruct H as (y & <- & _). apply Rle_0_sqr.
      - intro H. replace (Rsum (map Rsqr D)) with 0.
        + unfold Rdiv. rewrite Rmult_0_l. apply sqrt_0.
        + clear -H. unfold Rsum. induction D as [|d D IH]; simpl; [reflexivity|].
          rewrite <- IH by (intros; apply H; right; assumption). rewrite (H d (or_introl eq_refl)). unfold Rsqr. lra. }
    assert (K : forall X Y, Y <> [] -> ((forall d, In d (dists X Y) -> d = 0) <-> forall p, In p X -> In p Y)).
    { intros X Y HY. split.
      - intros H p Hp'. destruct (query_distance HQ Y p HY) as [(q & Iq & Eq) _].
        rewrite (H (fst (query Y p))) in Eq; [|unfold dists; apply in_map_iff; exists p; auto].
        symmetry in Eq. apply dist_0 in Eq. subst q. exact Iq.
      - intros H d Hd. unfold dists in Hd. apply in_map_iff in Hd. destruct Hd as (p & <- & Hp').
        destruct (query_distance HQ Y p HY) as [(q & Iq & Eq) M]. specialize (M p (H p Hp')). rewrite dist_self in M.
        assert (G := dist_ge0 p q). lra. }
    split.
    - intro H. injection H as H. assert (H0 := proj1 E H); clear H; rename H0 into H. intro p. split; intro I.
      + apply (K P Q' NQ); [|exact I]. intros d Hd. apply H. unfold D. apply in_or_app; left; exact Hd.
      + apply (K Q' P NP); [|exact I]. intros d Hd. apply H. unfold D. apply in_or_app; right; exact Hd.
    - intro H. f_equal. apply (proj2 E). intros d Hd. unfold D in Hd. apply in_app_or in Hd. destruct Hd as [Hd|Hd].
      + revert d Hd. apply (K P Q' NQ). intros p Ip. apply H, Ip.
      + revert d Hd. apply (K Q' P NP). intros p Ip. apply H, Ip.
  Qed.

  (** ** Color *)
  Lemma rows_at_ok : forall rs idx, (forall i, In i idx -> (i < List.length rs)%nat) ->
    rows_at rs idx = Ok (map (fun i => r_col (nth i rs (Row vzero []))) idx).
  Proof.
    intros rs. induction idx as [|i idx IH]; intro H; [reflexivity|].
    unfold rows_at in *. cbn [mapM map]. rewrite (nth_error_nth' rs (Row vzero []) (H i (or_introl eq_refl))). cbn [bind].
    rewrite IH by (intros; apply H; right; assumption). reflexivity.
  Qed.

  Lemma sum_sub_row : forall a b, Rsum (map Rsqr (sub_row a b)) = color_gap a b.
  Proof.
    unfold sub_row. induction a as [|x a IH]; intros [|y b]; try reflexivity.
    cbn [combine map color_gap]. change (Rsum (?u :: ?w)) with (u + Rsum w). rewrite IH. reflexivity.
  Qed.

  Lemma color_gap_sym : forall a b, color_gap a b = color_gap b a.
  Proof. induction a as [|x a IH]; intros [|y b]; try reflexivity. cbn [color_gap]. rewrite IH. ring. Qed.
  Lemma color_gap_ge0 : forall a b, 0 <= color_gap a b.
  Proof.
    induction a as [|x a IH]; intros [|y b]; cbn [color_gap]; try lra.
    assert (A := IH b). assert (B := Rle_0_sqr (x - y)). unfold Rsqr in B. lra.
  Qed.

  Definition near_row (rs : list row) (r : row) : row := nth (snd (query (map r_pos rs) (r_pos r))) rs (Row vzero []).

  Lemma near_row_spec : query_ok query -> forall rs r, rs <> [] -> nearest_row rs r (near_row rs r).
  Proof.
    intros HQ rs r Hn. assert (NE := map_nonempty _ _ r_pos rs Hn). specialize (HQ (map r_pos rs) (r_pos r) NE).
    unfold near_row. destruct (query _ _) as [d i]. destruct HQ as (Hi & Hd & Hm). rewrite map_length in Hi. simpl. split.
    - apply nth_In, Hi.
    - intros q Iq. specialize (Hm (r_pos q) (in_map r_pos rs q Iq)).
      replace vzero with (r_pos (Row vzero [])) in Hd by reflexivity. rewrite (map_nth r_pos) in Hd. lra.
  Qed.

  Lemma sum_squares_combine : forall (f : row -> row) rs,
    sum_squares (map (fun p => sub_row (fst p) (snd p)) (combine (map r_col rs) (map (fun r => r_col (f r)) rs))) =
    Rsum (map (fun p => color_gap (r_col (fst p)) (r_col (snd p))) (combine rs (map f rs))).
  Proof.
    intros f. unfold sum_squares. induction rs as [|r rs IH]; [reflexivity|].
    cbn [map combine]. change (Rsum (?u :: ?w)) with (u + Rsum w). rewrite sum_sub_row.
    rewrite <- IH. reflexivity.
  Qed.

  Definition color_sum (rs ss : list row) : R :=
    Rsum (map (fun p => color_gap (r_col (fst p)) (r_col (snd p))) (combine rs (map (near_row ss) rs))).

  Lemma color_sum_ge0 : forall rs ss, 0 <= color_sum rs ss.
  Proof.
    intros. apply Rsum_ge0. intros x H. apply in_map_iff in H. destruct H as (y & <- & _). apply color_gap_ge0.
  Qed.

  Lemma pair_color_nonempty : query_ok query -> forall rs ss, rs <> [] -> ss <> [] ->
    pair_color query rs ss = Ok (sqrt ((color_sum rs ss + color_sum ss rs) / INR (List.length rs + List.length ss))).
  Proof.
    intros HQ rs ss Hr Hs. unfold pair_color.
    assert (NR := map_nonempty _ _ r_pos rs Hr). assert (NS := map_nonempty _ _ r_pos ss Hs).
    assert (Q12 : forall i, In i (map snd (map (query (map r_pos ss)) (map r_pos rs))) -> (i < List.length ss)%nat).
    { intros i Hi. rewrite map_map in Hi. apply in_map_iff in Hi. destruct Hi as (p & <- & _).
      specialize (HQ (map r_pos ss) p NS). destruct (query _ _). rewrite map_length in HQ. apply HQ. }
    assert (Q21 : forall i, In i (map snd (map (query (map r_pos rs)) (map r_pos ss))) -> (i < List.length rs)%nat).
    { intros i Hi. rewrite map_map in Hi. apply in_map_iff in Hi. destruct Hi as (p & <- & _).
      specialize (HQ (map r_pos rs) p NR). destruct (query _ _). rewrite map_length in HQ. apply HQ. }
    rewrite nn_nonempty by assumption.
    rewrite (rows_at_ok ss _ Q12). cbn [bind]. unfold broadcast_sub at 1. rewrite !map_length, Nat.eqb_refl. cbn [bind].
    rewrite (rows_at_ok rs _ Q21). cbn [bind]. unfold broadcast_sub. rewrite !map_length, Nat.eqb_refl. cbn [bind].
    rewrite !map_length, !combine_length, !map_length, !Nat.min_id. rewrite !map_map.
    assert (L : Nat.ltb 0 (List.length rs + List.length ss) = true).
    { apply Nat.ltb_lt. destruct rs; [congruence|simpl; lia]. }
    rewrite L. do 3 f_equal.
    f_equal; [|apply (sum_squares_combine (near_row _))]. apply (sum_squares_combine (near_row _)).
  Qed.

  Lemma pair_color_both_empty : pair_color query [] [] = Ok 0.
  Proof. reflexivity. Qed.
  Lemma pair_color_one_empty : forall rs, rs <> [] ->
    pair_color query rs [] = (if Nat.eqb (List.length rs) 1 then Ok 0 else Err BroadcastError) /\
    pair_color query [] rs = (if Nat.eqb (List.length rs) 1 then Ok 0 else Err BroadcastError).
  Proof.
    intros [|r [|r' rs]] H; [congruence| |]; split; cbn; reflexivity.
  Qed.

  Lemma pair_color_sym : query_ok query -> forall rs ss, pair_color query rs ss = pair_color query ss rs.
  Proof.
    intros HQ rs ss. destruct rs as [|r rs]; destruct ss as [|s ss].
    - reflexivity.
    - destruct (pair_color_one_empty (s :: ss)) as [-> ->]; [discriminate|reflexivity].
    - destruct (pair_color_one_empty (r :: rs)) as [-> ->]; [discriminate|reflexivity].
    - rewrite !pair_color_nonempty by (exact HQ || discriminate).
      rewrite Rplus_comm, (Nat.add_comm (List.length (r :: rs))). reflexivity.
  Qed.

  Lemma pair_color_value : query_ok query -> forall rs ss, rs <> [] -> ss <> [] ->
    exists v, pair_color query rs ss = Ok v /\ color_error rs ss v.
  Proof.
    intros HQ rs ss Hr Hs. eexists. split; [apply pair_color_nonempty; assumption|].
    exists (map (near_row ss) rs), (map (near_row rs) ss).
    split; [apply Forall2_map_r; intros; apply near_row_spec; assumption|].
    split; [apply Forall2_map_r; intros; apply near_row_spec; assumption|].
    apply sqrt_mean; [|destruct rs; [congruence|simpl; lia]].
    apply Rplus_le_le_0_compat; apply color_sum_ge0.
  Qed.

  (** ** The averaging loop *)
  Section Avg.
    Context {A : Type}.
    Variable pts : A -> list row.
    Variable pair : list row -> list row -> res R.
    Variable ev : @evaluator A.

    Definition dval (k gtid : string) : res R :=
      let* d := sgetE k (ev_submission ev) in
      let* g := sgetE gtid (ev_ground_truth ev) in
      pair (pts (e_info d)) (pts (e_info g)).

    Definition cache_sound (cache : sdict (sdict R)) : Prop :=
      forall k row g v, sget k cache = Some row -> sget g row = Some v -> dval k g = Ok v.

    Lemma avg_step_eq : forall cache vals k c, cache_sound cache ->
      match dval k (c_gt c) with
      | Ok v => exists cache', avg_step pts pair ev (cache, vals) (k, c) = Ok (cache', vals ++ [v]) /\ cache_sound cache'
      | Err e => avg_step pts pair ev (cache, vals) (k, c) = Err e
      end.
    Proof.
      intros cache vals k c HS. unfold avg_step.
      set (cache1 := if smem k cache then cache else sset k [] cache).
      assert (S1 : cache_sound cache1).
      { unfold cache1. destruct (smem k cache); [exact HS|]. intros k' row g v E Eg.
        rewrite sget_sset in E. destruct (String.eqb k' k); [injection E as <-; discriminate|eapply HS; eassumption]. }
      assert (M1 : exists row, sget k cache1 = Some row).
      { unfold cache1. destruct (smem k cache) eqn:E.
        - unfold dmem in E. destruct (sget k cache); [eauto|discriminate].
        - exists []. rewrite sget_sset, String.eqb_refl. reflexivity. }
      destruct M1 as [row Hrow]. replace (sgetE k cache1) with (Ok row) by (unfold dgetE; rewrite Hrow; reflexivity). cbn [bind].
      destruct (sget (c_gt c) row) as [v|] eqn:Ev.
      - rewrite (S1 k row _ v Hrow Ev). exists cache1. split; [reflexivity|exact S1].
      - unfold dval. destruct (sgetE k (ev_submission ev)) as [d|e] eqn:Ed; cbn [bind]; [|reflexivity].
        destruct (sgetE (c_gt c) (ev_ground_truth ev)) as [g|e] eqn:Eg; cbn [bind]; [|reflexivity].
        destruct (pair _ _) as [v|e] eqn:Ep; cbn [bind]; [|reflexivity].
        eexists; split; [reflexivity|]. intros k' row' g' v' E' Eg'.
        rewrite sget_sset in E'. destruct (String.eqb k' k) eqn:Ek.
        + apply String.eqb_eq in Ek. subst k'. injection E' as <-. rewrite sget_sset in Eg'.
          destruct (String.eqb g' (c_gt c)) eqn:Egg.
          * apply String.eqb_eq in Egg. subst g'. injection Eg' as <-. unfold dval. rewrite Ed. cbn [bind]. rewrite Eg. exact Ep.
          * eapply S1; eassumption.
        + eapply S1; eassumption.
    Qed.

    Lemma avg_table_eq : forall table cache vals, cache_sound cache ->
      match mapM (fun kc => dval (fst kc) (c_gt (snd kc))) table with
      | Ok vs => exists cache', foldM (avg_step pts pair ev) (cache, vals) table = Ok (cache', vals ++ vs) /\ cache_sound cache'
      | Err e => foldM (avg_step pts pair ev) (cache, vals) table = Err e
      end.
    Proof.
      induction table as [|[k c] table IH]; intros cache vals HS.
      - cbn [mapM foldM]. exists cache. rewrite app_nil_r. auto.
      - cbn [mapM foldM fst snd]. assert (H := avg_step_eq cache vals k c HS).
        destruct (dval k (c_gt c)) as [v|e]; cbn [bind].
        + destruct H as (cache' & -> & HS'). cbn [bind]. specialize (IH cache' (vals ++ [v]) HS').
          destruct (mapM _ table) as [vs|e]; cbn [bind].
          * rewrite <- app_assoc in IH. exact IH.
          * exact IH.
        + rewrite H. reflexivity.
    Qed.

    Lemma avg_loop_eq : forall ts cache vals, cache_sound cache ->
      match mapM (fun t => let* table := dgetE Qeq_bool t (ev_agnostic ev) in
                           mapM (fun kc => dval (fst kc) (c_gt (snd kc))) table) ts with
      | Ok vss => exists cache', foldM (avg_thresh pts pair ev) (cache, vals) ts = Ok (cache', vals ++ List.concat vss) /\ cache_sound cache'
      | Err e => foldM (avg_thresh pts pair ev) (cache, vals) ts = Err e
      end.
    Proof.
      induction ts as [|t ts IH]; intros cache vals HS.
      - cbn [mapM foldM List.concat]. exists cache. rewrite app_nil_r. auto.
      - cbn [mapM foldM]. unfold avg_thresh at 1 3. destruct (dgetE Qeq_bool t (ev_agnostic ev)) as [table|e]; cbn [bind]; [|reflexivity].
        assert (H := avg_table_eq table cache vals HS).
        destruct (mapM (fun kc => dval (fst kc) (c_gt (snd kc))) table) as [vs|e]; cbn [bind].
        + destruct H as (cache' & -> & HS'). cbn [bind]. specialize (IH cache' (vals ++ vs) HS').
          destruct (mapM _ ts) as [vss|e]; cbn [bind].
          * cbn [List.concat]. rewrite <- app_assoc in IH. exact IH.
          * exact IH.
        + rewrite H. reflexivity.
    Qed.

    Lemma average_direct : assoc_average pts pair ev =
      (let* vals := direct_values pts pair ev in Ok (mean_or_inf vals)).
    Proof.
      unfold assoc_average, direct_values.
      assert (H := avg_loop_eq (ev_thresholds ev) [] []).
      change (mapM (fun t => let* table := dgetE Qeq_bool t (ev_agnostic ev) in
               mapM (fun kc => dval (fst kc) (c_gt (snd kc))) table) (ev_thresholds ev))
      with (mapM (fun t => let* table := dgetE Qeq_bool t (ev_agnostic ev) in
      mapM (fun kc =>
        let* d := sgetE (fst kc) (ev_submission ev) in
        let* g := sgetE (c_gt (snd kc)) (ev_ground_truth ev) in
        pair (pts (e_info d)) (pts (e_info g))) table) (ev_thresholds ev)) in H.
      destruct (mapM _ (ev_thresholds ev)) as [vss|e]; cbn [bind].
      - destruct H as (cache' & -> & _); [intros k row g v E; discriminate|]. cbn [bind snd app]. reflexivity.
      - rewrite H; [reflexivity|intros k row g v E; discriminate].
    Qed.
  End Avg.
End P.

(** * Evaluators built from scenes keyed by id *)
Section Keyed.
  Context {A : Type}.
  Variable sim : elem A -> elem A -> Q.
  Variable pts : A -> list row.
  Variable pair : list row -> list row -> res R.
  Variables sub gt : @scene A.
  Variable ts : list Q.
  Variable cats : list string.
  Variable ev : @evaluator A.
  Hypothesis Kd : keyed_by_id sub.
  Hypothesis Kg : keyed_by_id gt.
  Hypothesis Hev : evaluator_init sim sub gt ts cats = Ok ev.

  Lemma keyed_get : forall (s : @scene A) d, keyed_by_id s -> In d (elements s) -> sgetE (e_id d) s = Ok d.
  Proof.
    intros s d [N K] H. unfold elements in H. apply in_map_iff in H. destruct H as ([k e] & E & Hin). simpl in E. subst e.
    unfold dgetE. rewrite <- (K k d Hin). rewrite (dget_NoDup String.eqb str_eqb_spec s k d); [reflexivity|exact N|exact Hin].
  Qed.

  (** Every table entry is a pair of scene elements above the threshold. *)
  Lemma table_entry : forall t table k c, In t ts -> dget Qeq_bool t (ev_agnostic ev) = Some table -> In (k, c) table ->
    exists d g, In d (elements sub) /\ In g (elements gt) /\ k = e_id d /\ c_gt c = e_id g /\ (t <= sim d g)%Q.
  Proof.
    intros t table k c Ht E Hin. rewrite (keyed_agnostic sim sub gt ts cats ev t Kd Kg Hev Ht) in E. injection E as <-.
    assert (Hd := keyed_nodup _ Kd). assert (Hg := keyed_nodup _ Kg).
    assert (Hsn : NoDup (sort_dets sub)) by (eapply NoDup_map_NoDup, sort_dets_ids_nodup, Hd).
    destruct (run_inv sim (dvalues gt) Hg t (sort_dets sub) Hsn) as [I1 I2 I3 I4 I5].
    unfold assoc_at, enc_result in Hin. apply in_map_iff in Hin. destruct Hin as ([d g] & E & Hin). simpl in E.
    injection E as <- <-. exists d, g.
    assert (P : pairs (elements sub) (elements gt) (assoc_at sim sub gt t) d g) by (apply pairs_run; assumption).
    split; [apply P|]. split; [apply P|]. split; [reflexivity|]. split; [reflexivity|].
    apply (oo_thr _ _ _ _ _ (proj1 (stable_at sim sub gt t Kd Kg)) d g P).
  Qed.

  Lemma mapM_Forall2 : forall B C (f : B -> res C) l,
    (forall b, In b l -> exists c, f b = Ok c) -> exists cs, mapM f l = Ok cs /\ Forall2 (fun b c => f b = Ok c) l cs.
  Proof.
    induction l as [|b l IH]; intro H; [exists []; split; [reflexivity|constructor]|].
    destruct (H b (or_introl eq_refl)) as [c Ec]. destruct IH as (cs & E & F); [intros; apply H; right; assumption|].
    exists (c :: cs). cbn [mapM]. rewrite Ec. cbn [bind]. rewrite E. split; [reflexivity|constructor; assumption].
  Qed.

  Lemma direct_ok :
    (forall d g, In d (elements sub) -> In g (elements gt) ->
       (exists t, In t ts /\ (t <= sim d g)%Q) -> exists v, pair (pts (e_info d)) (pts (e_info g)) = Ok v) ->
    exists vals, direct_values pts pair ev = Ok vals.
  Proof.
    intro HP. unfold direct_values. destruct (init_fields sim _ _ _ _ _ Hev) as (F1 & F2 & F3 & F4).
    match goal with |- context [mapM ?f (ev_thresholds ev)] => destruct (mapM_Forall2 _ _ f (ev_thresholds ev)) as (vss & E & _) end.
    - intros t Ht. rewrite F1 in Ht. apply (proj1 (sort_thresholds_In _ _)) in Ht. unfold dgetE at 1.
      rewrite (keyed_agnostic sim sub gt ts cats ev t Kd Kg Hev Ht). cbn [bind].
      match goal with |- context [mapM ?f ?l] => destruct (mapM_Forall2 _ _ f l) as (vs & E & _) end; [|eauto].
      intros [k c] Hin. destruct (table_entry t _ k c Ht (keyed_agnostic sim sub gt ts cats ev t Kd Kg Hev Ht) Hin) as (d & g & Id & Ig & -> & Ec & Hs).
      cbn [fst snd]. rewrite F3, F4, Ec, (keyed_get sub d Kd Id), (keyed_get gt g Kg Ig). cbn [bind].
      apply HP; [assumption|assumption|eauto].
    - rewrite E. cbn [bind]. eauto.
  Qed.

  (** What each averaged value is. *)
  Lemma direct_values_in : forall vals, direct_values pts pair ev = Ok vals ->
    forall v, In v vals -> exists d g, In d (elements sub) /\ In g (elements gt) /\
      pair (pts (e_info d)) (pts (e_info g)) = Ok v.
  Proof.
    intros vals H v Hv. unfold direct_values in H. destruct (init_fields sim _ _ _ _ _ Hev) as (F1 & F2 & F3 & F4).
    assert (M : forall B C (f : B -> res C) l cs, mapM f l = Ok cs -> forall c, In c cs -> exists b, In b l /\ f b = Ok c).
    { intros B C f. induction l as [|b l IH]; intros cs E c Hc; cbn [mapM] in E.
      - injection E as <-. destruct Hc.
      - destruct (f b) as [c0|] eqn:Eb; [|discriminate]. cbn [bind] in E.
        destruct (mapM f l) as [cs'|] eqn:El; [|discriminate]. cbn [bind] in E. injection E as <-.
        destruct Hc as [<-|Hc]; [exists b; split; [left; reflexivity|exact Eb]|].
        destruct (IH cs' eq_refl c Hc) as (b' & Ib & E'). exists b'. split; [right; exact Ib|exact E']. }
    destruct (mapM _ (ev_thresholds ev)) as [vss|] eqn:E; [|discriminate]. cbn [bind] in H. injection H as <-.
    apply in_concat in Hv. destruct Hv as (vs & Hvs & Hv).
    destruct (M _ _ _ _ _ E vs Hvs) as (t & Ht & Et). rewrite F1 in Ht. apply (proj1 (sort_thresholds_In _ _)) in Ht.
    unfold dgetE at 1 in Et. rewrite (keyed_agnostic sim sub gt ts cats ev t Kd Kg Hev Ht) in Et. cbn [bind] in Et.
    destruct (M _ _ _ _ _ Et v Hv) as ([k c] & Hin & Ev). cbn [fst snd] in Ev.
    destruct (table_entry t _ k c Ht (keyed_agnostic sim sub gt ts cats ev t Kd Kg Hev Ht) Hin) as (d & g & Id & Ig & -> & Ec & _).
    rewrite F3, F4, Ec, (keyed_get sub d Kd Id), (keyed_get gt g Kg Ig) in Ev. cbn [bind] in Ev.
    exists d, g. auto.
  Qed.

  (** Nothing is averaged exactly when no threshold has a correspondence. *)
  Lemma direct_empty : forall vals, direct_values pts pair ev = Ok vals ->
    (vals = [] <-> forall t table, In t ts -> dget Qeq_bool t (ev_agnostic ev) = Some table -> table = []).
  Proof.
    intros vals H. unfold direct_values in H. destruct (init_fields sim _ _ _ _ _ Hev) as (F1 & F2 & F3 & F4).
    destruct (mapM _ (ev_thresholds ev)) as [vss|] eqn:E; [|discriminate]. cbn [bind] in H. injection H as <-.
    assert (ML : forall B C (f : B -> res C) l cs, mapM f l = Ok cs -> Forall2 (fun b c => f b = Ok c) l cs).
    { intros B C f. induction l as [|b l IH]; intros cs E'; cbn [mapM] in E'.
      - injection E' as <-. constructor.
      - destruct (f b) as [c0|] eqn:Eb; [|discriminate]. cbn [bind] in E'.
        destruct (mapM f l) as [cs'|] eqn:El; [|discriminate]. cbn [bind] in E'. injection E' as <-.
        constructor; auto. }
    apply ML in E.
    assert (K : forall t vs table, dget Qeq_bool t (ev_agnostic ev) = Some table ->
      (let* table := dgetE Qeq_bool t (ev_agnostic ev) in
       mapM (fun kc => let* d := sgetE (fst kc) (ev_submission ev) in
                       let* g := sgetE (c_gt (snd kc)) (ev_ground_truth ev) in
                       pair (pts (e_info d)) (pts (e_info g))) table) = Ok vs -> (vs = [] <-> table = [])).
    { intros t vs table Et Ev. unfold dgetE at 1 in Ev. rewrite Et in Ev. cbn [bind] in Ev. apply ML in Ev.
      inversion Ev; subst; split; congruence. }
    rewrite F1 in E. split.
    - intros Hc t table Ht Et. assert (Ht' := proj2 (sort_thresholds_In ts t) Ht).
      clear F1. revert vss E Hc Ht'. induction (sort_thresholds ts) as [|t0 l IH]; intros vss E Hc Ht'; [destruct Ht'|].
      inversion E as [|? vs ? vss' E1 E2]; subst. simpl in Hc. apply app_eq_nil in Hc. destruct Hc as [-> Hc].
      destruct Ht' as [->|Ht']; [|eapply IH; eassumption].
      exact (proj1 (K t [] table Et E1) eq_refl).
    - intro Ha. clear F1.
      assert (Ha' : forall t, In t (sort_thresholds ts) -> In t ts) by (intro; apply sort_thresholds_In).
      induction E as [|t vs l vss E1 E2 IH]; [reflexivity|]. simpl.
      rewrite (IH (fun t Ht => Ha' t (or_intror Ht))). rewrite app_nil_r.
      assert (Ht := Ha' t (or_introl eq_refl)). assert (Et := keyed_agnostic sim sub gt ts cats ev t Kd Kg Hev Ht).
      apply (K t vs _ Et E1). exact (Ha t _ Ht Et).
  Qed.
End Keyed.
