(** Property C92: which points a box contains. *)
From Coq Require Import Reals List Bool Arith Lia Lra Psatz.
From Verif.Base Require Import Py Vec.
From Verif.Box Require Import Model Spec Proofs.
From Verif.Contain Require Import Model Spec.
Import ListNotations.
Open Scope R_scope.

Lemma Rltb_iff : forall x y, Rltb x y = true <-> x < y.
Proof. intros x y. unfold Rltb. destruct (Rlt_dec x y) as [H|H]; split; intro; auto; try discriminate; contradiction. Qed.
Lemma vlt_coord : forall p q, vlt p q <-> forall i, (i < 3)%nat -> coord i p < coord i q.
Proof.
  intros p q. split.
  - intros (A & B & C) i H. destruct i as [|[|i]]; assumption.
  - intro H. split; [apply (H 0%nat); lia|]. split; [apply (H 1%nat); lia|apply (H 2%nat); lia].
Qed.
Lemma set_dist : forall p e, 0 <= e -> forall i, (i < 3)%nat -> dist p (set_coord i (coord i p + e) p) = e /\ dist p (set_coord i (coord i p - e) p) = e.
Proof.
  intros p e H i Hi. unfold dist, norm, dot, vsub. destruct i as [|[|[|i]]]; [| | |lia]; cbn [set_coord coord vx vy vz]; split;
    (replace (_ + _ + _) with (Rsqr e) by (unfold Rsqr; ring); apply sqrt_Rsqr, H).
Qed.
Lemma coord_set : forall i v p, (i < 3)%nat -> coord i (set_coord i v p) = v.
Proof. intros i v p H. destruct i as [|[|[|i]]]; [reflexivity|reflexivity|reflexivity|lia]. Qed.
Lemma inside_coord : forall b p, inside b p <-> forall i, (i < 3)%nat -> coord i (min_corner b) <= coord i p <= coord i (max_corner b).
Proof.
  intros b p. split.
  - intros ((A & B & C) & (D & E & F)) i H. destruct i as [|[|i]]; cbn [coord]; lra.
  - intro H. assert (A := H 0%nat ltac:(lia)). assert (B := H 1%nat ltac:(lia)). assert (C := H 2%nat ltac:(lia)). cbn [coord] in *. unfold inside, vle. lra.
Qed.
Lemma interior_iff : forall b p, interior b p <-> vlt (min_corner b) p /\ vlt p (max_corner b).
Proof.
  intros b p. rewrite !vlt_coord. split.
  - intros (e & He & H). split; intros i Hi; destruct (set_dist p (e / 2) ltac:(lra) i Hi) as [D1 D2].
    + assert (I := H _ ltac:(rewrite D2; lra)). rewrite inside_coord in I. specialize (I i Hi). rewrite coord_set in I by exact Hi. lra.
    + assert (I := H _ ltac:(rewrite D1; lra)). rewrite inside_coord in I. specialize (I i Hi). rewrite coord_set in I by exact Hi. lra.
  - intros [A B]. set (g := fun i => Rmin (coord i p - coord i (min_corner b)) (coord i (max_corner b) - coord i p)).
    exists (Rmin (g 0%nat) (Rmin (g 1%nat) (g 2%nat))). assert (P : forall i, (i < 3)%nat -> 0 < g i).
    { intros i Hi. specialize (A i Hi). specialize (B i Hi). unfold g. apply Rmin_glb_lt; lra. }
    split; [apply Rmin_glb_lt; [apply P; lia|apply Rmin_glb_lt; apply P; lia]|]. intros q D. apply inside_coord. intros i Hi.
    assert (L : dist p q < g i).
    { eapply Rlt_le_trans; [exact D|]. destruct i as [|[|[|i]]]; [apply Rmin_l|eapply Rle_trans; [apply Rmin_r|apply Rmin_l]|eapply Rle_trans; [apply Rmin_r|apply Rmin_r]|lia]. }
    assert (G1 := coord_gap i p q). assert (G2 := coord_gap i q p). rewrite (dist_sym q p) in G2.
    assert (M1 := Rmin_l (coord i p - coord i (min_corner b)) (coord i (max_corner b) - coord i p)). assert (M2 := Rmin_r (coord i p - coord i (min_corner b)) (coord i (max_corner b) - coord i p)).
    fold (g i) in M1, M2. lra.
Qed.

(** A point given by its three coordinates: the interior of the box, not its boundary. *)
Theorem C92_point : forall b p, exists r, point_in_box b (one_point p) = Ok r /\
  (r = true <-> interior b p) /\ (r = true -> inside b p) /\ (forall c, normalized c -> box_le b c -> r = true -> point_in_box c (one_point p) = Ok true).
Proof.
  intros b p.
  assert (E : forall b, exists r, point_in_box b (one_point p) = Ok r /\ (r = true <-> vlt (min_corner b) p /\ vlt p (max_corner b))).
  { clear b. intro b. unfold point_in_box, all_against, one_point, coords. cbn [last_axis rows Nat.eqb forallb combine fst snd bind].
    destruct (_ && true) eqn:A; [eexists; split; [reflexivity|]|exists false; split; [reflexivity|]].
    - rewrite !andb_true_r in *. rewrite !andb_true_iff, !Rltb_iff in *. unfold vlt. tauto.
    - split; [discriminate|]. intros [L _]. rewrite <- A. rewrite !andb_true_r, !andb_true_iff, !Rltb_iff. unfold vlt in L. tauto. }
  destruct (E b) as (r & Er & Hr). exists r. split; [exact Er|]. split; [rewrite interior_iff; exact Hr|]. split.
  - intro T. apply Hr in T. unfold inside, vle, vlt in *. lra.
  - intros c Nc Lc T. destruct (E c) as (r' & Er' & Hr'). rewrite Er'. f_equal. apply Hr'. apply interior_iff. apply Hr in T. apply interior_iff in T. destruct T as (e & He & H). exists e. split; [exact He|]. intros q D. apply Lc, H, D.
Qed.

(** Points as rows: all of them; none is no obstacle. *)
Theorem C92_rows : forall b ps, exists r, point_in_box b (point_rows ps) = Ok r /\ (r = true <-> Forall (interior b) ps).
Proof.
  intros b ps. unfold point_in_box, all_against, point_rows. cbn [last_axis rows Nat.eqb bind].
  assert (A : forall op v, forallb (fun row => forallb (fun xy => op (fst xy) (snd xy)) (combine row [vx v; vy v; vz v])) (map coords ps) = true <->
    Forall (fun p => op (vx p) (vx v) = true /\ op (vy p) (vy v) = true /\ op (vz p) (vz v) = true) ps).
  { intros op v. rewrite forallb_forall, Forall_forall. split.
    - intros H p I. assert (X := H (coords p) (in_map coords _ _ I)). cbn [coords combine forallb fst snd] in X. rewrite !andb_true_iff in X. tauto.
    - intros H row I. apply in_map_iff in I. destruct I as (p & <- & I). specialize (H p I). cbn [coords combine forallb fst snd]. rewrite !andb_true_iff. tauto. }
  destruct (forallb _ (map coords ps)) eqn:E1.
  - eexists. split; [reflexivity|]. rewrite A. apply (proj1 (A (fun x y => Rltb y x) _)) in E1. rewrite !Forall_forall in *. split; intros H p I; specialize (H p I); specialize (E1 p I); cbv beta in E1; rewrite !Rltb_iff in *.
    + apply interior_iff. unfold vlt. tauto.
    + apply interior_iff in H. unfold vlt in H. tauto.
  - exists false. split; [reflexivity|]. split; [discriminate|]. intro H. rewrite <- E1. apply (A (fun x y => Rltb y x)). eapply Forall_impl; [|exact H]. intros p I. cbv beta. rewrite !Rltb_iff. apply interior_iff in I. unfold vlt in I. tauto.
Qed.

(** Points as columns, the layout of meshes and point clouds: an error unless there are one
    or three; one is compared as if the box were the cube from its largest minimum to its
    smallest maximum; three are taken for rows. *)
Theorem C92_columns : forall b ps,
  (length ps <> 1%nat -> length ps <> 3%nat -> point_in_box b (point_columns ps) = Err BroadcastError) /\
  (forall p, ps = [p] -> exists r, point_in_box b (point_columns ps) = Ok r /\
     (r = true <-> forall i j, (i < 3)%nat -> (j < 3)%nat -> coord j (min_corner b) < coord i p < coord j (max_corner b))) /\
  (forall p q s, ps = [p; q; s] -> point_in_box b (point_columns ps) = point_in_box b (point_rows [V (vx p) (vx q) (vx s); V (vy p) (vy q) (vy s); V (vz p) (vz q) (vz s)])).
Proof.
  intros b ps. split; [|split].
  - intros N1 N3. unfold point_in_box, all_against, point_columns. cbn [last_axis]. apply Nat.eqb_neq in N1, N3. rewrite N1, N3. reflexivity.
  - intros p ->. unfold point_in_box, all_against, point_columns. cbn [length last_axis Nat.eqb rows map forallb hd bind].
    set (k := _ && _). destruct k eqn:E; unfold k in E; [eexists; split; [reflexivity|]|exists false; split; [reflexivity|]]; rewrite ?andb_true_r in *.
    + rewrite !andb_true_iff, !Rltb_iff in *. split.
      * intros H i j Hi Hj. destruct i as [|[|[|i]]]; [| | |lia]; (destruct j as [|[|[|j]]]; [| | |lia]); cbn [coord]; tauto.
      * intro H. assert (X : forall i j, (i < 3)%nat -> (j < 3)%nat -> coord i p < coord j (max_corner b)) by (intros i j Hi Hj; apply H; assumption).
        assert (H3 : (0 < 3)%nat /\ (1 < 3)%nat /\ (2 < 3)%nat) by lia. destruct H3 as (Z0 & Z1 & Z2).
        repeat split; [exact (X 0%nat 0%nat Z0 Z0)|exact (X 0%nat 1%nat Z0 Z1)|exact (X 0%nat 2%nat Z0 Z2)|exact (X 1%nat 0%nat Z1 Z0)|exact (X 1%nat 1%nat Z1 Z1)|exact (X 1%nat 2%nat Z1 Z2)|exact (X 2%nat 0%nat Z2 Z0)|exact (X 2%nat 1%nat Z2 Z1)|exact (X 2%nat 2%nat Z2 Z2)].
    + split; [discriminate|]. intro H. rewrite <- E. rewrite !andb_true_iff, !Rltb_iff.
      assert (X : forall i j, (i < 3)%nat -> (j < 3)%nat -> coord j (min_corner b) < coord i p) by (intros i j Hi Hj; apply H; assumption).
      assert (H3 : (0 < 3)%nat /\ (1 < 3)%nat /\ (2 < 3)%nat) by lia. destruct H3 as (Z0 & Z1 & Z2).
      repeat split; [exact (X 0%nat 0%nat Z0 Z0)|exact (X 0%nat 1%nat Z0 Z1)|exact (X 0%nat 2%nat Z0 Z2)|exact (X 1%nat 0%nat Z1 Z0)|exact (X 1%nat 1%nat Z1 Z1)|exact (X 1%nat 2%nat Z1 Z2)|exact (X 2%nat 0%nat Z2 Z0)|exact (X 2%nat 1%nat Z2 Z1)|exact (X 2%nat 2%nat Z2 Z2)].
  - intros p q s ->. reflexivity.
Qed.
Definition box123 : box := Box (V 0 0 0) (V 1 2 3).
Ltac decide_cmp := unfold Rltb; repeat (match goal with |- context [Rlt_dec ?x ?y] => destruct (Rlt_dec x y); try lra end).
(** So "the column vector of a point is in the box iff the point is" fails, and so does
    "all columns": points inside are rejected, points outside accepted. *)
Theorem C92_columns_refuted :
  (exists b p, interior b p /\ point_in_box b (point_columns [p]) = Ok false) /\
  (exists b ps, length ps = 3%nat /\ Forall (interior b) ps /\ point_in_box b (point_columns ps) = Ok false) /\
  (exists b ps, length ps = 3%nat /\ ~ Forall (inside b) ps /\ point_in_box b (point_columns ps) = Ok true).
Proof.
  set (p := V (1/2) (3/2) (5/2)). assert (I : interior box123 p) by (apply interior_iff; unfold vlt, box123, p; cbn; lra).
  split; [|split].
  - exists box123, p. split; [exact I|]. unfold point_in_box, all_against, point_columns, box123, p. cbn. decide_cmp; reflexivity.
  - exists box123, [p; p; p]. split; [reflexivity|]. split; [repeat (constructor; [exact I|]); constructor|]. unfold point_in_box, all_against, point_columns, box123, p. cbn. decide_cmp; reflexivity.
  - set (q := V (5/2) (1/2) (1/2)). set (m := V (1/2) (1/2) (1/2)). exists box123, [m; m; q]. split; [reflexivity|]. split.
    + intro F. inversion F as [|? ? _ F1]. inversion F1 as [|? ? _ F2]. inversion F2 as [|? ? F3 _]. unfold inside, vle, q, box123 in F3. cbn in F3. lra.
    + unfold point_in_box, all_against, point_columns, box123, m, q. cbn. decide_cmp; reflexivity.
Qed.

(** The corners: the eight points with the coordinates of the two corners; the box is
    their convex hull; none of them is inside. *)
Theorem C92_corners : forall b,
  length (corners b) = 8%nat /\
  (forall p, In p (corners b) <-> forall i, (i < 3)%nat -> coord i p = coord i (min_corner b) \/ coord i p = coord i (max_corner b)) /\
  (forall p, In p (corners b) -> point_in_box b (one_point p) = Ok false) /\
  (normalized b -> forall p, inside b p <-> convex_combination (corners b) p).
Proof.
  intro b. split; [reflexivity|].
  assert (C : forall p, In p (corners b) <-> forall i, (i < 3)%nat -> coord i p = coord i (min_corner b) \/ coord i p = coord i (max_corner b)).
  { intro p. split.
    - intros I i Hi. unfold corners in I. cbn [In] in I. destruct i as [|[|[|i]]]; [| | |lia]; repeat (destruct I as [<-|I]; [cbn; auto|]); destruct I.
    - intro H. assert (H0 := H 0%nat ltac:(lia)). assert (H1 := H 1%nat ltac:(lia)). assert (H2 := H 2%nat ltac:(lia)). cbn [coord] in *. destruct p as [x y z]. cbn [vx vy vz] in *.
      destruct H0 as [-> | ->], H1 as [-> | ->], H2 as [-> | ->]; unfold corners; cbn [In]; tauto. }
  split; [exact C|]. split.
  - intros p I. destruct (C92_point b p) as (r & E & H & _). rewrite E. f_equal. destruct r; [|reflexivity]. exfalso.
    destruct (proj1 (interior_iff b p) (proj1 H eq_refl)) as [A B]. specialize (proj1 (C p) I 0%nat ltac:(lia)) as [X|X]; cbn [coord] in X; unfold vlt in *; lra.
  - intros Nb p. destruct b as [[a1 a2 a3] [b1 b2 b3]]. destruct p as [x y z]. unfold normalized, vle in Nb. cbn [min_corner max_corner vx vy vz] in Nb. split.
    + intros [A B]. unfold vle in A, B. cbn [min_corner max_corner vx vy vz] in A, B.
      assert (T : forall lo hi v, lo <= v <= hi -> exists s, 0 <= s <= 1 /\ v = (1 - s) * lo + s * hi).
      { intros lo hi v H. destruct (Req_dec lo hi) as [->|N]; [exists 0; split; lra|]. exists ((v - lo) / (hi - lo)). assert (P : 0 < hi - lo) by lra. split; [|field; lra].
        split; [apply Rmult_le_pos; [lra|apply Rlt_le, Rinv_0_lt_compat, P]|]. apply Rmult_le_reg_r with (hi - lo); [exact P|]. unfold Rdiv. rewrite Rmult_assoc, Rinv_l by lra. lra. }
      destruct (T a1 b1 x) as (s & Hs & Es); [lra|]. destruct (T a2 b2 y) as (t & Ht & Et); [lra|]. destruct (T a3 b3 z) as (w & Hw & Ew); [lra|].
      exists [(1 - s) * (1 - t) * w; s * (1 - t) * w; s * t * w; (1 - s) * t * w; (1 - s) * (1 - t) * (1 - w); s * (1 - t) * (1 - w); s * t * (1 - w); (1 - s) * t * (1 - w)].
      split; [reflexivity|]. split; [repeat (constructor; [repeat apply Rmult_le_pos; lra|]); constructor|]. split; [cbn [fold_right]; ring|].
      rewrite Es, Et, Ew. unfold weighted, corners. cbn. unfold vadd, smul, vzero. cbn [vx vy vz]. f_equal; ring.
    + intros (ws & L & P & S & E). unfold corners in L. cbn [length min_corner max_corner vx vy vz] in L. do 8 (destruct ws as [|? ws]; [discriminate|]). destruct ws; [|discriminate].
      repeat match goal with H : Forall _ (_ :: _) |- _ => inversion H; clear H; subst end. cbn [fold_right] in S.
      unfold weighted, corners in E. cbn in E. unfold vadd, smul, vzero in E. cbn [vx vy vz] in E. injection E as <- <- <-. unfold inside, vle. cbn [min_corner max_corner vx vy vz].
      repeat split; nra.
Qed.

(** The center is in the middle; it is inside exactly if the volume is positive. *)
Theorem C92_center : forall b, normalized b ->
  inside b (center b) /\
  (forall p, In p (corners b) -> dist (center b) p = dist (min_corner b) (max_corner b) / 2) /\
  (forall p, inside b p <-> inside b (vsub (smul 2 (center b)) p)) /\
  (point_in_box b (one_point (center b)) = Ok true <-> 0 < volume b).
Proof.
  intros b Nb. destruct b as [[a1 a2 a3] [b1 b2 b3]]. unfold normalized, vle in Nb. cbn [min_corner max_corner vx vy vz] in Nb.
  unfold center, volume. cbn [min_corner max_corner]. split; [|split; [|split]].
  - unfold inside, vle, smul, vadd. cbn [min_corner max_corner vx vy vz]. lra.
  - intros p I. assert (D : forall u, dot u u = dot (vsub (V a1 a2 a3) (V b1 b2 b3)) (vsub (V a1 a2 a3) (V b1 b2 b3)) / 4 -> norm u = norm (vsub (V a1 a2 a3) (V b1 b2 b3)) / 2).
    { intros u E. apply Rsqr_inj; [apply norm_nonneg|assert (X := norm_nonneg (vsub (V a1 a2 a3) (V b1 b2 b3))); lra|]. unfold Rsqr. rewrite norm_sqr, E. assert (X := norm_sqr (vsub (V a1 a2 a3) (V b1 b2 b3))). lra. }
    unfold dist. apply D. unfold corners in I. cbn [In min_corner max_corner vx vy vz] in I.
    repeat (destruct I as [<-|I]; [unfold dot, vsub, smul, vadd; cbn [vx vy vz]; field|]). destruct I.
  - intros [x y z]. unfold inside, vle, vsub, smul, vadd. cbn [min_corner max_corner vx vy vz]. split; lra.
  - unfold vsub. cbn [vx vy vz]. destruct (C92_point (Box (V a1 a2 a3) (V b1 b2 b3)) (smul (1 / 2) (vadd (V b1 b2 b3) (V a1 a2 a3)))) as (r & E & H & _). rewrite E.
    assert (X : Ok r = Ok true <-> r = true) by (split; congruence). rewrite X, H, interior_iff. unfold vlt, smul, vadd. cbn [min_corner max_corner vx vy vz]. split.
    + intros (A & _). apply Rmult_lt_0_compat; [apply Rmult_lt_0_compat|]; lra.
    + intro P. assert (a1 <> b1) by (intros ->; lra). assert (a2 <> b2) by (intros ->; lra). assert (a3 <> b3) by (intros ->; lra). lra.
Qed.

(** The volume: positive exactly if some point is inside, and larger boxes have more. *)
Theorem C92_volume : forall b, normalized b ->
  0 <= volume b /\ (0 < volume b <-> exists p, point_in_box b (one_point p) = Ok true) /\
  (forall c, normalized c -> box_le b c -> volume b <= volume c).
Proof.
  intros b Nb. assert (P : 0 <= volume b).
  { destruct b as [[a1 a2 a3] [b1 b2 b3]]. unfold normalized, vle in Nb. cbn in Nb. unfold volume, vsub. cbn. apply Rmult_le_pos; [apply Rmult_le_pos|]; lra. }
  split; [exact P|]. split.
  - split; intro H.
    + exists (center b). apply C92_center; assumption.
    + destruct H as (p & H). destruct (C92_point b p) as (r & E & I & _). rewrite E in H. injection H as ->. destruct (proj1 (interior_iff b p) (proj1 I eq_refl)) as [A B].
      unfold vlt in *. unfold volume, vsub. cbn [vx vy vz]. apply Rmult_lt_0_compat; [apply Rmult_lt_0_compat|]; lra.
  - intros c Nc L. assert (I1 : inside b (min_corner b)) by (split; [apply vle_refl|exact Nb]). assert (I2 : inside b (max_corner b)) by (split; [exact Nb|apply vle_refl]).
    apply L in I1. apply L in I2. unfold inside, normalized, vle in *. unfold volume, vsub. cbn [vx vy vz].
    apply Rmult_le_compat; [apply Rmult_le_pos; lra|lra|apply Rmult_le_compat; lra|lra].
Qed.

(** The corners are documented as read-only, but their entries can be assigned; the box is
    then no longer normalized. *)
Theorem C92_read_only_refuted :
  exists b, normalized b /\ 0 < volume b /\
    (exists v, ~ normalized (assign_min b 0 v) /\ volume (assign_min b 0 v) < 0 /\ forall p, point_in_box (assign_min b 0 v) (one_point p) = Ok false).
Proof.
  exists box123. split; [unfold normalized, vle, box123; cbn; lra|]. split; [unfold volume, box123, vsub; cbn; lra|]. exists 2.
  split; [unfold normalized, vle, box123; cbn; lra|]. split; [unfold volume, box123, vsub; cbn; lra|].
  intro p. destruct (C92_point (assign_min box123 0 2) p) as (r & E & H & _). rewrite E. f_equal. destruct r; [|reflexivity]. exfalso.
  destruct (proj1 (interior_iff _ p) (proj1 H eq_refl)) as [A B]. unfold vlt, assign_min, box123 in *. cbn in *. lra.
Qed.

Example C92_case : point_in_box box123 (one_point (V (1/2) 1 1)) = Ok true /\ point_in_box box123 (one_point (V 1 1 1)) = Ok false /\
  point_in_box box123 (point_rows []) = Ok true /\ point_in_box box123 (Points 1 [[1/2]]) = Ok true.
Proof.
  split; [|split; [|split; [reflexivity|]]]; unfold point_in_box, all_against, one_point, box123; cbn; decide_cmp; reflexivity.
Qed.

Print Assumptions C92_point.
Print Assumptions C92_rows.
Print Assumptions C92_columns.
Print Assumptions C92_columns_refuted.
Print Assumptions C92_corners.
Print Assumptions C92_center.
Print Assumptions C92_volume.
Print Assumptions C92_read_only_refuted.
