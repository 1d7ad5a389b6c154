From Coq Require Import Reals Lra Lia ZArith List Bool String QArith.
From Verif.Base Require Import Py PyFacts Vec.
From Verif.Assoc Require Import Model Spec.
From Verif.Geom Require Import Model.
From Verif.Box Require Import Model Spec Proofs.
From Verif.Points Require Import Model.
From Verif.Voxel Require Import Model Spec.
Import ListNotations.
Open Scope R_scope.

(** * floor and cells *)
Lemma floor_iff : forall r n, floor r = n <-> IZR n <= r < IZR n + 1.
Proof.
  intros r n. unfold floor. destruct (base_Int_part r) as [A B]. split.
  - intros <-. lra.
  - intros [C D]. apply Z.le_antisymm; apply Z.lt_succ_r; apply lt_IZR; rewrite succ_IZR; lra.
Qed.

Lemma scaled : forall k x n, 0 < k -> (floor (x * k) = n <-> IZR n * (1 / k) <= x < (IZR n + 1) * (1 / k)).
Proof.
  intros k x n Hk. rewrite floor_iff.
  assert (I : k * (1 / k) = 1) by (field; lra). assert (P : 0 < 1 / k) by (apply Rdiv_lt_0_compat; lra).
  assert (E1 : IZR n <= x * k <-> IZR n * (1 / k) <= x).
  { split; intro H.
    - apply Rmult_le_compat_r with (r := 1 / k) in H; [|lra]. rewrite Rmult_assoc, I in H. lra.
    - apply Rmult_le_compat_r with (r := k) in H; [|lra]. rewrite Rmult_assoc, (Rmult_comm (1 / k)), I in H. lra. }
  assert (E2 : x * k < IZR n + 1 <-> x < (IZR n + 1) * (1 / k)).
  { split; intro H.
    - apply Rmult_lt_compat_r with (r := 1 / k) in H; [|lra]. rewrite Rmult_assoc, I in H. lra.
    - apply Rmult_lt_compat_r with (r := k) in H; [|lra]. rewrite Rmult_assoc, (Rmult_comm (1 / k)), I in H. lra. }
  tauto.
Qed.

Lemma voxel_index_cell : forall k c p v, 0 < k -> (voxel_index k c p = v <-> in_cell (1 / k) c v p).
Proof.
  intros k c p [x y z] Hk. unfold voxel_index, in_cell; simpl. rewrite <- !scaled by exact Hk. split.
  - intro H. injection H as <- <- <-. auto.
  - intros (-> & -> & ->). reflexivity.
Qed.

Lemma floor_neg : forall k x, 0 < k -> ((floor (x * k) < 0)%Z <-> x < 0).
Proof.
  intros k x Hk. assert (H := proj1 (floor_iff (x * k) _) eq_refl). set (n := floor (x * k)) in *. split; intro K.
  - assert (N : IZR n <= -1) by (apply IZR_le; lia).
    assert (x * k < 0) by lra. destruct (Rle_lt_dec 0 x) as [Q|Q]; [|exact Q].
    assert (0 <= x * k) by (apply Rmult_le_pos; lra). lra.
  - apply lt_IZR. assert (x * k < 0) by (rewrite <- (Rmult_0_l k); apply Rmult_lt_compat_r; lra).
    lra.
Qed.

(** * Linear indices *)
Lemma linear_vector : forall sx sy n, (0 < sx)%Z -> (0 < sy)%Z -> linearize sx sy (vectorize sx sy n) = n.
Proof.
  intros sx sy n Hx Hy. unfold linearize, vectorize; cbn [ix iy iz].
  assert (A := Z.div_mod n sx). assert (B := Z.div_mod (n / sx) sy). specialize (A ltac:(lia)). specialize (B ltac:(lia)). nia.
Qed.

Lemma vector_linear : forall sx sy v, in_grid sx sy v -> vectorize sx sy (linearize sx sy v) = v.
Proof.
  intros sx sy [x y z] (Hx & Hy & Hz). unfold vectorize, linearize; cbn [ix iy iz] in *.
  replace (x * 1 + y * sx + z * (sx * sy))%Z with (x + (y + z * sy) * sx)%Z by ring.
  rewrite Z.mod_add, Z.div_add by lia. rewrite (Z.mod_small x), (Z.div_small x) by lia. rewrite Z.add_0_l.
  rewrite Z.mod_add, Z.div_add by lia. rewrite Z.mod_small, Z.div_small by lia. reflexivity.
Qed.

Lemma vector_in_grid : forall sx sy n, (0 < sx)%Z -> (0 < sy)%Z -> (0 <= n)%Z -> in_grid sx sy (vectorize sx sy n).
Proof.
  intros sx sy n Hx Hy Hn. unfold in_grid, vectorize; cbn [ix iy iz].
  split; [apply Z.mod_pos_bound; lia|]. split; [apply Z.mod_pos_bound; lia|].
  apply Z.div_pos; [apply Z.div_pos; lia|lia].
Qed.

Lemma linear_nonneg : forall sx sy v, (0 <= sx)%Z -> (0 <= sy)%Z -> (0 <= ix v)%Z -> (0 <= iy v)%Z -> (0 <= iz v)%Z ->
  (0 <= linearize sx sy v)%Z.
Proof. intros. unfold linearize. assert (0 <= sx * sy)%Z by nia. nia. Qed.

(** * union1d *)
Lemma insert_unique_In : forall x l y, In y (insert_unique x l) <-> y = x \/ In y l.
Proof.
  intros x. induction l as [|z l IH]; intro y; [simpl; intuition|]. simpl.
  destruct (Z.ltb x z) eqn:E1; [simpl; intuition|]. destruct (Z.eqb x z) eqn:E2.
  - apply Z.eqb_eq in E2. subst z. simpl. intuition.
  - simpl. rewrite IH. intuition.
Qed.

Inductive strictly_sorted : list Z -> Prop :=
| ss_nil : strictly_sorted []
| ss_cons x l : (forall y, In y l -> (x < y)%Z) -> strictly_sorted l -> strictly_sorted (x :: l).

Lemma insert_unique_sorted : forall x l, strictly_sorted l -> strictly_sorted (insert_unique x l).
Proof.
  intros x l H. induction H as [|z l Hz Hs IH]; [constructor; [intros y []|constructor]|]. simpl.
  destruct (Z.ltb x z) eqn:E1.
  - apply Z.ltb_lt in E1. constructor; [|constructor; assumption]. intros y [<-|Hy]; [exact E1|]. specialize (Hz y Hy). lia.
  - apply Z.ltb_ge in E1. destruct (Z.eqb x z) eqn:E2; [constructor; assumption|]. apply Z.eqb_neq in E2.
    constructor; [|exact IH]. intros y Hy. apply insert_unique_In in Hy. destruct Hy as [->|Hy]; [lia|auto].
Qed.

Lemma union1d_In : forall a b n, In n (union1d a b) <-> In n a \/ In n b.
Proof.
  intros a b n. unfold union1d. rewrite <- in_app_iff. induction (a ++ b) as [|x l IH]; [reflexivity|].
  simpl. rewrite insert_unique_In, IH. intuition.
Qed.

Lemma union1d_sorted : forall a b, strictly_sorted (union1d a b).
Proof. intros a b. unfold union1d. induction (a ++ b); simpl; [constructor|apply insert_unique_sorted; assumption]. Qed.

Lemma sorted_nodup : forall l, strictly_sorted l -> NoDup l.
Proof.
  induction 1 as [|x l H Hs IH]; constructor; [|exact IH]. intro K. specialize (H x K). lia.
Qed.

Lemma NoDup_vectorize : forall sx sy l, (0 < sx)%Z -> (0 < sy)%Z -> NoDup l -> NoDup (map (vectorize sx sy) l).
Proof.
  intros sx sy l Hx Hy. induction 1 as [|n l Hn Hd IH]; simpl; constructor; [|exact IH].
  intro K. apply in_map_iff in K. destruct K as (m & E & Hm).
  apply (f_equal (linearize sx sy)) in E. rewrite !linear_vector in E by assumption. subst m. contradiction.
Qed.

(** * zmax *)
Lemma zmax_ge : forall f vs v w, In w (v :: vs) -> (f w <= zmax f v vs)%Z.
Proof.
  intros f vs v w. unfold zmax.
  assert (K : forall l m, (m <= fold_left (fun m w => Z.max m (f w)) l m)%Z /\
     forall w, In w l -> (f w <= fold_left (fun m w => Z.max m (f w)) l m)%Z).
  { induction l as [|u l IH]; intro m; simpl; [split; [lia|intros ? []]|].
    destruct (IH (Z.max m (f u))) as [A B]. split; [lia|]. intros x [<-|Hx]; [lia|apply B, Hx]. }
  intros [<-|H]; [exact (proj1 (K vs (f v)))|exact (proj2 (K vs (f v)) w H)].
Qed.
Lemma zmax_attained : forall f vs v, exists w, In w (v :: vs) /\ f w = zmax f v vs.
Proof.
  intros f vs v. unfold zmax.
  assert (K : forall l m, fold_left (fun m w => Z.max m (f w)) l m = m \/
     exists w, In w l /\ f w = fold_left (fun m w => Z.max m (f w)) l m).
  { induction l as [|u l IH]; intro m; simpl; [left; reflexivity|].
    destruct (IH (Z.max m (f u))) as [A|(w & Hw & A)].
    - rewrite A. destruct (Z.max_spec m (f u)) as [[_ ->]|[_ ->]]; [right; exists u; auto|left; reflexivity].
    - right. exists w. auto. }
  destruct (K vs (f v)) as [A|(w & Hw & A)]; [exists v|exists w]; simpl; auto.
Qed.

(** * add_points *)
Section Add.
  Variable g : grid.
  Hypothesis WF : well_formed g.
  Let s := voxel_size g.
  Let c := g_corner g.

  Lemma index_cell : forall p v, voxel_index (g_scale g) (g_corner g) p = v <-> in_cell s c v p.
  Proof. intros. apply voxel_index_cell, WF. Qed.

  Lemma index_nonneg : forall p,
    (Z.ltb (ix (voxel_index (g_scale g) c p)) 0 || Z.ltb (iy (voxel_index (g_scale g) c p)) 0 ||
     Z.ltb (iz (voxel_index (g_scale g) c p)) 0)%bool = false <-> above c p.
  Proof.
    intro p. destruct WF as [Hk _ _]. rewrite !orb_false_iff, !Z.ltb_ge. unfold voxel_index, above; cbn [ix iy iz].
    assert (K : forall x, (0 <= floor (x * g_scale g))%Z <-> 0 <= x).
    { intro x. assert (F := floor_neg (g_scale g) x Hk). split; intro H.
      - destruct (Rle_lt_dec 0 x) as [Q|Q]; [exact Q|]. apply F in Q. lia.
      - destruct (Z_lt_le_dec (floor (x * g_scale g)) 0) as [Q|Q]; [|exact Q]. apply F in Q. lra. }
    rewrite !K. split; [intros [[? ?] ?]|intros (? & ? & ?)]; repeat split; lra.
  Qed.

  Lemma add_rejected : forall ps, ps = [] \/ (exists p, In p ps /\ ~ above c p) -> add_points g ps = (g, Err ValueError).
  Proof.
    intros ps H. unfold add_points. destruct H as [->|(p & Hp & Hb)]; [reflexivity|].
    destruct (map _ ps) as [|v vs] eqn:E; [reflexivity|].
    replace (existsb _ (v :: vs)) with true; [reflexivity|]. symmetry. apply existsb_exists.
    exists (voxel_index (g_scale g) (g_corner g) p). split; [rewrite <- E; apply in_map, Hp|].
    apply not_false_iff_true. intro K. apply Hb. apply index_nonneg. exact K.
  Qed.

  (** The successful case. *)
  Lemma add_accepted : forall ps, ps <> [] -> (forall p, In p ps -> above c p) ->
    exists g' bx by', add_points g ps = (g', Ok tt) /\ well_formed g' /\
      g_scale g' = g_scale g /\ g_corner g' = c /\
      extent ix s c ps bx /\ extent iy s c ps by' /\
      (g_size_x g', g_size_y g') =
        (if Z.ltb (g_size_x g) bx || Z.ltb (g_size_y g) by' then (bx, by') else (g_size_x g, g_size_y g)) /\
      (0 < g_size_x g' /\ 0 < g_size_y g')%Z /\
      (forall v, occupied s c ps v -> in_grid (g_size_x g') (g_size_y g') v) /\
      (forall v, In v (g_voxels g') <-> occupied s c ps v \/
         exists u, In u (g_voxels g) /\ v = vectorize (g_size_x g') (g_size_y g') (linearize (g_size_x g') (g_size_y g') u)).
  Proof.
    intros ps Hn Ha. unfold add_points.
    assert (OCC : forall v, In v (map (voxel_index (g_scale g) (g_corner g)) ps) <-> occupied s c ps v).
    { intro v. rewrite in_map_iff. unfold occupied. split; intros (p & A & B); exists p.
      - split; [exact B|]. apply index_cell. exact A.
      - split; [apply index_cell; exact B|exact A]. }
    destruct (map _ ps) as [|v0 vs] eqn:E; [destruct ps; [congruence|discriminate]|].
    assert (NN : forall w, In w (v0 :: vs) -> (0 <= ix w /\ 0 <= iy w /\ 0 <= iz w)%Z).
    { intros w Hw. rewrite <- E in Hw. apply in_map_iff in Hw. destruct Hw as (p & <- & Hp).
      specialize (Ha p Hp). apply index_nonneg in Ha. rewrite !orb_false_iff, !Z.ltb_ge in Ha. unfold c in Ha. tauto. }
    replace (existsb _ (v0 :: vs)) with false.
    2:{ symmetry. apply not_true_iff_false. intro K. apply existsb_exists in K. destruct K as (w & Hw & K).
        rewrite !orb_true_iff, !Z.ltb_lt in K. specialize (NN w Hw). lia. }
    set (bx := (zmax ix v0 vs + 1)%Z). set (by' := (zmax iy v0 vs + 1)%Z).
    assert (EX : forall f, extent f s c ps (zmax f v0 vs + 1)).
    { intro f. split.
      - intros v Hv. apply OCC in Hv. assert (H := zmax_ge f vs v0 v Hv). lia.
      - destruct (zmax_attained f vs v0) as (w & Hw & Ew). exists w. split; [apply OCC, Hw|lia]. }
    assert (PX : (0 < bx)%Z). { assert (H := zmax_ge ix vs v0 v0 (or_introl eq_refl)). specialize (NN v0 (or_introl eq_refl)). unfold bx. lia. }
    assert (PY : (0 < by')%Z). { assert (H := zmax_ge iy vs v0 v0 (or_introl eq_refl)). specialize (NN v0 (or_introl eq_refl)). unfold by'. lia. }
    destruct (if Z.ltb (g_size_x g) bx || Z.ltb (g_size_y g) by' then (bx, by') else (g_size_x g, g_size_y g)) as [sx sy] eqn:ES.
    assert (SZ : (bx <= sx /\ by' <= sy)%Z).
    { destruct (Z.ltb (g_size_x g) bx || Z.ltb (g_size_y g) by') eqn:EB; injection ES as <- <-; [lia|].
      apply orb_false_iff in EB. rewrite !Z.ltb_ge in EB. lia. }
    assert (IG : forall v, In v (v0 :: vs) -> in_grid sx sy v).
    { intros v Hv. assert (A := zmax_ge ix vs v0 v Hv). assert (B := zmax_ge iy vs v0 v Hv). specialize (NN v Hv).
      unfold in_grid. unfold bx, by' in SZ. lia. }
    exists (Grid (g_scale g) (g_corner g) (map (vectorize sx sy)
        (union1d (map (linearize sx sy) (g_voxels g)) (map (linearize sx sy) (v0 :: vs)))) sx sy), bx, by'.
    assert (IN : forall v, In v (map (vectorize sx sy)
        (union1d (map (linearize sx sy) (g_voxels g)) (map (linearize sx sy) (v0 :: vs)))) <->
        occupied s c ps v \/ exists u, In u (g_voxels g) /\ v = vectorize sx sy (linearize sx sy u)).
    { intro v. rewrite in_map_iff. rewrite <- OCC. split.
      - intros (n & <- & Hn'). apply union1d_In in Hn'. destruct Hn' as [H|H]; apply in_map_iff in H; destruct H as (u & <- & Hu).
        + right. exists u. auto.
        + left. rewrite vector_linear by (apply IG, Hu). exact Hu.
      - intros [H|(u & Hu & ->)].
        + exists (linearize sx sy v). split; [apply vector_linear, IG, H|]. apply union1d_In. right. apply in_map, H.
        + exists (linearize sx sy u). split; [reflexivity|]. apply union1d_In. left. apply in_map, Hu. }
    split; [reflexivity|]. cbn [g_scale g_corner g_voxels g_size_x g_size_y].
    split; [|split; [reflexivity|split; [reflexivity|split; [apply EX|split; [apply EX|split; [symmetry; exact ES|split; [lia|]]]]]]].
    - destruct WF as [W1 W2 W3]. constructor; cbn [g_scale g_corner g_voxels g_size_x g_size_y].
      + exact W1.
      + apply NoDup_vectorize; [lia|lia|]. apply sorted_nodup, union1d_sorted.
      + intros v Hv. apply IN in Hv. destruct Hv as [Hv|(u & Hu & ->)]; [apply IG, OCC, Hv|].
        apply vector_in_grid; [lia|lia|]. specialize (W3 u Hu). unfold in_grid in W3. apply linear_nonneg; lia.
    - split; [intros v Hv; apply IG, OCC, Hv|exact IN].
  Qed.

  (** A batch accumulates exactly when the stored voxels fit the new sizes. *)
  Lemma add_exact : forall ps g', add_points g ps = (g', Ok tt) ->
    ((forall v, In v (g_voxels g') <-> In v (g_voxels g) \/ occupied s c ps v) <->
     (forall v, In v (g_voxels g) -> in_grid (g_size_x g') (g_size_y g') v)).
  Proof.
    intros ps g' H.
    destruct ps as [|p0 ps0]; [discriminate|]. set (ps := p0 :: ps0) in *.
    assert (Ha : forall p, In p ps -> above c p).
    { intros p Hp. apply index_nonneg. apply not_true_iff_false. intro K.
      assert (R := add_rejected ps). rewrite R in H; [discriminate|]. right. exists p. split; [exact Hp|].
      intro A. apply index_nonneg in A. congruence. }
    destruct (add_accepted ps ltac:(discriminate) Ha) as (g1 & bx & by' & E & W & _ & _ & _ & _ & _ & SP & IG & IN).
    rewrite E in H. injection H as <-. split.
    - intros K v Hv. apply (wf_in _ W). apply K. left. exact Hv.
    - intros K v. rewrite IN. split.
      + intros [Hv|(u & Hu & ->)]; [right; exact Hv|]. left. rewrite vector_linear by (apply K, Hu). exact Hu.
      + intros [Hv|Hv]; [|left; exact Hv]. right. exists v. split; [exact Hv|]. symmetry. apply vector_linear, K, Hv.
  Qed.
End Add.

Lemma extent_unique : forall f s c ps n m, extent f s c ps n -> extent f s c ps m -> n = m.
Proof.
  intros f s c ps n m [A (v & Hv & Ev)] [B (w & Hw & Ew)]. specialize (A w Hw). specialize (B v Hv). lia.
Qed.

Lemma extent_nonempty : forall f s c ps n, extent f s c ps n -> ps <> [].
Proof. intros f s c ps n [_ (v & (p & Hp & _) & _)] ->. destruct Hp. Qed.

Lemma batches_accumulate : forall batches g, well_formed g ->
  growing (voxel_size g) (g_corner g) (g_size_x g) (g_size_y g) batches ->
  forall v, In v (g_voxels (add_batches g batches)) <->
    In v (g_voxels g) \/ exists b, In b batches /\ occupied (voxel_size g) (g_corner g) b v.
Proof.
  induction batches as [|b batches IH]; intros g W G v.
  - simpl. split; [auto|]. intros [H|(b & [] & _)]; exact H.
  - cbn [add_batches fold_left].
    assert (STEP : exists g', add_points g b = (g', Ok tt) /\ well_formed g' /\
      voxel_size g' = voxel_size g /\ g_corner g' = g_corner g /\
      growing (voxel_size g) (g_corner g) (g_size_x g') (g_size_y g') batches /\
      (forall v, In v (g_voxels g) -> in_grid (g_size_x g') (g_size_y g') v)).
    { inversion G as [|sx sy b0 bs bx by' Ha Ex Ey Lx Ly G'|sx sy b0 bs bx by' Ha Ex Ey Lx Ly G']; subst;
        destruct (add_accepted g W b (extent_nonempty _ _ _ _ _ Ex) Ha) as (g' & bx1 & by1 & E & W' & S1 & S2 & Ex1 & Ey1 & SZ & SP & _ & _);
        assert (bx1 = bx) by (eapply extent_unique; eassumption); assert (by1 = by') by (eapply extent_unique; eassumption); subst bx1 by1;
        exists g'; (split; [exact E|]); (split; [exact W'|]); (split; [unfold voxel_size; rewrite S1; reflexivity|]); (split; [exact S2|]).
      - assert (EB : (Z.ltb (g_size_x g) bx || Z.ltb (g_size_y g) by')%bool = false) by (rewrite orb_false_iff, !Z.ltb_ge; lia).
        rewrite EB in SZ. injection SZ as E1 E2. rewrite E1, E2. split; [exact G'|]. apply W.
      - assert (EQ : g_size_x g' = bx /\ g_size_y g' = by').
        { destruct (Z.ltb (g_size_x g) bx || Z.ltb (g_size_y g) by')%bool eqn:EB; injection SZ as E1 E2; [auto|].
          apply orb_false_iff in EB. rewrite !Z.ltb_ge in EB. lia. }
        destruct EQ as [-> ->]. split; [exact G'|]. intros u Hu. apply (wf_in _ W) in Hu. unfold in_grid in *. lia. }
    destruct STEP as (g' & E & W' & S1 & S2 & G' & K). rewrite E. cbn [fst].
    change (fold_left _ batches g') with (add_batches g' batches).
    rewrite IH; [|exact W'|rewrite S1, S2; exact G']. rewrite S1, S2.
    rewrite (proj2 (add_exact g W b g' E) K v). split.
    + intros [[H|H]|(b' & Hb & H)]; [auto| |].
      * right. exists b. split; [left; reflexivity|exact H].
      * right. exists b'. split; [right; exact Hb|exact H].
    + intros [H|(b' & [<-|Hb] & H)]; [auto|auto|]. right. exists b'. auto.
Qed.

(** * Centers and bounds *)
Lemma half_size : forall k x n, 0 < k -> IZR n * (1 / k) <= x < (IZR n + 1) * (1 / k) ->
  - (1 / k) / 2 <= x - (IZR n * (1 / k) + 1 / 2 * (1 / k)) < (1 / k) / 2.
Proof. intros. lra. Qed.

Definition center_of (g : grid) (v : vox) : vec :=
  V (IZR (ix v) * voxel_size g + (vx (g_corner g) + 1 / 2 * voxel_size g))
    (IZR (iy v) * voxel_size g + (vy (g_corner g) + 1 / 2 * voxel_size g))
    (IZR (iz v) * voxel_size g + (vz (g_corner g) + 1 / 2 * voxel_size g)).
Lemma centers_eq : forall g, voxel_centers g = map (center_of g) (g_voxels g).
Proof. reflexivity. Qed.

(** Each coordinate of a point in a cell is within half a voxel of the center. *)
Lemma cell_center : forall g v p axis, in_cell (voxel_size g) (g_corner g) v p -> (axis < 3)%nat ->
  - (voxel_size g / 2) <= coord axis p - coord axis (center_of g v) < voxel_size g / 2.
Proof.
  intros g v p axis (A & B & C) Ha. destruct axis as [|[|[|axis]]]; [| | |lia]; cbn [coord center_of vx vy vz]; lra.
Qed.

Lemma bounds_ok : forall g, g_voxels g <> [] -> 0 < g_scale g -> exists b, bounds g = Ok b /\ normalized b /\
  (forall axis, (axis < 3)%nat ->
     (forall v, In v (g_voxels g) -> coord axis (min_corner b) <= coord axis (center_of g v) - voxel_size g / 2 /\
                                     coord axis (center_of g v) + voxel_size g / 2 <= coord axis (max_corner b)) /\
     (exists v, In v (g_voxels g) /\ coord axis (min_corner b) = coord axis (center_of g v) - voxel_size g / 2) /\
     (exists v, In v (g_voxels g) /\ coord axis (max_corner b) = coord axis (center_of g v) + voxel_size g / 2)).
Proof.
  intros g Hn Hk. assert (Hs : 0 < voxel_size g) by (unfold voxel_size; apply Rdiv_lt_0_compat; lra).
  unfold bounds. rewrite centers_eq. destruct (g_voxels g) as [|v vs] eqn:E; [congruence|]. cbn [map].
  set (h := 1 / 2 * voxel_size g).
  set (lo := amin (center_of g v) (map (center_of g) vs)). set (hi := amax (center_of g v) (map (center_of g) vs)).
  assert (LH : vle lo hi).
  { apply vle_trans with (center_of g v); [apply amin_le|apply amax_ge]; left; reflexivity. }
  assert (ORD : vle (vsub lo (V h h h)) (vadd hi (V h h h))).
  { destruct LH as (A & B & C). unfold vle, vsub, vadd; simpl. unfold h. lra. }
  eexists. split; [reflexivity|]. split; [apply mk_box_normalized|].
  rewrite mk_box_ordered by exact ORD. cbn [min_corner max_corner]. intros axis Ha.
  assert (CS : coord axis (vsub lo (V h h h)) = coord axis lo - h) by (destruct axis as [|[|axis]]; reflexivity).
  assert (CA : coord axis (vadd hi (V h h h)) = coord axis hi + h) by (destruct axis as [|[|axis]]; reflexivity).
  rewrite CS, CA.
  assert (MAP : forall w, In w (v :: vs) -> In (center_of g w) (center_of g v :: map (center_of g) vs)).
  { intros w Hw. rewrite <- map_cons. apply in_map, Hw. }
  split; [|split].
  - intros w Hw. apply MAP in Hw.
    assert (A := proj1 (coord_le _ _) (amin_le _ _ _ Hw) axis Ha). assert (B := proj1 (coord_le _ _) (amax_ge _ _ _ Hw) axis Ha).
    fold lo in A. fold hi in B. unfold h. lra.
  - destruct (amin_attained axis Ha (map (center_of g) vs) (center_of g v)) as (q & Hq & Eq).
    rewrite <- map_cons in Hq. apply in_map_iff in Hq. destruct Hq as (w & <- & Hw). exists w. split; [exact Hw|].
    fold lo in Eq. unfold h. lra.
  - destruct (amax_attained axis Ha (map (center_of g) vs) (center_of g v)) as (q & Hq & Eq).
    rewrite <- map_cons in Hq. apply in_map_iff in Hq. destruct Hq as (w & <- & Hw). exists w. split; [exact Hw|].
    fold hi in Eq. unfold h. lra.
Qed.
