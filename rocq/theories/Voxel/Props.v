(** Properties C22-C24, C52 and C61: voxel grids and the voxel evaluator. *)
From Coq Require Import Reals Lra Lia ZArith List Bool String QArith.
From Verif.Base Require Import Py PyFacts Vec.
From Verif.Assoc Require Import Model Spec Proofs.
From Verif.AP Require Import Model Spec Proofs.
From Verif.Scores Require Import Model.
From Verif.Geom Require Import Model.
From Verif.Box Require Import Model Spec Proofs.
From Verif.Points Require Import Model Spec Proofs Props.
From Verif.Voxel Require Import Model Spec Proofs.
Import ListNotations.
Open Scope R_scope.

(** * C22 *)
Theorem C22_roundtrip : forall sx sy v, in_grid sx sy v -> vectorize sx sy (linearize sx sy v) = v.
Proof. exact vector_linear. Qed.

Theorem C22_injective : forall sx sy v w, in_grid sx sy v -> in_grid sx sy w ->
  linearize sx sy v = linearize sx sy w -> v = w.
Proof.
  intros sx sy v w Hv Hw H. rewrite <- (vector_linear sx sy v Hv), <- (vector_linear sx sy w Hw), H. reflexivity.
Qed.

Theorem C22_index_roundtrip : forall sx sy n, (0 < sx)%Z -> (0 < sy)%Z -> (0 <= n)%Z ->
  linearize sx sy (vectorize sx sy n) = n /\ in_grid sx sy (vectorize sx sy n).
Proof. intros. split; [apply linear_vector|apply vector_in_grid]; assumption. Qed.

(** Outside the grid two voxels can share an index. *)
Example C22_example : linearize 3 2 (Vox 2 1 4) = 29%Z /\ vectorize 3 2 29 = Vox 2 1 4 /\
  linearize 3 2 (Vox 0 1 0) = linearize 3 2 (Vox 3 0 0).
Proof. repeat split. Qed.

(** * C23 *)
Lemma empty_wf : forall s c, 0 < s -> well_formed (Grid (1 / s) c [] 0 0).
Proof.
  intros s c H. constructor; cbn; [apply Rdiv_lt_0_compat; lra|constructor|intros v []].
Qed.
Lemma size_inv : forall s, 0 < s -> 1 / (1 / s) = s.
Proof. intros; field; lra. Qed.

Lemma mk_grid_ok : forall s c ps, 0 < s -> ps <> [] -> (forall p, In p ps -> above c p) ->
  exists g, mk_grid s c (Some ps) = Ok g /\ well_formed g /\ g_corner g = c /\ voxel_size g = s /\ g_voxels g <> [] /\
    forall v, In v (g_voxels g) <-> occupied s c ps v.
Proof.
  intros s c ps Hs Hn Ha. unfold mk_grid. destruct (Rle_dec s 0); [lra|].
  destruct (add_accepted _ (empty_wf s c Hs) ps Hn Ha) as (g & bx & by' & E & W & S1 & S2 & Ex & _ & _ & _ & _ & IN).
  rewrite E. cbn [bind]. exists g. split; [reflexivity|]. split; [exact W|]. split; [exact S2|].
  unfold voxel_size in *. rewrite S1. cbn [g_scale] in *. rewrite size_inv in * by exact Hs. split; [reflexivity|].
  cbn [g_corner] in *.
  assert (K : forall v, In v (g_voxels g) <-> occupied s c ps v).
  { intro v. rewrite IN. split; [intros [H|(u & [] & _)]; exact H|auto]. }
  split; [|exact K]. destruct Ex as [_ (v & Hv & _)]. apply K in Hv. intro Z. rewrite Z in Hv. destruct Hv.
Qed.

Theorem C23_exact_cover : forall s c ps, 0 < s -> ps <> [] -> (forall p, In p ps -> above c p) ->
  exists g, mk_grid s c (Some ps) = Ok g /\
    NoDup (g_voxels g) /\
    (forall v, In v (g_voxels g) <-> exists p, In p ps /\ in_cell s c v p) /\
    (forall p, In p ps -> exists q, In q (voxel_centers g) /\
       forall axis, (axis < 3)%nat -> - (s / 2) <= coord axis p - coord axis q < s / 2) /\
    (exists b, bounds g = Ok b /\ normalized b /\ forall p, In p ps -> inside b p).
Proof.
  intros s c ps Hs Hn Ha. destruct (mk_grid_ok s c ps Hs Hn Ha) as (g & E & W & C1 & C2 & NE & IN).
  exists g. split; [exact E|]. split; [apply W|]. split; [exact IN|].
  assert (CELL : forall p, In p ps -> exists v, In v (g_voxels g) /\ in_cell (voxel_size g) (g_corner g) v p).
  { intros p Hp. exists (voxel_index (g_scale g) (g_corner g) p).
    assert (IC := proj1 (index_cell g W p _) eq_refl). split; [|exact IC]. apply IN. exists p. split; [exact Hp|].
    rewrite <- C1, <- C2. exact IC. }
  split.
  - intros p Hp. destruct (CELL p Hp) as (v & Hv & IC). exists (center_of g v).
    split; [rewrite centers_eq; apply in_map, Hv|]. intros axis Hx. rewrite <- C2. apply cell_center; assumption.
  - destruct (bounds_ok g NE (wf_scale _ W)) as (b & Eb & Nb & B). exists b. split; [exact Eb|]. split; [exact Nb|].
    intros p Hp. destruct (CELL p Hp) as (v & Hv & IC).
    split; apply coord_le; intros axis Hx; destruct (B axis Hx) as (B1 & _); specialize (B1 v Hv);
      assert (D := cell_center g v p axis IC Hx); lra.
Qed.

(** The bounds are those of the occupied cubes, not larger. *)
Theorem C23_bounds_tight : forall g b, well_formed g -> bounds g = Ok b ->
  forall axis, (axis < 3)%nat ->
    (exists v, In v (g_voxels g) /\ coord axis (min_corner b) =
       coord axis (g_corner g) + IZR (match axis with O => ix v | 1%nat => iy v | _ => iz v end) * voxel_size g) /\
    (exists v, In v (g_voxels g) /\ coord axis (max_corner b) =
       coord axis (g_corner g) + (IZR (match axis with O => ix v | 1%nat => iy v | _ => iz v end) + 1) * voxel_size g).
Proof.
  intros g b W E axis Hx.
  assert (NE : g_voxels g <> []). { intro Z. unfold bounds in E. rewrite centers_eq, Z in E. discriminate. }
  destruct (bounds_ok g NE (wf_scale _ W)) as (b' & Eb & _ & B). assert (b' = b) by congruence. subst b'.
  destruct (B axis Hx) as (_ & (v & Hv & Ev) & (w & Hw & Ew)). split; [exists v|exists w]; (split; [assumption|]).
  - rewrite Ev. destruct axis as [|[|[|axis]]]; [| | |lia]; cbn [coord center_of vx vy vz]; lra.
  - rewrite Ew. destruct axis as [|[|[|axis]]]; [| | |lia]; cbn [coord center_of vx vy vz]; lra.
Qed.

Theorem C23_rejections : forall s c ps, 0 < s ->
  (ps = [] \/ (exists p, In p ps /\ ~ above c p) -> mk_grid s c (Some ps) = Err ValueError) /\
  (forall e, mk_grid s c (Some ps) = Err e -> e = ValueError /\ (ps = [] \/ exists p, In p ps /\ ~ above c p)).
Proof.
  intros s c ps Hs. split.
  - intro H. unfold mk_grid. destruct (Rle_dec s 0); [reflexivity|].
    rewrite (add_rejected _ (empty_wf s c Hs) ps H). reflexivity.
  - intros e E.
    assert (D : (ps = [] \/ exists p, In p ps /\ ~ above c p) \/ (ps <> [] /\ forall p, In p ps -> above c p)).
    { assert (DA : forall p, above c p \/ ~ above c p).
      { intro p. unfold above. destruct (Rle_dec (vx c) (vx p)); destruct (Rle_dec (vy c) (vy p)); destruct (Rle_dec (vz c) (vz p)); tauto. }
      clear E. destruct ps as [|p ps]; [left; left; reflexivity|].
      assert (Q : (exists q, In q (p :: ps) /\ ~ above c q) \/ forall q, In q (p :: ps) -> above c q).
      { induction (p :: ps) as [|q l IH]; [right; intros ? []|].
        destruct (DA q) as [H|H]; [|left; exists q; simpl; auto].
        destruct IH as [(q' & Hq & H')|IH]; [left; exists q'; simpl; auto|].
        right. intros r [<-|Hr]; auto. }
      destruct Q as [Q|Q]; [left; right; exact Q|right; split; [discriminate|exact Q]]. }
    destruct D as [D|[Hn Ha]].
    + split; [|exact D]. unfold mk_grid in E. destruct (Rle_dec s 0); [lra|].
      rewrite (add_rejected _ (empty_wf s c Hs) ps D) in E. cbn [bind] in E. congruence.
    + destruct (mk_grid_ok s c ps Hs Hn Ha) as (g & E' & _). congruence.
Qed.

(** A grid without voxels has no bounds. *)
Theorem C23_empty_grid_bounds : forall s c, 0 < s ->
  exists g, mk_grid s c None = Ok g /\ voxel_centers g = [] /\ bounds g = Err ValueError.
Proof.
  intros s c Hs. unfold mk_grid. destruct (Rle_dec s 0); [lra|]. eexists. split; [reflexivity|]. split; reflexivity.
Qed.

(** Three points in two cells of side 1/2. *)
Definition ex_points : list vec := [V (1/4) (1/4) (1/4); V (3/4) (1/8) 0; V (1/8) (1/3) (1/4)].
Example C23_example : exists g, mk_grid (1/2) vzero (Some ex_points) = Ok g /\ List.length (g_voxels g) = 2%nat /\
  In (Vox 0 0 0) (g_voxels g) /\ In (Vox 1 0 0) (g_voxels g).
Proof.
  destruct (C23_exact_cover (1/2) vzero ex_points) as (g & E & ND & IN & _); [lra|discriminate| |].
  { intros p [<-|[<-|[<-|[]]]]; unfold above, vzero; simpl; lra. }
  exists g. split; [exact E|].
  assert (I0 : In (Vox 0 0 0) (g_voxels g)).
  { apply IN. exists (V (1/4) (1/4) (1/4)). split; [simpl; auto|]. unfold in_cell, vzero; simpl; lra. }
  assert (I1 : In (Vox 1 0 0) (g_voxels g)).
  { apply IN. exists (V (3/4) (1/8) 0). split; [simpl; auto|]. unfold in_cell, vzero; simpl; lra. }
  split; [|split; assumption].
  assert (UP : incl (g_voxels g) [Vox 0 0 0; Vox 1 0 0]).
  { intros v Hv. apply IN in Hv. destruct Hv as (p & Hp & IC).
    assert (U : forall v w p, in_cell (1/2) vzero v p -> in_cell (1/2) vzero w p -> v = w).
    { intros v' w p' H H'. replace (1/2) with (1 / 2) in * by reflexivity.
      apply (voxel_index_cell 2 vzero p' v') in H; [|lra]. apply (voxel_index_cell 2 vzero p' w) in H'; [|lra]. congruence. }
    destruct Hp as [<-|[<-|[<-|[]]]].
    - left. eapply U; [|exact IC]. unfold in_cell, vzero; simpl; lra.
    - right; left. eapply U; [|exact IC]. unfold in_cell, vzero; simpl; lra.
    - left. eapply U; [|exact IC]. unfold in_cell, vzero; simpl; lra. }
  assert (L1 := NoDup_incl_length ND UP).
  assert (L2 : (2 <= List.length (g_voxels g))%nat).
  { change 2%nat with (List.length [Vox 0 0 0; Vox 1 0 0]). apply NoDup_incl_length.
    - repeat constructor; simpl; intuition discriminate.
    - intros v [<-|[<-|[]]]; assumption. }
  simpl in L1. lia.
Qed.

(** * C24 *)
Theorem C24_accumulates : forall s c batches g0,
  0 < s -> mk_grid s c None = Ok g0 -> growing s c 0 0 batches ->
  forall v, In v (g_voxels (add_batches g0 batches)) <-> exists b, In b batches /\ occupied s c b v.
Proof.
  intros s c batches g0 Hs E G v. unfold mk_grid in E. destruct (Rle_dec s 0); [lra|]. injection E as <-.
  assert (V : voxel_size (Grid (1 / s) c [] 0 0) = s) by (apply size_inv, Hs).
  rewrite (batches_accumulate batches _ (empty_wf s c Hs)); cbn [g_corner g_voxels g_size_x g_size_y]; rewrite V; [|exact G].
  split; [intros [[]|H]; exact H|auto].
Qed.

(** One accepted batch keeps what was there and adds its cells exactly when all
    stored voxels lie within the sizes the grid has afterwards. *)
Theorem C24_exact_step : forall g ps g', well_formed g -> add_points g ps = (g', Ok tt) ->
  ((forall v, In v (g_voxels g') <-> In v (g_voxels g) \/ occupied (voxel_size g) (g_corner g) ps v) <->
   (forall v, In v (g_voxels g) -> in_grid (g_size_x g') (g_size_y g') v)) /\ well_formed g'.
Proof.
  intros g ps g' W E. split; [apply add_exact; assumption|].
  destruct ps as [|p ps]; [discriminate|].
  destruct (C23_rejections 1 vzero [] ltac:(lra)) as [_ _].
  assert (Ha : forall q, In q (p :: ps) -> above (g_corner g) q).
  { intros q Hq. apply (index_nonneg g W). apply not_true_iff_false. intro K.
    rewrite (add_rejected g W (p :: ps)) in E; [discriminate|]. right. exists q. split; [exact Hq|].
    intro A. apply (index_nonneg g W) in A. congruence. }
  destruct (add_accepted g W (p :: ps) ltac:(discriminate) Ha) as (g1 & ? & ? & E1 & W1 & _). congruence.
Qed.

(** A rejected batch raises ValueError and leaves the grid as it was. *)
Theorem C24_rejected_unchanged : forall g ps g' e, add_points g ps = (g', Err e) -> g' = g /\ e = ValueError.
Proof.
  intros g ps g' e H. unfold add_points in H. destruct (map _ ps) as [|v vs]; [injection H as <- <-; auto|].
  destruct (existsb _ _); [injection H as <- <-; auto|]. destruct (if _ : bool then _ else _) as [sx sy]. discriminate.
Qed.

Lemma add_one : forall x y z g, g_scale g = 1 -> g_corner g = vzero ->
  add_points g [V (IZR x) (IZR y) (IZR z)] =
  (if (Z.ltb x 0 || Z.ltb y 0 || Z.ltb z 0)%bool then (g, Err ValueError) else
   let '(sx, sy) := if (Z.ltb (g_size_x g) (x + 1) || Z.ltb (g_size_y g) (y + 1))%bool then ((x + 1)%Z, (y + 1)%Z)
                    else (g_size_x g, g_size_y g) in
   (Grid (g_scale g) (g_corner g) (map (vectorize sx sy)
      (union1d (map (linearize sx sy) (g_voxels g)) (map (linearize sx sy) [Vox x y z]))) sx sy, Ok tt)).
Proof.
  intros x y z g Hs Hc. unfold add_points. cbn [map].
  assert (F : forall n, floor ((IZR n - 0) * 1) = n) by (intro n; apply floor_iff; lra).
  replace (voxel_index (g_scale g) (g_corner g) (V (IZR x) (IZR y) (IZR z))) with (Vox x y z).
  - cbn [existsb ix iy iz zmax fold_left]. rewrite orb_false_r. reflexivity.
  - rewrite Hs, Hc. unfold voxel_index, vzero; cbn [vx vy vz]. rewrite !F. reflexivity.
Qed.

(** A batch wider in x and narrower in y than the grid moves a stored voxel: the
    cell of (0,1,0) is lost and the empty cell of (0,0,1) appears. *)
Theorem C24_accumulates_refuted : exists s c b1 b2 g0,
  mk_grid s c None = Ok g0 /\
  snd (add_points g0 b1) = Ok tt /\ snd (add_points (fst (add_points g0 b1)) b2) = Ok tt /\
  (exists v, occupied s c b1 v /\ ~ In v (g_voxels (add_batches g0 [b1; b2]))) /\
  (exists v, In v (g_voxels (add_batches g0 [b1; b2])) /\ ~ occupied s c b1 v /\ ~ occupied s c b2 v).
Proof.
  exists 1, vzero, [V 0 1 0], [V 1 0 0]. unfold mk_grid. destruct (Rle_dec 1 0); [lra|]. eexists. split; [reflexivity|].
  replace (1 / 1) with 1 by field. cbn [add_batches fold_left].
  assert (A1 : add_points (Grid 1 vzero [] 0 0) [V 0 1 0] = (Grid 1 vzero [Vox 0 1 0] 1 2, Ok tt)).
  { rewrite (add_one 0 1 0 (Grid 1 vzero [] 0 0) eq_refl eq_refl). reflexivity. }
  assert (A2 : exists g, add_points (Grid 1 vzero [Vox 0 1 0] 1 2) [V 1 0 0] = (g, Ok tt) /\ g_voxels g = [Vox 1 0 0; Vox 0 0 1]).
  { rewrite (add_one 1 0 0 (Grid 1 vzero [Vox 0 1 0] 1 2) eq_refl eq_refl). eexists. split; reflexivity. }
  destruct A2 as (g2 & A2 & V2). rewrite A1. cbn [fst snd]. rewrite A2. cbn [fst snd]. rewrite V2.
  split; [reflexivity|]. split; [reflexivity|].
  assert (U : forall v w p, in_cell 1 vzero v p -> in_cell 1 vzero w p -> v = w).
  { intros v w p H H'. replace 1 with (1 / 1) in H, H' by field.
    apply (voxel_index_cell 1 vzero p v) in H; [|lra]. apply (voxel_index_cell 1 vzero p w) in H'; [|lra]. congruence. }
  assert (C1 : in_cell 1 vzero (Vox 0 1 0) (V 0 1 0)) by (unfold in_cell, vzero; simpl; lra).
  assert (C2 : in_cell 1 vzero (Vox 1 0 0) (V 1 0 0)) by (unfold in_cell, vzero; simpl; lra).
  split.
  - exists (Vox 0 1 0). split; [exists (V 0 1 0); split; [left; reflexivity|exact C1]|].
    simpl. intros [H|[H|[]]]; discriminate H.
  - exists (Vox 0 0 1). split; [simpl; auto|]. split; intros (p & [<-|[]] & H).
    + assert (K := U _ _ _ H C1). discriminate K.
    + assert (K := U _ _ _ H C2). discriminate K.
Qed.

(** A sequence to which [C24_accumulates] applies. *)
Example C24_example : growing 1 vzero 0 0 [[V 0 0 0]; [V 1 1 0]; [V 0 1 5]].
Proof.
  assert (E : forall f x y z, f (Vox x y z) = f (Vox x y z) -> extent f 1 vzero [V (IZR x) (IZR y) (IZR z)] (f (Vox x y z) + 1)%Z).
  { intros f x y z _.
    assert (C : forall v, occupied 1 vzero [V (IZR x) (IZR y) (IZR z)] v <-> v = Vox x y z).
    { intro v. split.
      - intros (p & [<-|[]] & H). replace 1 with (1 / 1) in H by field. apply voxel_index_cell in H; [|lra]. rewrite <- H.
        unfold voxel_index, vzero; cbn [vx vy vz]. assert (F : forall n, floor ((IZR n - 0) * 1) = n) by (intro n; apply floor_iff; lra).
        rewrite !F. reflexivity.
      - intros ->. eexists; split; [left; reflexivity|]. unfold in_cell, vzero; simpl; lra. }
    split.
    - intros v Hv. apply C in Hv. subst v. lia.
    - exists (Vox x y z). split; [apply C; reflexivity|lia]. }
  apply growing_grow with 1%Z 1%Z; [intros p [<-|[]]; unfold above, vzero; simpl; lra|apply (E ix 0 0 0)%Z; reflexivity|apply (E iy 0 0 0)%Z; reflexivity|lia|lia|].
  apply growing_grow with 2%Z 2%Z; [intros p [<-|[]]; unfold above, vzero; simpl; lra|apply (E ix 1 1 0)%Z; reflexivity|apply (E iy 1 1 0)%Z; reflexivity|lia|lia|].
  apply growing_keep with 1%Z 2%Z; [intros p [<-|[]]; unfold above, vzero; simpl; lra|apply (E ix 0 1 5)%Z; reflexivity|apply (E iy 0 1 5)%Z; reflexivity|lia|lia|].
  constructor.
Qed.

(** * C61: Voxelizer *)
Theorem C61_voxelizer_covers : forall s points, 0 < s -> points <> [] ->
  exists g, voxelize s points = Ok g /\
    (forall p, In p points -> exists v, In v (g_voxels g) /\ in_cell s (g_corner g) v p) /\
    (forall v, In v (g_voxels g) -> exists p, In p points /\ in_cell s (g_corner g) v p) /\
    (exists v, In v (g_voxels g) /\ ix v = 0%Z) /\ (exists v, In v (g_voxels g) /\ iy v = 0%Z) /\
    (exists v, In v (g_voxels g) /\ iz v = 0%Z).
Proof.
  intros s points Hs Hn. unfold voxelize.
  destruct (from_point_cloud_tight points Hn) as [I T].
  destruct (mk_grid_ok s (min_corner (from_point_cloud points)) points Hs Hn) as (g & E & W & C1 & C2 & _ & IN).
  { intros p Hp. destruct (I p Hp) as [A _]. exact A. }
  exists g. split; [exact E|]. rewrite C1. split.
  - intros p Hp. exists (voxel_index (g_scale g) (g_corner g) p). assert (IC := proj1 (index_cell g W p _) eq_refl).
    rewrite C1, C2 in IC. split; [apply IN; exists p; split; [exact Hp|]|]; rewrite C1; exact IC.
  - split; [intros v Hv; apply IN in Hv; exact Hv|].
    assert (K : forall axis, (axis < 3)%nat -> exists v, In v (g_voxels g) /\
      match axis with O => ix v | 1%nat => iy v | _ => iz v end = 0%Z).
    { intros axis Ha. destruct (T axis Ha) as [(p & Hp & Ep) _].
      exists (voxel_index (g_scale g) (g_corner g) p). assert (IC := proj1 (index_cell g W p _) eq_refl). rewrite C1, C2 in IC.
      split; [apply IN; exists p; split; [exact Hp|rewrite C1; exact IC]|].
      assert (F : floor (0 * g_scale g) = 0%Z) by (apply floor_iff; lra).
      rewrite C1. unfold voxel_index; cbn [ix iy iz].
      destruct axis as [|[|axis]]; cbn [coord] in Ep; rewrite Ep; unfold Rminus; rewrite Rplus_opp_r; exact F. }
    split; [apply (K 0%nat); lia|]. split; [apply (K 1%nat); lia|apply (K 2%nat); lia].
Qed.

Example C61_example : exists g, voxelize (1/2) ex_points = Ok g /\ g_voxels g <> [].
Proof.
  destruct (C61_voxelizer_covers (1/2) ex_points) as (g & E & C & _); [lra|discriminate|]. exists g. split; [exact E|].
  intro Z. destruct (C (V (1/4) (1/4) (1/4)) (or_introl eq_refl)) as (v & Hv & _). rewrite Z in Hv. destruct Hv.
Qed.

(** * C52 *)

Lemma prepare_error : forall s e, mapM prepare_elem s = Err e -> e = ValueError.
Proof.
  induction s as [|[k e0] s IH]; intros e H; [discriminate|]. cbn [mapM] in H.
  destruct (prepare_elem (k, e0)) as [x|e1] eqn:E; cbn [bind] in H.
  - destruct (mapM prepare_elem s) as [xs|e2] eqn:Es; cbn [bind] in H; [discriminate|]. injection H as <-. apply IH; reflexivity.
  - injection H as <-. unfold prepare_elem, prepare, bounds in E.
    destruct (voxel_centers (snd (e_info e0))); cbn [bind] in E; [congruence|discriminate].
Qed.

(** The voxel evaluator is the evaluator of the swapped scenes. *)
Theorem C52_swapped : forall query thresh sub gt ts cats,
  voxel_evaluator query thresh sub gt ts cats = straight_evaluator query thresh gt sub ts cats.
Proof.
  intros. unfold voxel_evaluator, straight_evaluator.
  destruct (mapM prepare_elem sub) as [s|e] eqn:Es; destruct (mapM prepare_elem gt) as [g|e'] eqn:Eg; cbn [bind]; try reflexivity.
  rewrite (prepare_error _ _ Es), (prepare_error _ _ Eg). reflexivity.
Qed.

(** Scores differ: one detection, two ground-truth elements at the same place. *)
Section Swap.
  Context {A : Type}.
  Variable i : A.
  Definition el (id : string) : elem A := mkElem id "chair" 1 true i.
  Variable sim : elem A -> elem A -> Q.
  Hypothesis H1 : sim (el "a") (el "b") = (2 # 2)%Q.
  Hypothesis H2 : sim (el "a") (el "c") = (2 # 2)%Q.
  Hypothesis H3 : sim (el "b") (el "a") = (2 # 2)%Q.
  Hypothesis H4 : sim (el "c") (el "a") = (2 # 2)%Q.
  Definition one : @scene A := [("a"%string, el "a")].
  Definition two : @scene A := [("b"%string, el "b"); ("c"%string, el "c")].

  Lemma straight_score : exists ev s, evaluator_init sim one two [(1#2)%Q] [] = Ok ev /\
    shape_score stable_argsort ev = Ok (Some s) /\ (s < 6 # 10)%Q.
  Proof.
    do 2 eexists. split; [|split].
    - unfold evaluator_init, make_similarity_cache, cache_row. cbn [dvalues one two map snd fold_left]. rewrite H1, H2.
      vm_compute. reflexivity.
    - vm_compute. reflexivity.
    - reflexivity.
  Qed.
  Lemma swapped_score : exists ev s, evaluator_init sim two one [(1#2)%Q] [] = Ok ev /\
    shape_score stable_argsort ev = Ok (Some s) /\ (9 # 10 < s)%Q.
  Proof.
    do 2 eexists. split; [|split].
    - unfold evaluator_init, make_similarity_cache, cache_row. cbn [dvalues one two map snd fold_left]. rewrite H3, H4.
      vm_compute. reflexivity.
    - vm_compute. reflexivity.
    - reflexivity.
  Qed.
End Swap.

Definition ex_grid : grid := Grid 1 vzero [Vox 0 0 0] 1 1.
Lemma ex_grid_built : mk_grid 1 vzero (Some [vzero]) = Ok ex_grid.
Proof.
  unfold mk_grid. destruct (Rle_dec 1 0); [lra|]. replace (1 / 1) with 1 by field.
  change vzero with (V (IZR 0) (IZR 0) (IZR 0)) at 2.
  rewrite (add_one 0 0 0 (Grid 1 vzero [] 0 0) eq_refl eq_refl). reflexivity.
Qed.

Theorem C52_submission_scored_refuted :
  exists query thresh argsort sub gt ts cats ev ev' s s',
    query_ok query /\ argsort_ok argsort /\ keyed_by_id sub /\ keyed_by_id gt /\
    voxel_evaluator query thresh sub gt ts cats = Ok ev /\
    straight_evaluator query thresh sub gt ts cats = Ok ev' /\
    shape_score argsort ev = Ok (Some s) /\ shape_score argsort ev' = Ok (Some s') /\ ~ (s == s')%Q.
Proof.
  set (pi := (pose_id, ex_grid)).
  assert (P : exists info, prepare pose_id ex_grid = Ok info /\ (fst info) = [Row (transform_from pose_id (V (1/2) (1/2) (1/2))) []] /\ normalized (snd info)).
  { eexists. split; [reflexivity|]. split; cbn [fst snd].
    - unfold transform_all_from, add_to_rows, rot_mul_array, transform_from. cbn [voxel_centers g_voxels ex_grid map]. do 2 f_equal. f_equal. f_equal.
      apply vec_eq; unfold voxel_size, ex_grid; cbn; field.
    - apply from_point_cloud_normalized. }
  destruct P as (info & EP & R & NB).
  assert (SIM : forall x y, voxel_similarity brute 0 (el info x) (el info y) = (2 # 2)%Q).
  { intros x y. unfold voxel_similarity. cbn [el e_info]. rewrite R. set (p := transform_from _ _).
    unfold points_iou. destruct (iou_quick_reject (snd info) (snd info) 0) eqn:EQ.
    - exfalso. apply quick_iff in EQ. destruct EQ as (axis & Ha & K). unfold normalized in NB. rewrite coord_le in NB.
      specialize (NB axis Ha). lra.
    - rewrite iou_full_hits. cbn [map r_pos].
      assert (N : near 0 [p] p) by (exists p; split; [left; reflexivity|rewrite dist_self; lra]).
      assert (C : counts (near 0 [p]) [p] 1) by (apply counts_yes; [exact N|constructor]).
      apply (hits_counts brute brute_ok) in C. rewrite C. reflexivity. }
  destruct (straight_score info (voxel_similarity brute 0)) as (ev' & s' & E1 & E2 & E3); try apply SIM.
  destruct (swapped_score info (voxel_similarity brute 0)) as (ev & s & F1 & F2 & F3); try apply SIM.
  exists brute, 0, stable_argsort, (one pi), (two pi), [(1#2)%Q], [], ev, ev', s, s'.
  split; [apply brute_ok|]. split; [apply stable_argsort_ok|].
  split; [split; [repeat constructor; intros []|intros k e [H|[]]; injection H as <- <-; reflexivity]|].
  split; [split; [repeat constructor; simpl; intuition discriminate|intros k e [H|[H|[]]]; injection H as <- <-; reflexivity]|].
  assert (M1 : mapM prepare_elem (one pi) = Ok (one info)).
  { unfold one. cbn [mapM prepare_elem el e_info e_id e_category e_score e_evaluated]. unfold pi. cbn [fst snd]. rewrite EP. reflexivity. }
  assert (M2 : mapM prepare_elem (two pi) = Ok (two info)).
  { unfold two. cbn [mapM prepare_elem el e_info e_id e_category e_score e_evaluated]. unfold pi. cbn [fst snd]. rewrite EP. reflexivity. }
  split; [unfold voxel_evaluator; rewrite M1; cbn [bind]; rewrite M2; exact F1|].
  split; [unfold straight_evaluator; rewrite M1; cbn [bind]; rewrite M2; exact E1|].
  split; [exact F2|]. split; [exact E2|]. intro K. rewrite K in F3.
  assert (Z := Qlt_trans _ _ _ F3 E3). discriminate Z.
Qed.

Print Assumptions C22_roundtrip.
Print Assumptions C22_injective.
Print Assumptions C22_index_roundtrip.
Print Assumptions C23_exact_cover.
Print Assumptions C23_bounds_tight.
Print Assumptions C23_rejections.
Print Assumptions C23_empty_grid_bounds.
Print Assumptions C24_accumulates.
Print Assumptions C24_exact_step.
Print Assumptions C24_rejected_unchanged.
Print Assumptions C24_accumulates_refuted.
Print Assumptions C61_voxelizer_covers.
Print Assumptions C52_swapped.
Print Assumptions C52_submission_scored_refuted.
