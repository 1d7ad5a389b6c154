From Coq Require Import Reals Lra List Bool Permutation Arith Lia.
From Verif.Base Require Import Py Vec.
From Verif.Geom Require Import Model Proofs.
From Verif.Box Require Import Model Spec.
Import ListNotations.
Open Scope R_scope.

Ltac vsplit := unfold vle, vlt in *; simpl in *; repeat split.

Lemma vle_refl : forall p, vle p p.
Proof. intro; vsplit; lra. Qed.
Lemma vle_trans : forall p q r, vle p q -> vle q r -> vle p r.
Proof. intros p q r (?&?&?) (?&?&?); vsplit; lra. Qed.
Lemma vle_antisym : forall p q, vle p q -> vle q p -> p = q.
Proof. intros p q (?&?&?) (?&?&?). apply vec_eq; lra. Qed.

Lemma vmin2_glb : forall p q r, vle r (vmin2 p q) <-> vle r p /\ vle r q.
Proof.
  intros p q r. unfold vle, vmin2; simpl. split.
  - intros (A & B & C). assert (D := Rmin_l (vx p) (vx q)). assert (E := Rmin_r (vx p) (vx q)).
    assert (F := Rmin_l (vy p) (vy q)). assert (G := Rmin_r (vy p) (vy q)).
    assert (H := Rmin_l (vz p) (vz q)). assert (I := Rmin_r (vz p) (vz q)). lra.
  - intros ((A & B & C) & (D & E & F)). repeat split; apply Rmin_glb; assumption.
Qed.
Lemma vmax2_lub : forall p q r, vle (vmax2 p q) r <-> vle p r /\ vle q r.
Proof.
  intros p q r. unfold vle, vmax2; simpl. split.
  - intros (A & B & C). assert (D := Rmax_l (vx p) (vx q)). assert (E := Rmax_r (vx p) (vx q)).
    assert (F := Rmax_l (vy p) (vy q)). assert (G := Rmax_r (vy p) (vy q)).
    assert (H := Rmax_l (vz p) (vz q)). assert (I := Rmax_r (vz p) (vz q)). lra.
  - intros ((A & B & C) & (D & E & F)). repeat split; apply Rmax_lub; assumption.
Qed.

Lemma amin_glb : forall ps p r, vle r (amin p ps) <-> (forall q, In q (p :: ps) -> vle r q).
Proof.
  induction ps as [|q ps IH]; intros p r; unfold amin in *; simpl in *.
  - split; [intros H q [<-|[]]; exact H|intro H; apply H; left; reflexivity].
  - rewrite IH. split.
    + intros H a [<-|[<-|Ha]]; [| |apply H; right; exact Ha];
        assert (K := H _ (or_introl eq_refl)); apply vmin2_glb in K; tauto.
    + intros H a [<-|Ha]; [apply vmin2_glb; split; apply H; auto|apply H; auto].
Qed.
Lemma amax_lub : forall ps p r, vle (amax p ps) r <-> (forall q, In q (p :: ps) -> vle q r).
Proof.
  induction ps as [|q ps IH]; intros p r; unfold amax in *; simpl in *.
  - split; [intros H q [<-|[]]; exact H|intro H; apply H; left; reflexivity].
  - rewrite IH. split.
    + intros H a [<-|[<-|Ha]]; [| |apply H; right; exact Ha];
        assert (K := H _ (or_introl eq_refl)); apply vmax2_lub in K; tauto.
    + intros H a [<-|Ha]; [apply vmax2_lub; split; apply H; auto|apply H; auto].
Qed.
Lemma amin_le : forall ps p q, In q (p :: ps) -> vle (amin p ps) q.
Proof. intros ps p q H. apply (proj1 (amin_glb ps p (amin p ps))); [apply vle_refl|exact H]. Qed.
Lemma amax_ge : forall ps p q, In q (p :: ps) -> vle q (amax p ps).
Proof. intros ps p q H. apply (proj1 (amax_lub ps p (amax p ps))); [apply vle_refl|exact H]. Qed.

(** Each coordinate of amin/amax comes from one of the points. *)
Lemma amin_attained : forall axis, (axis < 3)%nat -> forall ps p, exists q, In q (p :: ps) /\ coord axis q = coord axis (amin p ps).
Proof.
  intros axis Ha. induction ps as [|q ps IH]; intro p.
  - exists p. split; [left|]; reflexivity.
  - unfold amin in *; simpl. destruct (IH (vmin2 p q)) as (r & [<-|Hr] & E); [|exists r; simpl; auto].
    assert (K : coord axis (vmin2 p q) = coord axis p \/ coord axis (vmin2 p q) = coord axis q).
    { destruct axis as [|[|axis]]; simpl;
        [destruct (Rle_dec (vx p) (vx q))|destruct (Rle_dec (vy p) (vy q))|destruct (Rle_dec (vz p) (vz q))];
        (rewrite Rmin_left by lra; auto) || (rewrite Rmin_right by lra; auto). }
    rewrite <- E. destruct K as [K|K]; rewrite K; [exists p|exists q]; simpl; auto.
Qed.
Lemma amax_attained : forall axis, (axis < 3)%nat -> forall ps p, exists q, In q (p :: ps) /\ coord axis q = coord axis (amax p ps).
Proof.
  intros axis Ha. induction ps as [|q ps IH]; intro p.
  - exists p. split; [left|]; reflexivity.
  - unfold amax in *; simpl. destruct (IH (vmax2 p q)) as (r & [<-|Hr] & E); [|exists r; simpl; auto].
    assert (K : coord axis (vmax2 p q) = coord axis p \/ coord axis (vmax2 p q) = coord axis q).
    { destruct axis as [|[|axis]]; simpl;
        [destruct (Rle_dec (vx p) (vx q))|destruct (Rle_dec (vy p) (vy q))|destruct (Rle_dec (vz p) (vz q))];
        (rewrite Rmax_right by lra; auto) || (rewrite Rmax_left by lra; auto). }
    rewrite <- E. destruct K as [K|K]; rewrite K; [exists p|exists q]; simpl; auto.
Qed.

(** * Construction *)
Lemma mk_box_normalized : forall p q, normalized (mk_box p q).
Proof.
  intros. unfold normalized, mk_box; cbn [min_corner max_corner].
  apply vle_trans with p; [apply amin_le|apply amax_ge]; left; reflexivity.
Qed.
Lemma mk_box_ordered : forall p q, vle p q -> mk_box p q = Box p q.
Proof.
  intros p q (A & B & C). unfold mk_box, amin, amax; simpl. f_equal; unfold vmin2, vmax2; apply vec_eq; simpl;
    (apply Rmin_left || apply Rmax_right); assumption.
Qed.
Lemma mk_box_inside : forall p q r, inside (mk_box p q) p /\ inside (mk_box p q) q /\
  (forall u, inside u p -> inside u q -> inside (mk_box p q) r -> inside u r).
Proof.
  intros p q r. unfold inside, mk_box; cbn [min_corner max_corner].
  assert (A : In p [p; q]) by (simpl; auto). assert (B : In q [p; q]) by (simpl; auto).
  split; [split; [apply amin_le|apply amax_ge]; exact A|].
  split; [split; [apply amin_le|apply amax_ge]; exact B|].
  intros u [u1 u2] [u3 u4] [r1 r2]. split.
  - apply vle_trans with (amin p [q]); [|exact r1]. apply amin_glb. intros a [<-|[<-|[]]]; assumption.
  - apply vle_trans with (amax p [q]); [exact r2|]. apply amax_lub. intros a [<-|[<-|[]]]; assumption.
Qed.

Lemma box_le_corners : forall a b, normalized a -> (box_le a b <-> vle (min_corner b) (min_corner a) /\ vle (max_corner a) (max_corner b)).
Proof.
  intros a b N. split.
  - intro H. split.
    + apply (H (min_corner a)). split; [apply vle_refl|exact N].
    + apply (H (max_corner a)). split; [exact N|apply vle_refl].
  - intros [A B] p [C D]. split; eapply vle_trans; eassumption.
Qed.
Lemma box_eq_of_le : forall a b, normalized a -> normalized b -> box_le a b -> box_le b a -> a = b.
Proof.
  intros a b Na Nb H K. apply box_le_corners in H; [|exact Na]. apply box_le_corners in K; [|exact Nb].
  destruct a, b; simpl in *. f_equal; apply vle_antisym; tauto.
Qed.

(** * Merge *)
Lemma merge_corners : forall b bs, Forall normalized (b :: bs) ->
  merge (b :: bs) = Box (amin (min_corner b) (map min_corner bs)) (amax (max_corner b) (map max_corner bs)).
Proof.
  intros b bs H. simpl. apply mk_box_ordered.
  apply vle_trans with (min_corner b); [apply amin_le; left; reflexivity|].
  apply vle_trans with (max_corner b); [apply Forall_inv in H; exact H|apply amax_ge; left; reflexivity].
Qed.
Lemma merge_normalized : forall bs, normalized (merge bs).
Proof. intros [|b bs]; apply mk_box_normalized. Qed.

Lemma merge_lub : forall bs, bs <> [] -> Forall normalized bs -> least_upper_box bs (merge bs).
Proof.
  intros [|b bs] Hn F; [congruence|]. split; [apply merge_normalized|].
  assert (E := merge_corners b bs F). rewrite Forall_forall in F. split.
  - intros c Hc. apply box_le_corners; [apply F, Hc|]. rewrite E; cbn [min_corner max_corner].
    split; [apply amin_le|apply amax_ge].
    + change (min_corner b :: map min_corner bs) with (map min_corner (b :: bs)). apply in_map, Hc.
    + change (max_corner b :: map max_corner bs) with (map max_corner (b :: bs)). apply in_map, Hc.
  - intros u Hu. apply box_le_corners; [apply merge_normalized|]. rewrite E; cbn [min_corner max_corner]. split.
    + apply amin_glb. change (min_corner b :: map min_corner bs) with (map min_corner (b :: bs)).
      intros q Hq. apply in_map_iff in Hq. destruct Hq as (c & <- & Hc).
      apply (proj1 (box_le_corners c u (F c Hc)) (Hu c Hc)).
    + apply amax_lub. change (max_corner b :: map max_corner bs) with (map max_corner (b :: bs)).
      intros q Hq. apply in_map_iff in Hq. destruct Hq as (c & <- & Hc).
      apply (proj1 (box_le_corners c u (F c Hc)) (Hu c Hc)).
Qed.

Lemma lub_unique : forall bs m m', least_upper_box bs m -> least_upper_box bs m' -> m = m'.
Proof.
  intros bs m m' (N & U & L) (N' & U' & L'). apply box_eq_of_le; auto.
Qed.

Lemma lub_ext : forall bs bs' m, (forall b, In b bs <-> In b bs') -> least_upper_box bs m -> least_upper_box bs' m.
Proof.
  intros bs bs' m H (N & U & L). split; [exact N|]. split.
  - intros b Hb. apply U, H, Hb.
  - intros u Hu. apply L. intros b Hb. apply Hu, H, Hb.
Qed.

Lemma merge_same_members : forall bs bs', Forall normalized bs -> (forall b, In b bs <-> In b bs') -> merge bs = merge bs'.
Proof.
  intros bs bs' F H. destruct bs as [|b bs].
  - destruct bs' as [|b' bs']; [reflexivity|]. exfalso. apply (proj2 (H b')). left; reflexivity.
  - assert (N : bs' <> []) by (intros ->; apply (proj1 (H b)); left; reflexivity).
    apply lub_unique with bs'.
    + apply lub_ext with (b :: bs); [exact H|]. apply merge_lub; [discriminate|exact F].
    + apply merge_lub; [exact N|]. rewrite Forall_forall in *. intros x Hx. apply F, H, Hx.
Qed.

Lemma merge_grouping : forall gs, gs <> [] -> Forall (fun g => g <> [] /\ Forall normalized g) gs ->
  merge (map merge gs) = merge (concat gs).
Proof.
  intros gs Hn F. rewrite Forall_forall in F.
  assert (Fc : Forall normalized (concat gs)).
  { apply Forall_forall. intros x Hx. apply in_concat in Hx. destruct Hx as (g & Hg & Hx).
    apply F in Hg. destruct Hg as [_ Hg]. rewrite Forall_forall in Hg. apply Hg, Hx. }
  assert (Nc : concat gs <> []).
  { destruct gs as [|g gs]; [congruence|]. destruct (F g (or_introl eq_refl)) as [K _]. destruct g; [congruence|discriminate]. }
  assert (Fm : Forall normalized (map merge gs)).
  { apply Forall_forall. intros x Hx. apply in_map_iff in Hx. destruct Hx as (g & <- & _). apply merge_normalized. }
  assert (Nm : map merge gs <> []) by (destruct gs; [congruence|discriminate]).
  destruct (merge_lub _ Nm Fm) as (N & U & L). destruct (merge_lub _ Nc Fc) as (N' & U' & L').
  apply box_eq_of_le; [exact N|exact N'| |].
  - apply L. intros b Hb. apply in_map_iff in Hb. destruct Hb as (g & <- & Hg).
    destruct (F g Hg) as [G1 G2]. destruct (merge_lub g G1 G2) as (_ & _ & Lg). apply Lg.
    intros b Hb. apply U'. apply in_concat. exists g; auto.
  - apply L'. intros b Hb. apply in_concat in Hb. destruct Hb as (g & Hg & Hb).
    destruct (F g Hg) as [G1 G2]. destruct (merge_lub g G1 G2) as (_ & Ug & _).
    intros p Hp. apply (U (merge g)); [apply in_map, Hg|]. apply (Ug b Hb p Hp).
Qed.

(** * Tight boxes *)
Lemma from_point_cloud_corners : forall p ps, from_point_cloud (p :: ps) = Box (amin p ps) (amax p ps).
Proof.
  intros. simpl. apply mk_box_ordered. apply vle_trans with p; [apply amin_le|apply amax_ge]; left; reflexivity.
Qed.
Lemma from_point_cloud_normalized : forall ps, normalized (from_point_cloud ps).
Proof. intros [|p ps]; apply mk_box_normalized. Qed.
Lemma from_point_cloud_tight : forall ps, ps <> [] -> tight (from_point_cloud ps) ps.
Proof.
  intros [|p ps] H; [congruence|]. rewrite from_point_cloud_corners. split; cbn [min_corner max_corner].
  - intros q Hq. split; [apply amin_le|apply amax_ge]; exact Hq.
  - intros axis Ha. split; [apply amin_attained|apply amax_attained]; exact Ha.
Qed.

Lemma coord_le : forall p q, vle p q <-> forall axis, (axis < 3)%nat -> coord axis p <= coord axis q.
Proof.
  intros p q. split.
  - intros (A & B & C) [|[|axis]] _; simpl; assumption.
  - intro H. repeat split; [apply (H 0%nat)|apply (H 1%nat)|apply (H 2%nat)]; lia.
Qed.

Lemma tight_unique : forall b b' ps, tight b ps -> tight b' ps -> b = b'.
Proof.
  assert (K : forall b b' ps, tight b ps -> tight b' ps -> vle (min_corner b) (min_corner b') /\ vle (max_corner b') (max_corner b)).
  { intros b b' ps [I T] [I' T']. split; apply coord_le; intros axis Ha; destruct (T' axis Ha) as [(p & Hp & E) (q & Hq & E')].
    - rewrite <- E. apply I in Hp. destruct Hp as [Hp _]. rewrite coord_le in Hp. auto.
    - rewrite <- E'. apply I in Hq. destruct Hq as [_ Hq]. rewrite coord_le in Hq. auto. }
  intros b b' ps H H'. destruct (K _ _ _ H H') as [A B]. destruct (K _ _ _ H' H) as [C D].
  destruct b, b'; simpl in *. f_equal; apply vle_antisym; assumption.
Qed.

(** What from_meshes is the tight box of: an empty mesh counts as the origin. *)
Definition or_origin (ps : list vec) : list vec := match ps with [] => [vzero] | _ => ps end.

Lemma from_point_cloud_or_origin : forall ps, from_point_cloud ps = from_point_cloud (or_origin ps).
Proof. intros [|p ps]; reflexivity. Qed.

Lemma from_meshes_tight : forall ms, ms <> [] -> tight (from_meshes ms) (flat_map or_origin ms).
Proof.
  intros ms Hn.
  assert (T : forall m, tight (from_point_cloud m) (or_origin m)).
  { intro m. rewrite from_point_cloud_or_origin. apply from_point_cloud_tight. destruct m; discriminate. }
  unfold from_meshes. set (bs := map from_point_cloud ms).
  assert (F : Forall normalized bs).
  { apply Forall_forall. intros b Hb. apply in_map_iff in Hb. destruct Hb as (m & <- & _). apply from_point_cloud_normalized. }
  assert (Nb : bs <> []) by (unfold bs; destruct ms; [congruence|discriminate]).
  destruct (merge_lub bs Nb F) as (_ & U & _). split.
  - intros p Hp. apply in_flat_map in Hp. destruct Hp as (m & Hm & Hp).
    apply (U (from_point_cloud m)); [apply in_map, Hm|]. apply T, Hp.
  - intros axis Ha. destruct bs as [|b bs'] eqn:E; [congruence|]. rewrite merge_corners by exact F. cbn [min_corner max_corner]. split.
    + destruct (amin_attained axis Ha (map min_corner bs') (min_corner b)) as (c & Hc & <-).
      change (In c (map min_corner (b :: bs'))) in Hc. rewrite <- E in Hc. unfold bs in Hc. rewrite map_map in Hc.
      apply in_map_iff in Hc. destruct Hc as (m & <- & Hm). destruct (T m) as [_ Tm]. destruct (Tm axis Ha) as [(p & Hp & Ep) _].
      exists p. split; [apply in_flat_map; exists m; auto|exact Ep].
    + destruct (amax_attained axis Ha (map max_corner bs') (max_corner b)) as (c & Hc & <-).
      change (In c (map max_corner (b :: bs'))) in Hc. rewrite <- E in Hc. unfold bs in Hc. rewrite map_map in Hc.
      apply in_map_iff in Hc. destruct Hc as (m & <- & Hm). destruct (T m) as [_ Tm]. destruct (Tm axis Ha) as [_ (p & Hp & Ep)].
      exists p. split; [apply in_flat_map; exists m; auto|exact Ep].
Qed.

Lemma or_origin_nonempty : forall ms, Forall (fun m => m <> []) ms -> flat_map or_origin ms = concat ms.
Proof.
  induction 1 as [|m ms Hm _ IH]; simpl; [reflexivity|]. rewrite IH. destruct m; [congruence|reflexivity].
Qed.

(** * Surfaces *)
Definition idx_edges (f : nat * nat * nat) : list (nat * nat) := let '(i, j, k) := f in [(i, j); (j, k); (k, i)].
Definition at2 (vs : list vec) (e : nat * nat) : vec * vec := (nth (fst e) vs vzero, nth (snd e) vs vzero).

Lemma edges_indexed : forall vs fs, edges (map (tri_at vs) fs) = map (at2 vs) (flat_map idx_edges fs).
Proof.
  intros vs. induction fs as [|[[i j] k] fs IH]; [reflexivity|].
  unfold edges in *. cbn [map flat_map]. rewrite map_app, <- IH. reflexivity.
Qed.
Lemma flip_at2 : forall vs es, map flip (map (at2 vs) es) = map (at2 vs) (map (fun e => (snd e, fst e)) es).
Proof. intros. rewrite !map_map. reflexivity. Qed.

Definition pair_dec : forall a b : nat * nat, {a = b} + {a <> b}.
Proof. decide equality; apply Nat.eq_dec. Defined.

Lemma closed_check : forall es : list (nat * nat),
  nodup pair_dec es = es ->
  forallb (fun e => if in_dec pair_dec e es then true else false) (map (fun e => (snd e, fst e)) es) = true ->
  NoDup es /\ Permutation (map (fun e => (snd e, fst e)) es) es.
Proof.
  intros es E I. assert (N : NoDup es) by (rewrite <- E; apply NoDup_nodup). split; [exact N|].
  assert (N' : NoDup (map (fun e : nat * nat => (snd e, fst e)) es)).
  { apply FinFun.Injective_map_NoDup; [|exact N]. intros [a b] [c d] H. simpl in H. congruence. }
  apply NoDup_Permutation_bis; [exact N'| |].
  - rewrite map_length. apply le_n.
  - intros x Hx. rewrite forallb_forall in I. apply I in Hx. destruct (in_dec pair_dec x es); [assumption|discriminate].
Qed.

Lemma closed_indexed : forall vs fs,
  Permutation (map (fun e => (snd e, fst e)) (flat_map idx_edges fs)) (flat_map idx_edges fs) ->
  closed_surface (map (tri_at vs) fs).
Proof.
  intros vs fs H. unfold closed_surface. rewrite edges_indexed, flip_at2. apply Permutation_map, H.
Qed.

Lemma NoDup_map_on : forall A B (f : A -> B) l, (forall x y, In x l -> In y l -> f x = f y -> x = y) -> NoDup l -> NoDup (map f l).
Proof.
  intros A B f l H N. induction N as [|x l Hx N IH]; simpl; constructor.
  - intro K. apply in_map_iff in K. destruct K as (y & E & Hy). apply H in E; [subst; auto|right; exact Hy|left; reflexivity].
  - apply IH. intros; apply H; auto; right; assumption.
Qed.

Lemma corners_distinct : forall b i j, vlt (min_corner b) (max_corner b) -> (i < 8)%nat -> (j < 8)%nat ->
  nth i (corners b) vzero = nth j (corners b) vzero -> i = j.
Proof.
  intros [[a b c] [d e f]] i j (X & Y & Z) Hi Hj H. simpl in X, Y, Z.
  do 8 (destruct i as [|i]; [do 8 (destruct j as [|j]; [try reflexivity; simpl in H; injection H; intros; exfalso; lra|]); lia|]). lia.
Qed.

(** Triangles of a box mesh, as triples of corner numbers. *)
Definition corner_tris (o : bool) : list (nat * nat * nat) :=
  map (fun f => let '(i, j, k) := f in (nth i vert_lut 0, nth j vert_lut 0, nth k vert_lut 0)%nat) (triples (mesh_indices o)).

Definition mesh_surface (b : box) (o : bool) : list triangle :=
  let '(vs, idx, _) := to_mesh_helper b o in indexed_surface vs idx.

Lemma mesh_surface_eq : forall b o, mesh_surface b o = map (tri_at (corners b)) (corner_tris o).
Proof. intros b []; reflexivity. Qed.

Lemma mesh_edges_check : forall o, NoDup (flat_map idx_edges (corner_tris o)) /\
  Permutation (map (fun e => (snd e, fst e)) (flat_map idx_edges (corner_tris o))) (flat_map idx_edges (corner_tris o)).
Proof. intros []; apply closed_check; vm_compute; reflexivity. Qed.

Lemma mesh_closed : forall b o, closed_surface (mesh_surface b o).
Proof. intros. rewrite mesh_surface_eq. apply closed_indexed, mesh_edges_check. Qed.

Lemma corner_tris_range : forall o e, In e (flat_map idx_edges (corner_tris o)) -> (fst e < 8 /\ snd e < 8)%nat.
Proof.
  intros o e H.
  assert (K : forallb (fun e => Nat.ltb (fst e) 8 && Nat.ltb (snd e) 8) (flat_map idx_edges (corner_tris o)) = true) by (destruct o; reflexivity).
  rewrite forallb_forall in K. apply K in H. apply andb_prop in H. destruct H as [H1 H2]. rewrite Nat.ltb_lt in H1, H2. auto.
Qed.
Lemma mesh_edges_once : forall b o, vlt (min_corner b) (max_corner b) -> NoDup (edges (mesh_surface b o)).
Proof.
  intros b o H. rewrite mesh_surface_eq, edges_indexed. apply NoDup_map_on; [|apply mesh_edges_check].
  intros [i j] [k l] H1 H2 E. apply corner_tris_range in H1, H2. unfold at2 in E; cbn [fst snd] in *. injection E; intros E2 E1.
  f_equal; eapply corners_distinct; try eassumption; tauto.
Qed.

Lemma mesh_volume : forall b o, signed_volume (mesh_surface b o) = (if o then 1 else -1) * volume b.
Proof.
  intros [[a b c] [d e f]] o. rewrite mesh_surface_eq. unfold signed_volume, volume.
  destruct o; simpl; unfold dot, cross; simpl; field.
Qed.

Lemma mesh_winding : forall b o f, In f (triples (mesh_indices o)) -> normalized b ->
  let '(vs, _, ns) := to_mesh_helper b o in
  let '(i, j, k) := f in
  let n := nth i ns vzero in
  nth j ns vzero = n /\ nth k ns vzero = n /\ dot n n = 1 /\
  exists s, 0 <= s /\ (vlt (min_corner b) (max_corner b) -> 0 < s) /\ winding_normal (tri_at vs f) = smul s n /\
  forall p, inside b p -> (if o then dot n (vsub (nth i vs vzero) p) >= 0 else dot n (vsub (nth i vs vzero) p) <= 0).
Proof.
  intros [[a b c] [d e g]] o f Hf N. unfold normalized, vle in N; simpl in N.
  destruct N as (N1 & N2 & N3). unfold vlt; cbn [min_corner max_corner vx vy vz].
  assert (P1 : 0 <= (d - a) * (e - b)) by (apply Rmult_le_pos; lra).
  assert (P2 : 0 <= (d - a) * (g - c)) by (apply Rmult_le_pos; lra).
  assert (P3 : 0 <= (e - b) * (g - c)) by (apply Rmult_le_pos; lra).
  assert (Q1 : a < d /\ b < e /\ c < g -> 0 < (d - a) * (e - b)) by (intros; apply Rmult_lt_0_compat; lra).
  assert (Q2 : a < d /\ b < e /\ c < g -> 0 < (d - a) * (g - c)) by (intros; apply Rmult_lt_0_compat; lra).
  assert (Q3 : a < d /\ b < e /\ c < g -> 0 < (e - b) * (g - c)) by (intros; apply Rmult_lt_0_compat; lra).
  destruct o; vm_compute in Hf; 
  repeat (destruct Hf as [<-|Hf]); try contradiction;
  cbv [to_mesh_helper]; simpl;
  (split; [reflexivity|]); (split; [reflexivity|]); (split; [unfold dot; simpl; ring|]);
  (first [ exists ((d - a) * (e - b)); split; [exact P1|]; split; [exact Q1|]; split; [apply vec_eq; simpl; ring|]
        | exists ((d - a) * (g - c)); split; [exact P2|]; split; [exact Q2|]; split; [apply vec_eq; simpl; ring|]
        | exists ((e - b) * (g - c)); split; [exact P3|]; split; [exact Q3|]; split; [apply vec_eq; simpl; ring|] ]);
  intros [x y z] [(I1 & I2 & I3) (J1 & J2 & J3)]; unfold dot, vsub; simpl in *; lra.
Qed.

(** The mesh given to pymesh. *)
Definition pymesh_surface (T : pose) (b : box) : list triangle :=
  let '(vs, fs) := bbox2pymesh T b in map (tri_at vs) fs.

Lemma tri_volume_affine : forall A t a b c,
  tri_volume (vadd (mvec A a) t, vadd (mvec A b) t, vadd (mvec A c) t) =
  det A * tri_volume (a, b, c) +
  dot t (vadd (cross (mvec A a) (mvec A b)) (vadd (cross (mvec A b) (mvec A c)) (cross (mvec A c) (mvec A a)))) / 6.
Proof. intros [] [] [] [] []. unfold tri_volume, det, dot, cross, mvec, vadd; simpl. field. Qed.

Definition map_tri (f : vec -> vec) (t : triangle) : triangle := let '(a, b, c) := t in (f a, f b, f c).
Definition edge_moment (e : vec * vec) : vec := cross (fst e) (snd e).
Definition vsum (l : list vec) : vec := fold_right vadd vzero l.

Lemma vsum_app : forall l m, vsum (l ++ m) = vadd (vsum l) (vsum m).
Proof. induction l as [|x l IH]; intro m; simpl; [apply vec_eq; simpl; ring|]. rewrite IH. apply vec_eq; simpl; ring. Qed.
Lemma vsum_perm : forall l m, Permutation l m -> vsum l = vsum m.
Proof.
  induction 1 as [|x l m H IH|x y l|l m k H1 IH1 H2 IH2]; simpl; [reflexivity|rewrite IH; reflexivity| |congruence].
  apply vec_eq; simpl; ring.
Qed.
Lemma edge_moment_flip : forall es, vsum (map edge_moment (map flip es)) = vopp (vsum (map edge_moment es)).
Proof. induction es as [|[a b] es IH]; simpl; [apply vec_eq; simpl; ring|]. rewrite IH. apply vec_eq; simpl; ring. Qed.
Lemma vopp_self : forall v, vopp v = v -> v = vzero.
Proof. intros [x y z] H. injection H; intros. apply vec_eq; simpl; lra. Qed.

Lemma closed_no_moment : forall s, closed_surface s -> vsum (map edge_moment (edges s)) = vzero.
Proof.
  intros s H. apply vopp_self. rewrite <- edge_moment_flip. apply vsum_perm, Permutation_map, H.
Qed.

Lemma edges_map : forall f s, edges (map (map_tri f) s) = map (fun e => (f (fst e), f (snd e))) (edges s).
Proof.
  intros f. induction s as [|[[a b] c] s IH]; [reflexivity|]. unfold edges in *. cbn [map flat_map]. rewrite map_app, <- IH. reflexivity.
Qed.
Lemma closed_map : forall f s, closed_surface s -> closed_surface (map (map_tri f) s).
Proof.
  intros f s H. unfold closed_surface. rewrite edges_map, map_map.
  rewrite <- (map_map flip (fun e => (f (fst e), f (snd e)))). apply Permutation_map, H.
Qed.

(** An affine map multiplies the volume of a closed surface by its determinant. *)
Lemma signed_volume_affine : forall A t s, closed_surface s ->
  signed_volume (map (map_tri (fun p => vadd (mvec A p) t)) s) = det A * signed_volume s.
Proof.
  intros A t s H.
  assert (E : signed_volume (map (map_tri (fun p => vadd (mvec A p) t)) s) =
    det A * signed_volume s + dot t (vsum (map edge_moment (edges (map (map_tri (mvec A)) s)))) / 6).
  { clear H. induction s as [|[[a b] c] s IH].
    - simpl. unfold signed_volume, dot; simpl. field.
    - unfold signed_volume in *. cbn [map fold_right map_tri]. rewrite IH, tri_volume_affine.
      unfold edges. cbn [flat_map]. rewrite map_app, vsum_app. unfold edges.
      set (w := vsum (map edge_moment (flat_map tri_edges (map (map_tri (mvec A)) s)))).
      unfold tri_edges, map_tri, edge_moment. cbn [map fst snd vsum fold_right].
      set (u := cross (mvec A a) (mvec A b)). set (v := cross (mvec A b) (mvec A c)). set (x := cross (mvec A c) (mvec A a)).
      clearbody u v x w. destruct t, u, v, x, w. unfold dot; simpl. field. }
  rewrite E, closed_no_moment by (apply closed_map, H). destruct t. unfold dot; simpl. field.
Qed.

Lemma pymesh_surface_eq : forall T b,
  pymesh_surface T b = map (map_tri (transform_from T)) (map (tri_at (corners b)) pymesh_faces).
Proof. intros [[] []] [[] []]. reflexivity. Qed.

Lemma pymesh_edges_check : NoDup (flat_map idx_edges pymesh_faces) /\
  Permutation (map (fun e => (snd e, fst e)) (flat_map idx_edges pymesh_faces)) (flat_map idx_edges pymesh_faces).
Proof. apply closed_check; vm_compute; reflexivity. Qed.

Lemma pymesh_volume : forall T b, signed_volume (pymesh_surface T b) = det (pR T) * (5 / 6 * volume b).
Proof.
  intros T b. rewrite pymesh_surface_eq. unfold transform_from.
  rewrite signed_volume_affine by (apply closed_indexed, pymesh_edges_check). f_equal.
  destruct b as [[a b c] [d e f]]. unfold signed_volume, volume. simpl. unfold dot, cross; simpl. field.
Qed.

(** * The quick rejection test *)
Lemma Rltb_lt : forall x y, Rltb x y = true <-> x < y.
Proof. intros. unfold Rltb. destruct (Rlt_dec x y); split; intro; try assumption; try reflexivity; try discriminate; contradiction. Qed.

(** A linear form on a box is largest at a corner. *)
Lemma linear_max : forall b r p, inside b p -> exists c, In c (corners b) /\ dot r p <= dot r c.
Proof.
  intros [[a b c] [d e f]] [rx ry rz] [x y z] [(I1 & I2 & I3) (J1 & J2 & J3)]; simpl in *.
  assert (X : rx * x <= rx * a \/ rx * x <= rx * d) by (destruct (Rle_dec 0 rx); [right|left]; nra).
  assert (Y : ry * y <= ry * b \/ ry * y <= ry * e) by (destruct (Rle_dec 0 ry); [right|left]; nra).
  assert (Z : rz * z <= rz * c \/ rz * z <= rz * f) by (destruct (Rle_dec 0 rz); [right|left]; nra).
  unfold dot; simpl.
  destruct X as [X|X], Y as [Y|Y], Z as [Z|Z];
   [exists (V a b c)|exists (V a b f)|exists (V a e c)|exists (V a e f)|exists (V d b c)|exists (V d b f)|exists (V d e c)|exists (V d e f)];
   (split; [simpl; tauto|simpl; lra]).
Qed.

Definition mrow (m : mat) (i : nat) : vec :=
  match i with O => V (m00 m) (m01 m) (m02 m) | S O => V (m10 m) (m11 m) (m12 m) | _ => V (m20 m) (m21 m) (m22 m) end.
Lemma transform_coord : forall T p axis, coord axis (transform_from T p) = dot (mrow (pR T) axis) p + coord axis (pt T).
Proof. intros T p [|[|axis]]; reflexivity. Qed.

Lemma posed_bbox_tight : forall T b, tight (posed_bbox T b) (map (transform_from T) (corners b)).
Proof.
  intros T b. unfold posed_bbox. rewrite transform_all_from_map. apply from_point_cloud_tight. discriminate.
Qed.

Lemma posed_bbox_contains : forall T b q, posed_region T b q -> inside (posed_bbox T b) q.
Proof.
  intros T b q (p & Hp & ->). destruct (posed_bbox_tight T b) as [I _].
  split; apply coord_le; intros axis Ha; rewrite transform_coord.
  - destruct (linear_max b (vopp (mrow (pR T) axis)) p Hp) as (c & Hc & L).
    destruct (I (transform_from T c) (in_map _ _ _ Hc)) as [K _]. rewrite coord_le in K. specialize (K axis Ha). rewrite transform_coord in K.
    unfold dot, vopp in *; simpl in *. lra.
  - destruct (linear_max b (mrow (pR T) axis) p Hp) as (c & Hc & L).
    destruct (I (transform_from T c) (in_map _ _ _ Hc)) as [_ K]. rewrite coord_le in K. specialize (K axis Ha). rewrite transform_coord in K. lra.
Qed.

Lemma quick_reject_disjoint : forall b1 b2, normalized b1 -> normalized b2 ->
  (quick_reject b1 b2 = true <-> forall p, ~ (inside b1 p /\ inside b2 p)).
Proof.
  intros b1 b2 N1 N2. unfold quick_reject. rewrite existsb_exists. split.
  - intros (axis & Ha & H) p ([A B] & [C D]). rewrite coord_le in A, B, C, D. apply in_seq in Ha.
    assert (L : (axis < 3)%nat) by lia. specialize (A axis L). specialize (B axis L). specialize (C axis L). specialize (D axis L).
    apply orb_prop in H. rewrite !Rltb_lt in H. lra.
  - intro H.
    assert (K : forall axis, (axis < 3)%nat -> ~ (coord axis (max_corner b2) < coord axis (min_corner b1) \/ coord axis (max_corner b1) < coord axis (min_corner b2)) \/
      exists axis, In axis (seq 0 3) /\ Rltb (coord axis (max_corner b2)) (coord axis (min_corner b1)) || Rltb (coord axis (max_corner b1)) (coord axis (min_corner b2)) = true).
    { intros axis Ha. destruct (Rltb (coord axis (max_corner b2)) (coord axis (min_corner b1)) || Rltb (coord axis (max_corner b1)) (coord axis (min_corner b2))) eqn:E.
      - right. exists axis. split; [apply in_seq; lia|exact E].
      - left. intros F. rewrite <- !Rltb_lt in F. apply orb_false_elim in E. destruct E as [E1 E2]. destruct F; congruence. }
    destruct (K 0%nat) as [K0|K0]; [lia| |exact K0]. destruct (K 1%nat) as [K1|K1]; [lia| |exact K1]. destruct (K 2%nat) as [K2|K2]; [lia| |exact K2].
    exfalso. destruct b1 as [[a1 a2 a3] [b1 b2' b3]], b2 as [[c1 c2 c3] [d1 d2 d3]]. simpl in *.
    destruct N1 as (n1 & n2 & n3), N2 as (o1 & o2 & o3). simpl in *.
    apply (H (V (Rmax a1 c1) (Rmax a2 c2) (Rmax a3 c3))). unfold inside, vle; simpl.
    repeat split; try (apply Rmax_l); try (apply Rmax_r); apply Rmax_lub; lra.
Qed.
Lemma posed_bbox_normalized : forall T b, normalized (posed_bbox T b).
Proof. intros. apply from_point_cloud_normalized. Qed.

Lemma quick_reject_sym : forall b1 b2, quick_reject b1 b2 = quick_reject b2 b1.
Proof. intros. unfold quick_reject. simpl. rewrite !(orb_comm (Rltb _ _) (Rltb (_ (max_corner b1)) _)). reflexivity. Qed.
