From Coq Require Import Reals List Bool String Arith Lia.
From Verif.Base Require Import Py Vec.
From Verif.Geom Require Import Model.
From Verif.Alias Require Import Model Spec Proofs.
Import ListNotations.
Local Open Scope R_scope.
Local Open Scope list_scope.

Lemma run_app : forall A B (f : A -> B -> res A) l l' s, foldM f s (l ++ l') = let* s' := foldM f s l in foldM f s' l'.
Proof. intros A B f l. induction l as [|x l IH]; intros l' s; cbn; [reflexivity|]. destruct (f s x); cbn; [apply IH|reflexivity]. Qed.
Lemma run_made : forall ops s, run ops = Ok s -> exists p, p_run ops = Ok p /\ inv s p.
Proof. intros ops s H. eapply run_inv; [apply inv_initial|exact H]. Qed.

(** * Entries *)
Lemma entry_cell : forall h l a b, (a < 3)%nat -> (b < 3)%nat -> entry (mat_at h l) a b = cells h (cell l (3 * a + b)).
Proof. intros h l [|[|[|a]]] [|[|[|b]]] Ha Hb; try lia; reflexivity. Qed.
Lemma coord_cell : forall h l a, (a < 3)%nat -> coord a (vec_at h l) = cells h (cell l a).
Proof. intros h l [|[|[|a]]] Ha; try lia; reflexivity. Qed.
Lemma mat_entries : forall m m', (forall a b, (a < 3)%nat -> (b < 3)%nat -> entry m a b = entry m' a b) -> m = m'.
Proof.
  intros [a b c d e f g h i] [a' b' c' d' e' f' g' h' i'] H.
  assert (E : forall x y, (x < 3)%nat -> (y < 3)%nat -> entry (M33 a b c d e f g h i) x y = entry (M33 a' b' c' d' e' f' g' h' i') x y) by exact H.
  f_equal; [apply (E 0 0)%nat|apply (E 0 1)%nat|apply (E 0 2)%nat|apply (E 1 0)%nat|apply (E 1 1)%nat|apply (E 1 2)%nat|apply (E 2 0)%nat|apply (E 2 1)%nat|apply (E 2 2)%nat]; lia.
Qed.
Lemma vec_coords : forall u u', (forall a, (a < 3)%nat -> coord a u = coord a u') -> u = u'.
Proof. intros [a b c] [a' b' c'] H. f_equal; [apply (H 0%nat)|apply (H 1%nat)|apply (H 2%nat)]; lia. Qed.
Lemma flip_cell : forall f l a b, (a < 3)%nat -> (b < 3)%nat ->
  cell (flip f l) (3 * a + b) = cell l (if f then 3 * b + a else 3 * a + b).
Proof. intros [] l a b Ha Hb; [|reflexivity]. destruct a as [|[|[|a]]], b as [|[|[|b]]]; try lia; reflexivity. Qed.
Lemma flip_length : forall f l, List.length l = 9%nat -> List.length (flip f l) = 9%nat.
Proof. intros [] l H; [reflexivity|exact H]. Qed.
Lemma flip_in : forall f l k, List.length l = 9%nat -> (k < 9)%nat -> In (cell (flip f l) k) l.
Proof.
  intros [] l k H K; [|apply cell_in; cbn; lia]. apply transposed_in; [exact H|]. apply cell_in. rewrite transposed_length. exact K.
Qed.
Lemma cell_inj : forall l j k, NoDup l -> (j < List.length l)%nat -> (k < List.length l)%nat -> cell l j = cell l k -> j = k.
Proof. intros l j k N J K E. eapply (proj1 (NoDup_nth l 0%nat)); eassumption. Qed.
Lemma flip_bounded : forall f l n, List.length l = 9%nat -> bounded n l -> bounded n (flip f l).
Proof.
  intros [] l n L H; [|exact H]. unfold bounded in *. rewrite Forall_forall in *. intros x Hx. apply H, transposed_in; assumption.
Qed.

(** * One assignment *)
Lemma store_same : forall h a v, cells (store h a v) a = v.
Proof. intros. cbn. rewrite Nat.eqb_refl. reflexivity. Qed.
Lemma store_other : forall h a v b, b <> a -> cells (store h a v) b = cells h b.
Proof. intros h a v b H. cbn. destruct (Nat.eqb_spec b a); [contradiction|reflexivity]. Qed.
Lemma mat_store_other : forall h l c v, (forall k, (k < 9)%nat -> cell l k <> c) -> mat_at (store h c v) l = mat_at h l.
Proof. intros h l c v H. unfold mat_at. rewrite !store_other by (apply H; lia). reflexivity. Qed.
Lemma vec_store_other : forall h l c v, (forall k, (k < 3)%nat -> cell l k <> c) -> vec_at (store h c v) l = vec_at h l.
Proof. intros h l c v H. unfold vec_at. rewrite !store_other by (apply H; lia). reflexivity. Qed.

Lemma see_r : forall B T n c h o f a b v p m, blocks B T n c -> pose_ok B T p m -> List.length (B o) = 9%nat -> (a < 3)%nat -> (b < 3)%nat ->
  let h' := store h (cell (flip f (B o)) (3 * a + b)) v in
  pt (pose_at h' p) = pt (pose_at h p) /\
  (o = r_origin m -> set_entry (pR (pose_at h p)) (pR (pose_at h' p)) (if Bool.eqb f (flipped m) then a else b) (if Bool.eqb f (flipped m) then b else a) v) /\
  (o <> r_origin m -> pR (pose_at h' p) = pR (pose_at h p)).
Proof.
  intros B T n c h o f a b v p m H (P1 & P2 & P3 & P4) L Ha Hb h'. unfold h'. cbn [pose_at pR pt].
  assert (W : In (cell (flip f (B o)) (3 * a + b)) (B o)) by (apply flip_in; [exact L|lia]).
  split; [|split].
  - apply vec_store_other. intros k K E. apply (bt_apart _ _ _ _ H o (t_origin m) (cell (t_cells p) k)).
    + rewrite E. exact W.
    + rewrite P2. apply cell_in. lia.
  - intros ->. intros a' b' Ha' Hb'. rewrite !entry_cell by assumption. rewrite P1, !flip_cell by assumption. cbn [cells store].
    assert (I : forall x y, (x < 9)%nat -> (y < 9)%nat -> cell (B (r_origin m)) x = cell (B (r_origin m)) y -> x = y).
    { intros x y Hx Hy. apply cell_inj; [apply (b_nodup _ _ _ _ H)| |]; lia. }
    match goal with |- (if Nat.eqb (cell _ ?x) (cell _ ?y) then _ else _) = _ => destruct (Nat.eqb_spec (cell (B (r_origin m)) x) (cell (B (r_origin m)) y)) as [E|E] end.
    + apply I in E; [|destruct (flipped m); lia|destruct f; lia].
      destruct f, (flipped m); cbn [Bool.eqb]; match goal with |- _ = if (?x && ?y)%bool then _ else _ => destruct x eqn:X, y eqn:Y end; try reflexivity; rewrite ?Nat.eqb_eq, ?Nat.eqb_neq in *; lia.
    + destruct f, (flipped m); cbn [Bool.eqb]; match goal with |- _ = if (?x && ?y)%bool then _ else _ => destruct x eqn:X, y eqn:Y end; try reflexivity; rewrite ?Nat.eqb_eq, ?Nat.eqb_neq in *; subst; congruence.
  - intros D. apply mat_store_other. intros k K E. apply (b_apart _ _ _ _ H o (r_origin m) D (cell (r_cells p) k)).
    + rewrite E. exact W.
    + rewrite P1. apply flip_in; assumption.
Qed.

Lemma see_t : forall B T n c h o a v p m, blocks B T n c -> pose_ok B T p m -> List.length (T o) = 3%nat -> (a < 3)%nat ->
  let h' := store h (cell (T o) a) v in
  pR (pose_at h' p) = pR (pose_at h p) /\
  (o = t_origin m -> set_coord (pt (pose_at h p)) (pt (pose_at h' p)) a v) /\
  (o <> t_origin m -> pt (pose_at h' p) = pt (pose_at h p)).
Proof.
  intros B T n c h o a v p m H (P1 & P2 & P3 & P4) L Ha h'. unfold h'. cbn [pose_at pR pt].
  assert (W : In (cell (T o) a) (T o)) by (apply cell_in; lia).
  split; [|split].
  - apply mat_store_other. intros k K E. apply (bt_apart _ _ _ _ H (r_origin m) o (cell (r_cells p) k)).
    + rewrite P1. apply flip_in; assumption.
    + rewrite E. exact W.
  - intros ->. intros a' Ha'. rewrite !coord_cell by assumption. rewrite P2. cbn [cells store].
    destruct (Nat.eqb_spec (cell (T (t_origin m)) a') (cell (T (t_origin m)) a)) as [E|E]; destruct (Nat.eqb_spec a' a) as [E'|E']; try reflexivity.
    + apply cell_inj in E; [contradiction|apply (t_nodup _ _ _ _ H)|lia|lia].
    + subst. contradiction.
  - intros D. apply vec_store_other. intros k K E. apply (t_apart _ _ _ _ H o (t_origin m) D (cell (t_cells p) k)).
    + rewrite E. exact W.
    + rewrite P2. apply cell_in. lia.
Qed.

(** Reading off both worlds. *)
Lemma within_ok : forall n a, (a < n)%nat -> within n a = Ok tt.
Proof. intros n a H. unfold within. rewrite (proj2 (Nat.ltb_lt _ _) H). reflexivity. Qed.
Lemma pose_of_ok : forall ops j q, pose_of ops j = Ok q -> exists s pr, run ops = Ok s /\ var (poses s) j = Ok pr /\ q = pose_at (mem s) pr.
Proof.
  unfold pose_of. intros ops j q H. destruct (run ops) as [s|]; cbn in H; [|discriminate]. destruct (var (poses s) j) as [pr|] eqn:E; cbn in H; [|discriminate].
  injection H as <-. exists s, pr. tauto.
Qed.
Lemma made_of_ok : forall ops j m, made_of ops j = Ok m -> exists p, p_run ops = Ok p /\ var (p_poses p) j = Ok m.
Proof. unfold made_of. intros ops j m H. destruct (p_run ops) as [p|]; cbn in H; [|discriminate]. exists p. tauto. Qed.
Lemma array_made_of_ok : forall ops j m, array_made_of ops j = Ok m -> exists p, p_run ops = Ok p /\ var (p_arrays p) j = Ok m.
Proof. unfold array_made_of. intros ops j m H. destruct (p_run ops) as [p|]; cbn in H; [|discriminate]. exists p. tauto. Qed.
Lemma var_pair : forall A B (P : A -> B -> Prop) l l' i x y, Forall2 P l l' -> var l i = Ok x -> var l' i = Ok y -> P x y.
Proof. intros A B P l l' i x y F H1 H2. destruct (var_both _ _ P l l' i F) as [(x' & y' & E1 & E2 & K)|[E _]]; congruence. Qed.
Lemma var_left : forall A B (P : A -> B -> Prop) l l' i y, Forall2 P l l' -> var l' i = Ok y -> exists x, var l i = Ok x.
Proof. intros A B P l l' i y F H2. destruct (var_both _ _ P l l' i F) as [(x' & y' & E1 & E2 & K)|[_ E]]; [exists x'; exact E1|congruence]. Qed.
Lemma var_right : forall A B (P : A -> B -> Prop) l l' i y, Forall2 P l l' -> var l i = Ok y -> exists x, var l' i = Ok x.
Proof. intros A B P l l' i y F H2. destruct (var_both _ _ P l l' i F) as [(x' & y' & E1 & E2 & K)|[E _]]; [exists y'; exact E2|congruence]. Qed.

(** * Programs without assignments *)
Definition array_at (h : heap) (l : list nat) : columns :=
  let c k := cells h (cell l k) in
  (V (c 0%nat) (c 4%nat) (c 8%nat), V (c 1%nat) (c 5%nat) (c 9%nat), V (c 2%nat) (c 6%nat) (c 10%nat), V (c 3%nat) (c 7%nat) (c 11%nat)).
Lemma array_extends : forall h h' l, extends h h' -> bounded (next h) l -> List.length l = 12%nat -> array_at h' l = array_at h l.
Proof. intros h h' l [_ E] B L. unfold array_at. rewrite !E by (apply bounded_cell; [exact B|lia]). reflexivity. Qed.

Definition defaults_hold (h : heap) : Prop :=
  (18 <= next h)%nat /\ forall a, (a < 18)%nat -> cells h a = nth a (mat_list mid) 0.
Definition vinv (s : state) (v : vstate) : Prop :=
  (exists p, inv s p) /\ defaults_hold (mem s) /\ map (pose_at (mem s)) (poses s) = v_poses v /\ map (array_at (mem s)) (arrays s) = v_arrays v.

Lemma defaults_extend : forall h h', defaults_hold h -> extends h h' -> defaults_hold h'.
Proof. intros h h' [D1 D2] [E1 E2]. split; [lia|]. intros a Ha. rewrite E2 by lia. apply D2, Ha. Qed.
Lemma default_pose : forall h, defaults_hold h -> pose_at h (PRef default_R default_t) = pose_id.
Proof. intros h [_ D]. unfold pose_at, mat_at, vec_at, pose_id, cell; cbn [r_cells t_cells]. rewrite !D by (cbn; lia). reflexivity. Qed.
Lemma default_enu : forall h, defaults_hold h -> vec_at h enu_position = vzero.
Proof. intros h [_ D]. unfold vec_at, cell. rewrite !D by (cbn; lia). reflexivity. Qed.
Lemma default_maya : forall h, defaults_hold h -> vec_at h maya_position = vzero.
Proof. intros h [_ D]. unfold vec_at, cell. rewrite !D by (cbn; lia). reflexivity. Qed.

Lemma old_poses : forall s p h', inv s p -> extends (mem s) h' -> map (pose_at h') (poses s) = map (pose_at (mem s)) (poses s) /\ map (array_at h') (arrays s) = map (array_at (mem s)) (arrays s).
Proof.
  intros s p h' (B & T & H & Fp & Fa) E. split.
  - apply map_ext_in. intros q Hq. apply In_nth_error in Hq. destruct Hq as [i Hi].
    destruct (nth_Forall2 _ _ _ _ _ Fp i) as [(x & y & E1 & E2 & (P1 & P2 & P3 & P4))|[E1 _]]; [|congruence].
    assert (x = q) by congruence. subst x. unfold pose_at. f_equal.
    + apply mat_extends; [exact E| |]; rewrite P1; [apply flip_bounded; [exact P3|apply (b_bound _ _ _ _ H)]|apply flip_length, P3].
    + apply vec_extends; [exact E| |]; rewrite P2; [apply (t_bound _ _ _ _ H)|exact P4].
  - apply map_ext_in. intros q Hq. apply In_nth_error in Hq. destruct Hq as [i Hi].
    destruct (nth_Forall2 _ _ _ _ _ Fa i) as [(x & y & E1 & E2 & (P1 & P2 & P3 & P4))|[E1 _]]; [|congruence].
    assert (x = q) by congruence. subst x. apply array_extends; assumption.
Qed.

Lemma var_map : forall A B (f : A -> B) l i, var (map f l) i = let* x := var l i in Ok (f x).
Proof. intros A B f l i. unfold var. rewrite nth_error_map. destruct (nth_error l i); reflexivity. Qed.

Lemma fresh_at : forall h r t, pose_at (snd (fresh_pose h r t)) (fst (fresh_pose h r t)) = Pose r t.
Proof.
  intros h r t. unfold pose_at. f_equal.
  - change (mat_at (snd (alloc (snd (alloc h (mat_list r))) (vec_list t))) (fst (alloc h (mat_list r))) = r).
    rewrite (mat_extends (snd (alloc h (mat_list r)))).
    + apply mat_alloc.
    + apply extends_alloc.
    + unfold bounded. apply Forall_forall. intros x Hx. unfold alloc in *; cbn [fst snd next] in *. apply in_seq in Hx. lia.
    + reflexivity.
  - exact (vec_alloc (snd (alloc h (mat_list r))) t).
Qed.
Lemma fresh_extends : forall h r t, extends h (snd (fresh_pose h r t)).
Proof. intros. eapply extends_trans; [apply (extends_alloc h (mat_list r))|exact (extends_alloc (snd (alloc h (mat_list r))) (vec_list t))]. Qed.

Definition vagree (a : res state) (b : res vstate) : Prop :=
  match a with Ok s => exists v, b = Ok v /\ vinv s v | Err e => b = Err e end.

Lemma vadd_pose : forall s v h' pr q p', inv (add_pose s h' pr) p' -> vinv s v -> extends (mem s) h' -> pose_at h' pr = q -> vinv (add_pose s h' pr) (v_add v q).
Proof.
  intros s v h' pr q p' I ((p & J) & D & E1 & E2) X Q. destruct (old_poses s p h' J X) as [O1 O2].
  split; [exists p'; exact I|]. split; [eapply defaults_extend; eassumption|]. cbn. rewrite map_app, O1, O2, E1, E2. cbn. rewrite Q. tauto.
Qed.

Lemma vstep_agree : forall s v o, no_write o -> vinv s v -> vagree (step s o) (v_step v o).
Proof.
  intros s v o NW V. assert (V' := V). destruct V' as ((p & J) & D & E1 & E2).
  assert (I := step_inv s p o J). 
  destruct o as [|r t|i j|ro pi ya|ro pi ya|i j|i|i|c0 c1 c2 c3|k|i a b w|i a w|k a b w]; try contradiction; clear NW; cbn [step v_step] in *.
  - destruct I as (p' & _ & I). eexists. split; [reflexivity|]. eapply vadd_pose; [exact I|exact V|apply extends_refl|apply default_pose, D].
  - rewrite (surjective_pairing (fresh_pose (mem s) r t)) in *. destruct I as (p' & _ & I). eexists. split; [reflexivity|]. eapply vadd_pose; [exact I|exact V|apply fresh_extends|apply fresh_at].
  - rewrite <- E1, !var_map. destruct (var (poses s) i) as [x|]; cbn [bind vagree] in *; [|reflexivity]. destruct (var (poses s) j) as [y|]; cbn [bind vagree] in *; [|reflexivity].
    destruct I as (p' & _ & I). eexists. split; [reflexivity|]. eapply vadd_pose; [exact I|exact V|apply extends_refl|reflexivity].
  - rewrite (surjective_pairing (alloc _ _)) in *. destruct I as (p' & _ & I). eexists. split; [reflexivity|]. eapply vadd_pose; [exact I|exact V|apply extends_alloc|].
    unfold pose_at; cbn [r_cells t_cells]. f_equal; [apply mat_alloc|]. apply default_enu. eapply defaults_extend; [exact D|apply extends_alloc].
  - rewrite (surjective_pairing (alloc _ _)) in *. destruct I as (p' & _ & I). eexists. split; [reflexivity|]. eapply vadd_pose; [exact I|exact V|apply extends_alloc|].
    unfold pose_at; cbn [r_cells t_cells]. f_equal; [apply mat_alloc|]. apply default_maya. eapply defaults_extend; [exact D|apply extends_alloc].
  - rewrite <- E1, !var_map. destruct (var (poses s) i) as [x|]; cbn [bind vagree] in *; [|reflexivity]. destruct (var (poses s) j) as [y|]; cbn [bind vagree] in *; [|reflexivity].
    rewrite (surjective_pairing (fresh_pose _ _ _)) in *. destruct I as (p' & _ & I). eexists. split; [reflexivity|]. eapply vadd_pose; [exact I|exact V|apply fresh_extends|].
    rewrite fresh_at. destruct (compose _ _); reflexivity.
  - destruct (var_both _ _ eq (poses s) (poses s) i) as [(x & x' & X & X' & <-)|[X _]].
    { clear. induction (poses s); constructor; auto. }
    + rewrite <- E1, !var_map, X in *. cbn [bind] in *. rewrite (surjective_pairing (alloc _ _)) in *. destruct I as (p' & _ & I). eexists. split; [reflexivity|].
      eapply vadd_pose; [exact I|exact V|apply extends_alloc|].
      unfold pose_at, inverse, rot_inverse; cbn [r_cells t_cells pR pt]. f_equal.
      * destruct J as (B & T & H & Fp & Fa). destruct (var_right _ _ _ _ _ _ _ Fp X) as [y Y]. destruct (var_pair _ _ _ _ _ _ _ _ Fp X Y) as (P1 & P2 & P3 & P4).
        rewrite (mat_extends (mem s)); [reflexivity|apply extends_alloc| |reflexivity].
        apply (flip_bounded true); [rewrite P1; apply flip_length, P3|]. rewrite P1. apply flip_bounded; [exact P3|apply (b_bound _ _ _ _ H)].
      * apply vec_alloc.
    + rewrite <- E1, !var_map, X in *. reflexivity.
  - rewrite <- E1, !var_map. destruct (var (poses s) i) as [x|]; cbn [bind vagree] in *; [|reflexivity].
    rewrite (surjective_pairing (fresh_pose _ _ _)) in *. destruct I as (p' & _ & I). eexists. split; [reflexivity|]. eapply vadd_pose; [exact I|exact V|apply fresh_extends|].
    rewrite fresh_at. reflexivity.
  - rewrite (surjective_pairing (alloc _ _)) in *. destruct I as (p' & _ & I). eexists. split; [reflexivity|].
    assert (X := extends_alloc (mem s) [vx c0; vx c1; vx c2; vx c3; vy c0; vy c1; vy c2; vy c3; vz c0; vz c1; vz c2; vz c3]).
    destruct (old_poses s p _ J X) as [O1 O2].
    split; [exists p'; exact I|]. split; [eapply defaults_extend; eassumption|]. cbn [mem poses arrays v_poses v_arrays]. rewrite map_app, O1, O2, E1, E2. split; [reflexivity|]. f_equal.
    cbn [map]. f_equal. unfold array_at. rewrite !alloc_new by (cbn; lia). destruct c0, c1, c2, c3. reflexivity.
  - rewrite <- E2, !var_map. destruct (var (arrays s) k) as [x|]; cbn [bind vagree] in *; [|reflexivity].
    destruct I as (p' & _ & I). eexists. split; [reflexivity|]. eapply vadd_pose; [exact I|exact V|apply extends_refl|reflexivity].
Qed.

Lemma vrun_agree : forall ops s v, Forall no_write ops -> vinv s v -> vagree (foldM step s ops) (foldM v_step v ops).
Proof.
  induction ops as [|o ops IH]; intros s v F V; cbn [foldM].
  - exists v. tauto.
  - inversion F as [|? ? F1 F2]; subst. assert (K := vstep_agree s v o F1 V). destruct (step s o) as [s1|e]; cbn [vagree bind] in *.
    + destruct K as (v1 & -> & V1). cbn [bind]. apply IH; assumption.
    + rewrite K. reflexivity.
Qed.
Lemma vinv_initial : vinv initial (VState [] []).
Proof. split; [exists (PState 0 [] []); apply inv_initial|]. split; [|split; reflexivity]. split; [cbn; lia|reflexivity]. Qed.

(** * The default arguments *)
Definition pose_default (h : heap) : Prop := (18 <= next h)%nat /\ forall a, (a < 12)%nat -> cells h a = nth a (mat_list mid) 0.
Definition arrays_own (p : pstate) : Prop := Forall (fun o => o <> Default) (p_arrays p).
Lemma arrays_own_step : forall p o p', arrays_own p -> p_step p o = Ok p' -> arrays_own p'.
Proof.
  unfold arrays_own. intros p o p' H E. destruct o; cbn [p_step] in E; repeat match type of E with context [var ?l ?i] => destruct (var l i); cbn [bind] in E; try discriminate end;
  injection E as <-; cbn; try assumption. apply Forall_app. split; [assumption|constructor; [discriminate|constructor]].
Qed.
Lemma default_extend : forall h h', pose_default h -> extends h h' -> pose_default h'.
Proof. intros h h' [D1 D2] [E1 E2]. split; [lia|]. intros a Ha. rewrite E2 by lia. apply D2, Ha. Qed.
Lemma default_store : forall h c v, pose_default h -> ~ In c (default_R ++ default_t) -> pose_default (store h c v).
Proof.
  intros h c v [D1 D2] N. split; [exact D1|]. intros a Ha. rewrite store_other; [apply D2, Ha|]. intros <-. apply N.
  unfold default_R, default_t. rewrite <- seq_app. apply in_seq. lia.
Qed.

Lemma Ok_inj : forall A (x y : A), Ok x = Ok y -> x = y.
Proof. congruence. Qed.
Lemma spare_step : forall s p o s' ops, inv s p -> arrays_own p -> pose_default (mem s) -> spares_default p (o :: ops) -> step s o = Ok s' ->
  exists p', p_step p o = Ok p' /\ inv s' p' /\ arrays_own p' /\ pose_default (mem s') /\ spares_default p' ops.
Proof.
  intros s p o s' ops I A D [W N] E. assert (K := step_inv s p o I). rewrite E in K. destruct K as (p' & Ep & I').
  exists p'. split; [exact Ep|]. split; [exact I'|]. split; [eapply arrays_own_step; eassumption|]. split; [|apply N, Ep].
  destruct I as (B & T & H & Fp & Fa).
  destruct o as [|r t|i j|ro pi ya|ro pi ya|i j|i|i|c0 c1 c2 c3|k|i a b w|i a w|k a b w]; cbn [step] in E;
  repeat match type of E with
  | context [var ?l ?i] => let X := fresh "X" in destruct (var l i) eqn:X; cbn [bind] in E; try discriminate
  | context [within ?l ?i] => let X := fresh "X" in destruct (within l i) eqn:X; cbn [bind] in E; try discriminate
  end; first [rewrite (surjective_pairing (alloc _ _)) in E|rewrite (surjective_pairing (fresh_pose _ _ _)) in E|idtac]; apply Ok_inj in E; subst s'; cbn [mem add_pose]; try exact D; try (eapply default_extend; [exact D|first [apply extends_alloc|apply fresh_extends]]).
  - apply default_store; [exact D|]. destruct (var_right _ _ _ _ _ _ _ Fp X) as [y Y]. destruct (var_pair _ _ _ _ _ _ _ _ Fp X Y) as (P1 & P2 & P3 & P4).
    unfold within in X0, X1. destruct (Nat.ltb_spec a 3); [|discriminate]. destruct (Nat.ltb_spec b 3); [|discriminate].
    rewrite P1. assert (Z : In (cell (flip (flipped y) (B (r_origin y))) (3 * a + b)) (B (r_origin y))) by (apply flip_in; [exact P3|lia]).
    intro Q. apply in_app_or in Q. rewrite <- (b_default _ _ _ _ H), <- (t_default _ _ _ _ H) in Q. destruct Q as [Q|Q].
    + exact (b_apart _ _ _ _ H _ _ (W _ Y) _ Z Q).
    + exact (bt_apart _ _ _ _ H _ _ _ Z Q).
  - apply default_store; [exact D|]. destruct (var_right _ _ _ _ _ _ _ Fp X) as [y Y]. destruct (var_pair _ _ _ _ _ _ _ _ Fp X Y) as (P1 & P2 & P3 & P4).
    unfold within in X0. destruct (Nat.ltb_spec a 3); [|discriminate].
    rewrite P2. assert (Z : In (cell (T (t_origin y)) a) (T (t_origin y))) by (apply cell_in; lia).
    intro Q. apply in_app_or in Q. rewrite <- (b_default _ _ _ _ H), <- (t_default _ _ _ _ H) in Q. destruct Q as [Q|Q].
    + exact (bt_apart _ _ _ _ H _ _ _ Q Z).
    + exact (t_apart _ _ _ _ H _ _ (W _ Y) _ Z Q).
  - apply default_store; [exact D|]. destruct (var_right _ _ _ _ _ _ _ Fa X) as [y Y]. destruct (var_pair _ _ _ _ _ _ _ _ Fa X Y) as (P1 & P2 & P3 & P4).
    unfold within in X0, X1. destruct (Nat.ltb_spec a 3) as [La|]; [|discriminate]. destruct (Nat.ltb_spec b 4) as [Lb|]; [|discriminate].
    assert (Dy : y <> Default). { unfold arrays_own in A. rewrite Forall_forall in A. apply A. unfold var in Y. destruct (nth_error (p_arrays p) k) eqn:Z; [|discriminate]. injection Y as <-. eapply nth_error_In, Z. }
    match type of X with _ = Ok ?q => rename q into l end.
    assert (Z : In (cell l (4 * a + b)) (left_part l) \/ In (cell l (4 * a + b)) (last_column l)).
    { unfold left_part, last_column. destruct a as [|[|[|a]]]; [| | |lia]; destruct b as [|[|[|[|b]]]]; try lia; cbn; tauto. }
    rewrite P1, P2 in Z. intro Q. apply in_app_or in Q. rewrite <- (b_default _ _ _ _ H), <- (t_default _ _ _ _ H) in Q. destruct Q as [Q|Q], Z as [Z|Z].
    + exact (b_apart _ _ _ _ H _ _ Dy _ Z Q).
    + exact (bt_apart _ _ _ _ H _ _ _ Q Z).
    + exact (bt_apart _ _ _ _ H _ _ _ Z Q).
    + exact (t_apart _ _ _ _ H _ _ Dy _ Z Q).
Qed.
Lemma spare_run : forall ops s p s', inv s p -> arrays_own p -> pose_default (mem s) -> spares_default p ops -> foldM step s ops = Ok s' -> pose_default (mem s').
Proof.
  induction ops as [|o ops IH]; intros s p s' I A D W E; cbn [foldM] in E.
  - injection E as <-. exact D.
  - destruct (step s o) as [s1|] eqn:E1; cbn [bind] in E; [|discriminate]. destruct (spare_step s p o s1 ops I A D W E1) as (p1 & _ & I1 & A1 & D1 & W1). eapply IH; eassumption.
Qed.
