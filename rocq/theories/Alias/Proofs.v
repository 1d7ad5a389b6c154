From Coq Require Import Reals List Bool String Arith Lia.
From Verif.Base Require Import Py Vec.
From Verif.Geom Require Import Model.
From Verif.Alias Require Import Model Spec.
Import ListNotations.
Local Open Scope R_scope.
Local Open Scope list_scope.

(** * Memory *)
Lemma alloc_old : forall h vals a, (a < next h)%nat -> cells (snd (alloc h vals)) a = cells h a.
Proof. intros h vals a H. cbn. destruct (Nat.leb_spec (next h) a); [lia|reflexivity]. Qed.
Lemma alloc_new : forall h vals k, (k < List.length vals)%nat -> cells (snd (alloc h vals)) (cell (fst (alloc h vals)) k) = nth k vals 0.
Proof.
  intros h vals k H. unfold alloc; cbn [fst snd cells next]. unfold cell. rewrite seq_nth by exact H.
  
  rewrite (proj2 (Nat.leb_le _ _)) by lia. rewrite (proj2 (Nat.ltb_lt _ _)) by lia. cbn [andb]. f_equal. lia.
Qed.
Lemma cell_in : forall l k, (k < List.length l)%nat -> In (cell l k) l.
Proof. intros. apply nth_In. assumption. Qed.

Definition bounded (n : nat) (l : list nat) : Prop := Forall (fun a => (a < n)%nat) l.
Lemma bounded_cell : forall n l k, bounded n l -> (k < List.length l)%nat -> (cell l k < n)%nat.
Proof. intros n l k H K. unfold bounded in H. rewrite Forall_forall in H. apply H, cell_in, K. Qed.
Lemma bounded_le : forall n m l, bounded n l -> (n <= m)%nat -> bounded m l.
Proof. intros n m l H K. unfold bounded in *. eapply Forall_impl; [|exact H]. cbn. intros. lia. Qed.

Lemma mat_alloc : forall h m, mat_at (snd (alloc h (mat_list m))) (fst (alloc h (mat_list m))) = m.
Proof. intros h m. unfold mat_at. rewrite !alloc_new by (cbn; lia). destruct m. reflexivity. Qed.
Lemma vec_alloc : forall h v, vec_at (snd (alloc h (vec_list v))) (fst (alloc h (vec_list v))) = v.
Proof. intros h v. unfold vec_at. rewrite !alloc_new by (cbn; lia). destruct v. reflexivity. Qed.

(** Memory with the same old cells. *)
Definition extends (h h' : heap) : Prop := (next h <= next h')%nat /\ forall a, (a < next h)%nat -> cells h' a = cells h a.
Lemma extends_refl : forall h, extends h h.
Proof. intro h. split; [lia|reflexivity]. Qed.
Lemma extends_alloc : forall h vals, extends h (snd (alloc h vals)).
Proof. intros h vals. split; [cbn; lia|intros; apply alloc_old; assumption]. Qed.
Lemma extends_trans : forall a b c, extends a b -> extends b c -> extends a c.
Proof. intros a b c [A1 A2] [B1 B2]. split; [lia|]. intros x Hx. rewrite B2 by lia. apply A2, Hx. Qed.
Lemma mat_extends : forall h h' l, extends h h' -> bounded (next h) l -> List.length l = 9%nat -> mat_at h' l = mat_at h l.
Proof. intros h h' l [_ E] B L. unfold mat_at. rewrite !E by (apply bounded_cell; [exact B|lia]). reflexivity. Qed.
Lemma vec_extends : forall h h' l, extends h h' -> bounded (next h) l -> List.length l = 3%nat -> vec_at h' l = vec_at h l.
Proof. intros h h' l [_ E] B L. unfold vec_at. rewrite !E by (apply bounded_cell; [exact B|lia]). reflexivity. Qed.

Lemma mat_transposed : forall h l, mat_at h (transposed l) = mtr (mat_at h l).
Proof. reflexivity. Qed.
Lemma transposed_twice : forall l, List.length l = 9%nat -> transposed (transposed l) = l.
Proof. intros l H. do 9 (destruct l as [|? l]; [discriminate|]). destruct l; [reflexivity|discriminate]. Qed.
Lemma transposed_length : forall l, List.length (transposed l) = 9%nat.
Proof. reflexivity. Qed.
Lemma transposed_in : forall l x, List.length l = 9%nat -> In x (transposed l) -> In x l.
Proof. intros l x H. do 9 (destruct l as [|? l]; [discriminate|]). destruct l; [|discriminate]. cbn. tauto. Qed.

Definition flip (b : bool) (l : list nat) : list nat := if b then transposed l else l.

(** * The invariant *)
Definition apart (l l' : list nat) : Prop := forall x, In x l -> In x l' -> False.
Record blocks (B T : origin -> list nat) (n cnt : nat) : Prop := {
  b_bound : forall o, bounded n (B o); t_bound : forall o, bounded n (T o);
  b_apart : forall o o', o <> o' -> apart (B o) (B o'); t_apart : forall o o', o <> o' -> apart (T o) (T o');
  bt_apart : forall o o', apart (B o) (T o');
  b_nodup : forall o, NoDup (B o); t_nodup : forall o, NoDup (T o);
  b_free : forall m, (cnt <= m)%nat -> B (Made m) = [] /\ T (Made m) = [];
  b_default : B Default = default_R; t_default : T Default = default_t; t_enu : T EnuPosition = enu_position; t_maya : T MayaPosition = maya_position }.
Definition pose_ok (B T : origin -> list nat) (p : pref) (m : made) : Prop :=
  r_cells p = flip (flipped m) (B (r_origin m)) /\ t_cells p = T (t_origin m) /\
  List.length (B (r_origin m)) = 9%nat /\ List.length (T (t_origin m)) = 3%nat.
Definition array_ok (B T : origin -> list nat) (n : nat) (l : list nat) (o : origin) : Prop :=
  left_part l = B o /\ last_column l = T o /\ List.length l = 12%nat /\ bounded n l.
Definition inv (s : state) (p : pstate) : Prop := exists B T, blocks B T (next (mem s)) (p_count p) /\
  Forall2 (pose_ok B T) (poses s) (p_poses p) /\ Forall2 (array_ok B T (next (mem s))) (arrays s) (p_arrays p).

Lemma inv_initial : inv initial (PState 0 [] []).
Proof.
  exists (fun o => match o with Default => default_R | _ => [] end),
         (fun o => match o with Default => default_t | EnuPosition => enu_position | MayaPosition => maya_position | _ => [] end).
  split; [|split; constructor].
  assert (K : forall a n, (a + n <= 18)%nat -> bounded 18 (seq a n)).
  { intros a n H. apply Forall_forall. intros x Hx. apply in_seq in Hx. lia. }
  split.
  - intros []; cbn [mem initial next initial_heap]; try apply K; try (unfold bounded; constructor); lia.
  - intros []; cbn [mem initial next initial_heap]; try (apply K; lia). constructor.
  - intros [] [] D x H1 H2; try contradiction; try (exfalso; apply D; reflexivity).
  - intros [] [] D x H1 H2; try contradiction; try (exfalso; apply D; reflexivity); unfold default_t, enu_position, maya_position in *; apply in_seq in H1, H2; lia.
  - intros [] [] x H1 H2; try contradiction; unfold default_R, default_t, enu_position, maya_position in *; apply in_seq in H1, H2; lia.
  - intros []; try apply seq_NoDup; constructor.
  - intros []; try (apply seq_NoDup). constructor.
  - intros m _. split; reflexivity.
  - reflexivity.
  - reflexivity.
  - reflexivity.
  - reflexivity.
Qed.

Lemma blocks_skip : forall B T n n' c, blocks B T n c -> (n <= n')%nat -> blocks B T n' (S c).
Proof.
  intros B T n n' c [] H. split; auto.
  - intro o. eapply bounded_le; [apply b_bound0|exact H].
  - intro o. eapply bounded_le; [apply t_bound0|exact H].
  - intros m Hm. apply b_free0. lia.
Qed.

Definition upd (f : origin -> list nat) (c : nat) (l : list nat) : origin -> list nat :=
  fun o => match o with Made m => if Nat.eqb m c then l else f o | _ => f o end.
Lemma upd_same : forall f c l, upd f c l (Made c) = l.
Proof. intros. unfold upd. rewrite Nat.eqb_refl. reflexivity. Qed.
Lemma upd_cases : forall f c l o, (o = Made c /\ upd f c l o = l) \/ (o <> Made c /\ upd f c l o = f o).
Proof.
  intros f c l [| | |m]; try (right; split; [discriminate|reflexivity]). unfold upd. destruct (Nat.eqb_spec m c); [left; subst; tauto|right; split; [congruence|reflexivity]].
Qed.

(** A new block of cells for the operation, both parts. *)
Lemma blocks_new : forall B T n n' c lr lt, blocks B T n c -> (n <= n')%nat ->
  (forall x, In x lr -> n <= x < n')%nat -> (forall x, In x lt -> n <= x < n')%nat -> apart lr lt -> NoDup lr -> NoDup lt ->
  blocks (upd B c lr) (upd T c lt) n' (S c).
Proof.
  intros B T n n' c lr lt H N Hr Ht A Nr Nt.
  assert (BR : forall o x, In x (B o) -> (x < n)%nat) by (intros o x Hx; assert (Y := b_bound _ _ _ _ H o); unfold bounded in Y; rewrite Forall_forall in Y; apply Y, Hx).
  assert (BT : forall o x, In x (T o) -> (x < n)%nat) by (intros o x Hx; assert (Y := t_bound _ _ _ _ H o); unfold bounded in Y; rewrite Forall_forall in Y; apply Y, Hx).
  split.
  - intro o. apply Forall_forall. intros x Hx. destruct (upd_cases B c lr o) as [[_ E]|[_ E]]; rewrite E in Hx; [apply Hr in Hx; lia|apply BR in Hx; lia].
  - intro o. apply Forall_forall. intros x Hx. destruct (upd_cases T c lt o) as [[_ E]|[_ E]]; rewrite E in Hx; [apply Ht in Hx; lia|apply BT in Hx; lia].
  - intros o o' D x H1 H2. destruct (upd_cases B c lr o) as [[O1 E1]|[O1 E1]], (upd_cases B c lr o') as [[O2 E2]|[O2 E2]]; rewrite E1 in H1; rewrite E2 in H2.
    + congruence.
    + apply Hr in H1. apply BR in H2. lia.
    + apply Hr in H2. apply BR in H1. lia.
    + apply (b_apart _ _ _ _ H o o' D x); assumption.
  - intros o o' D x H1 H2. destruct (upd_cases T c lt o) as [[O1 E1]|[O1 E1]], (upd_cases T c lt o') as [[O2 E2]|[O2 E2]]; rewrite E1 in H1; rewrite E2 in H2.
    + congruence.
    + apply Ht in H1. apply BT in H2. lia.
    + apply Ht in H2. apply BT in H1. lia.
    + apply (t_apart _ _ _ _ H o o' D x); assumption.
  - intros o o' x H1 H2. destruct (upd_cases B c lr o) as [[O1 E1]|[O1 E1]], (upd_cases T c lt o') as [[O2 E2]|[O2 E2]]; rewrite E1 in H1; rewrite E2 in H2.
    + apply (A x); assumption.
    + apply Hr in H1. apply BT in H2. lia.
    + apply Ht in H2. apply BR in H1. lia.
    + apply (bt_apart _ _ _ _ H o o' x); assumption.
  - intro o. destruct (upd_cases B c lr o) as [[_ E]|[_ E]]; rewrite E; [exact Nr|apply (b_nodup _ _ _ _ H)].
  - intro o. destruct (upd_cases T c lt o) as [[_ E]|[_ E]]; rewrite E; [exact Nt|apply (t_nodup _ _ _ _ H)].
  - intros m Hm. unfold upd. destruct (Nat.eqb_spec m c); [lia|]. apply (b_free _ _ _ _ H). lia.
  - apply (b_default _ _ _ _ H).
  - apply (t_default _ _ _ _ H).
  - apply (t_enu _ _ _ _ H).
  - apply (t_maya _ _ _ _ H).
Qed.

(** Poses and arrays made earlier do not use the new block. *)
Lemma pose_old : forall B T n c lr lt p m, blocks B T n c -> pose_ok B T p m -> pose_ok (upd B c lr) (upd T c lt) p m.
Proof.
  intros B T n c lr lt p m H (P1 & P2 & P3 & P4).
  destruct (b_free _ _ _ _ H c (le_n c)) as [F1 F2].
  assert (E1 : upd B c lr (r_origin m) = B (r_origin m)) by (destruct (upd_cases B c lr (r_origin m)) as [[O E]|[_ E]]; [rewrite O, F1 in P3; discriminate|exact E]).
  assert (E2 : upd T c lt (t_origin m) = T (t_origin m)) by (destruct (upd_cases T c lt (t_origin m)) as [[O E]|[_ E]]; [rewrite O, F2 in P4; discriminate|exact E]).
  unfold pose_ok. rewrite E1, E2. tauto.
Qed.
Lemma array_old : forall B T n n' c lr lt l o, blocks B T n c -> (n <= n')%nat -> array_ok B T n l o -> array_ok (upd B c lr) (upd T c lt) n' l o.
Proof.
  intros B T n n' c lr lt l o H N (P1 & P2 & P3 & P4).
  destruct (b_free _ _ _ _ H c (le_n c)) as [F1 F2].
  assert (D : o <> Made c) by (intros ->; rewrite F1 in P1; discriminate).
  unfold array_ok. destruct (upd_cases B c lr o) as [[O E]|[_ E]]; [contradiction|]. destruct (upd_cases T c lt o) as [[O' E']|[_ E']]; [contradiction|].
  rewrite E, E'. repeat split; try assumption. eapply bounded_le; eassumption.
Qed.

Lemma Forall2_weaken : forall A B (P Q : A -> B -> Prop), (forall x y, P x y -> Q x y) -> forall l l', Forall2 P l l' -> Forall2 Q l l'.
Proof. intros A B P Q H l l' F. induction F; constructor; auto. Qed.
Lemma nth_Forall2 : forall A B (P : A -> B -> Prop) l l', Forall2 P l l' -> forall i,
  (exists x y, nth_error l i = Some x /\ nth_error l' i = Some y /\ P x y) \/ (nth_error l i = None /\ nth_error l' i = None).
Proof.
  intros A B P l l' H. induction H as [|x y l l' Hxy H IH]; intros [|i]; cbn; try (right; tauto); [left; exists x, y; tauto|apply IH].
Qed.
Lemma var_both : forall A B (P : A -> B -> Prop) l l' i, Forall2 P l l' ->
  (exists x y, var l i = Ok x /\ var l' i = Ok y /\ P x y) \/ (var l i = Err UnboundLocalError /\ var l' i = Err UnboundLocalError).
Proof.
  intros A B P l l' i H. unfold var. destruct (nth_Forall2 A B P l l' H i) as [(x & y & -> & -> & K)|[-> ->]]; [left; exists x, y; tauto|right; tauto].
Qed.

(** Results of a step in both worlds. *)
Definition agree (a : res state) (b : res pstate) (ok : bool) : Prop :=
  match a with
  | Ok s => exists p, b = Ok p /\ inv s p
  | Err e => if ok then b = Err e else True
  end.

Lemma skip_pose : forall s p B T pr m, blocks B T (next (mem s)) (p_count p) ->
  Forall2 (pose_ok B T) (poses s) (p_poses p) -> Forall2 (array_ok B T (next (mem s))) (arrays s) (p_arrays p) ->
  pose_ok B T pr m -> inv (add_pose s (mem s) pr) (p_add p m).
Proof.
  intros s p B T pr m H Fp Fa K. exists B, T. cbn. split; [eapply blocks_skip; [exact H|lia]|]. split; [apply Forall2_app; [exact Fp|constructor; [exact K|constructor]]|exact Fa].
Qed.
Lemma new_pose : forall s p B T h' lr lt pr m, blocks B T (next (mem s)) (p_count p) ->
  Forall2 (pose_ok B T) (poses s) (p_poses p) -> Forall2 (array_ok B T (next (mem s))) (arrays s) (p_arrays p) ->
  (next (mem s) <= next h')%nat -> (forall x, In x lr -> next (mem s) <= x < next h')%nat -> (forall x, In x lt -> next (mem s) <= x < next h')%nat ->
  apart lr lt -> NoDup lr -> NoDup lt ->
  pose_ok (upd B (p_count p) lr) (upd T (p_count p) lt) pr m -> inv (add_pose s h' pr) (p_add p m).
Proof.
  intros s p B T h' lr lt pr m H Fp Fa N Hr Ht A Nr Nt K. exists (upd B (p_count p) lr), (upd T (p_count p) lt). cbn.
  split; [eapply blocks_new; eassumption|]. split.
  - apply Forall2_app; [|constructor; [exact K|constructor]]. eapply Forall2_weaken; [|exact Fp]. intros; eapply pose_old; eassumption.
  - eapply Forall2_weaken; [|exact Fa]. intros; eapply array_old; eassumption.
Qed.
Lemma fresh_inv : forall s p B T r t, blocks B T (next (mem s)) (p_count p) ->
  Forall2 (pose_ok B T) (poses s) (p_poses p) -> Forall2 (array_ok B T (next (mem s))) (arrays s) (p_arrays p) ->
  inv (add_pose s (snd (fresh_pose (mem s) r t)) (fst (fresh_pose (mem s) r t))) (p_add p (From (Made (p_count p)) false (Made (p_count p)))).
Proof.
  intros s p B T r t H Fp Fa.
  eapply (new_pose s p B T _ (seq (next (mem s)) 9) (seq (next (mem s) + 9) 3)); try eassumption; cbn [fresh_pose alloc fst snd next mat_list vec_list List.length].
  - lia.
  - intros x Hx. apply in_seq in Hx. lia.
  - intros x Hx. apply in_seq in Hx. lia.
  - intros x H1 H2. apply in_seq in H1, H2. lia.
  - apply seq_NoDup.
  - apply seq_NoDup.
  - unfold pose_ok. cbn [r_cells t_cells r_origin t_origin flipped flip]. rewrite !upd_same. repeat split; try apply seq_length.
Qed.

Lemma step_inv : forall s p o, inv s p -> agree (step s o) (p_step p o) (match o with WriteR _ _ _ _ | WriteT _ _ _ | WriteArray _ _ _ _ => false | _ => true end).
Proof.
  intros s p o (B & T & H & Fp & Fa).
  assert (KeepF : forall h', next h' = next (mem s) -> inv (State h' (poses s) (arrays s)) (PState (S (p_count p)) (p_poses p) (p_arrays p))).
  { intros h' E. exists B, T. cbn. rewrite E. split; [eapply blocks_skip; [exact H|lia]|]. split; assumption. }
  destruct o as [|r t|i j|ro pi ya|ro pi ya|i j|i|i|c0 c1 c2 c3|k|i a b v|i a v|k a b v]; cbn [step p_step].
  - eexists. split; [reflexivity|]. eapply skip_pose; try eassumption. unfold pose_ok; cbn. rewrite (b_default _ _ _ _ H), (t_default _ _ _ _ H). repeat split.
  - rewrite (surjective_pairing (fresh_pose (mem s) r t)). cbn [agree]. eexists. split; [reflexivity|]. apply (fresh_inv s p B T r t); assumption.
  - destruct (var_both _ _ _ _ _ i Fp) as [(x & y & -> & -> & K)|[-> ->]]; cbn [bind agree]; [|reflexivity].
    destruct (var_both _ _ _ _ _ j Fp) as [(x' & y' & -> & -> & K')|[-> ->]]; cbn [bind agree]; [|reflexivity].
    eexists. split; [reflexivity|]. eapply skip_pose; try eassumption. destruct K as (K1 & K2 & K3 & K4), K' as (L1 & L2 & L3 & L4). unfold pose_ok; cbn. tauto.
  - cbn [alloc agree]. eexists. split; [reflexivity|].
    eapply (new_pose s p B T _ (seq (next (mem s)) 9) []); try eassumption; cbn [next mat_list List.length].
    + lia.
    + intros x Hx. apply in_seq in Hx. lia.
    + intros x [].
    + intros x _ [].
    + apply seq_NoDup.
    + constructor.
    + unfold pose_ok; cbn [r_cells t_cells r_origin t_origin flipped flip]. rewrite upd_same. unfold upd at 1 2. cbn. rewrite (t_enu _ _ _ _ H). repeat split.
  - cbn [alloc agree]. eexists. split; [reflexivity|].
    eapply (new_pose s p B T _ (seq (next (mem s)) 9) []); try eassumption; cbn [next mat_list List.length].
    + lia.
    + intros x Hx. apply in_seq in Hx. lia.
    + intros x [].
    + intros x _ [].
    + apply seq_NoDup.
    + constructor.
    + unfold pose_ok; cbn [r_cells t_cells r_origin t_origin flipped flip]. rewrite upd_same. unfold upd at 1 2. cbn. rewrite (t_maya _ _ _ _ H). repeat split.
  - destruct (var_both _ _ _ _ _ i Fp) as [(x & y & -> & -> & K)|[-> ->]]; cbn [bind agree]; [|reflexivity].
    destruct (var_both _ _ _ _ _ j Fp) as [(x' & y' & -> & -> & K')|[-> ->]]; cbn [bind agree]; [|reflexivity].
    rewrite (surjective_pairing (fresh_pose (mem s) _ _)). cbn [agree]. eexists. split; [reflexivity|]. apply (fresh_inv s p B T); assumption.
  - destruct (var_both _ _ _ _ _ i Fp) as [(x & y & -> & -> & K)|[-> ->]]; cbn [bind agree]; [|reflexivity].
    cbn [alloc agree]. eexists. split; [reflexivity|]. destruct K as (K1 & K2 & K3 & K4).
    eapply (new_pose s p B T _ [] (seq (next (mem s)) 3)); try eassumption; cbn [next vec_list List.length].
    + lia.
    + intros z [].
    + intros z Hz. apply in_seq in Hz. lia.
    + intros z [].
    + constructor.
    + apply seq_NoDup.
    + unfold pose_ok; cbn [r_cells t_cells r_origin t_origin flipped]. rewrite upd_same.
      assert (E : upd B (p_count p) [] (r_origin y) = B (r_origin y)).
      { destruct (upd_cases B (p_count p) [] (r_origin y)) as [[O E]|[_ E]]; [|exact E]. destruct (b_free _ _ _ _ H (p_count p) (le_n _)) as [F _]. rewrite O, F in K3. discriminate. }
      rewrite E. split; [|split; [reflexivity|split; [exact K3|reflexivity]]].
      rewrite K1. destruct (flipped y); cbn [flip negb]; [apply transposed_twice, K3|reflexivity].
  - destruct (var_both _ _ _ _ _ i Fp) as [(x & y & -> & -> & K)|[-> ->]]; cbn [bind agree]; [|reflexivity].
    rewrite (surjective_pairing (fresh_pose (mem s) _ _)). cbn [agree]. eexists. split; [reflexivity|]. apply (fresh_inv s p B T); assumption.
  - cbn [alloc agree]. eexists. split; [reflexivity|].
    set (n := next (mem s)) in *. set (l := seq n 12).
    exists (upd B (p_count p) (left_part l)), (upd T (p_count p) (last_column l)). cbn [mem poses arrays p_count p_poses p_arrays next List.length].
    assert (Nr : NoDup (left_part l)) by (unfold l; cbn; repeat constructor; cbn; lia).
    assert (Nt : NoDup (last_column l)) by (unfold l; cbn; repeat constructor; cbn; lia).
    split; [|split].
    + eapply blocks_new; try eassumption; [lia| | |].
      * intros x Hx. unfold l in Hx; cbn in Hx. lia.
      * intros x Hx. unfold l in Hx; cbn in Hx. lia.
      * intros x H1 H2. unfold l in *; cbn in *. lia.
    + eapply Forall2_weaken; [|exact Fp]. intros; eapply pose_old; eassumption.
    + apply Forall2_app; [eapply Forall2_weaken; [|exact Fa]; intros; eapply array_old; try eassumption; lia|]. constructor; [|constructor].
      unfold array_ok. rewrite !upd_same. repeat split. apply Forall_forall. intros x Hx. apply in_seq in Hx. lia.
  - destruct (var_both _ _ _ _ _ k Fa) as [(x & y & -> & -> & K)|[-> ->]]; cbn [bind agree]; [|reflexivity].
    eexists. split; [reflexivity|]. eapply skip_pose; try eassumption. destruct K as (K1 & K2 & K3 & K4). unfold pose_ok; cbn [r_cells t_cells r_origin t_origin flipped flip].
    rewrite <- K1, <- K2. repeat split.
  - destruct (var (poses s) i); cbn [bind agree]; [|trivial]. destruct (within 3 a); cbn [bind agree]; [|trivial]. destruct (within 3 b); cbn [bind agree]; [|trivial].
    eexists. split; [reflexivity|]. apply KeepF. reflexivity.
  - destruct (var (poses s) i); cbn [bind agree]; [|trivial]. destruct (within 3 a); cbn [bind agree]; [|trivial].
    eexists. split; [reflexivity|]. apply KeepF. reflexivity.
  - destruct (var (arrays s) k); cbn [bind agree]; [|trivial]. destruct (within 3 a); cbn [bind agree]; [|trivial]. destruct (within 4 b); cbn [bind agree]; [|trivial].
    eexists. split; [reflexivity|]. apply KeepF. reflexivity.
Qed.

Lemma run_inv : forall ops s p s', inv s p -> foldM step s ops = Ok s' -> exists p', foldM p_step p ops = Ok p' /\ inv s' p'.
Proof.
  induction ops as [|o ops IH]; intros s p s' I H; cbn [foldM] in *.
  - injection H as <-. exists p. tauto.
  - assert (K := step_inv s p o I). destruct (step s o) as [s1|e]; cbn [bind] in H; [|discriminate]. destruct K as (p1 & -> & I1). cbn [bind]. eapply IH; eassumption.
Qed.
