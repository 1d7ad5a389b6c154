(** Cleanup and normals. *)
From Coq Require Import List Bool ZArith Reals Lra Lia.
From Verif.Base Require Import Py PyFacts Vec.
From Verif.Mesh Require Import Model Spec Proofs.
Import ListNotations.
Local Open Scope Z_scope.

Definition flat3 {A} (ts : list (A * A * A)) : list A := flat_map (fun t => let '(i, j, k) := t in [i; j; k]) ts.

Lemma triples_flat3 : forall A (ts : list (A * A * A)), triples (flat3 ts) = ts.
Proof. induction ts as [|[[i j] k] ts IH]; [reflexivity|]. cbn [flat3 flat_map app triples]. unfold flat3 in IH. rewrite IH. reflexivity. Qed.

Lemma flat3_length : forall A (ts : list (A * A * A)), List.length (flat3 ts) = (3 * List.length ts)%nat.
Proof. induction ts as [|[[i j] k] ts IH]; [reflexivity|]. unfold flat3 in *. cbn [flat_map app List.length]. rewrite IH. lia. Qed.

Lemma flat3_triples : forall A n (l : list A), List.length l = (3 * n)%nat -> flat3 (triples l) = l.
Proof.
  induction n as [|n IH]; intros l H; [destruct l; [reflexivity|discriminate]|].
  destruct l as [|a [|b [|c l]]]; cbn in H; try lia. cbn [triples flat3 flat_map app]. unfold flat3 in IH. rewrite IH by lia. reflexivity.
Qed.

Lemma In_flat3 : forall A (ts : list (A * A * A)) x, In x (flat3 ts) <-> exists i j k, In (i, j, k) ts /\ (x = i \/ x = j \/ x = k).
Proof.
  intros A ts x. unfold flat3. rewrite in_flat_map. split.
  - intros ([[i j] k] & H & I). exists i, j, k. split; [exact H|]. cbn in I. intuition.
  - intros (i & j & k & H & I). exists (i, j, k). split; [exact H|]. cbn. intuition.
Qed.

Lemma In_triples : forall A (l : list A) i j k, In (i, j, k) (triples l) -> In i l /\ In j l /\ In k l.
Proof.
  intros A. assert (K : forall n (l : list A) i j k, (List.length l <= n)%nat -> In (i, j, k) (triples l) -> In i l /\ In j l /\ In k l).
  { induction n as [|n IH]; intros l i j k L H; [destruct l; [destruct H|cbn in L; lia]|].
    destruct l as [|a [|b [|c l]]]; cbn [triples] in H; try contradiction. destruct H as [E|H].
    - injection E as <- <- <-. repeat split; cbn; auto.
    - destruct (IH l i j k) as (A1 & A2 & A3); [cbn in L; lia|exact H|]. repeat split; cbn; auto. }
  intros l i j k H. apply (K (List.length l)); auto.
Qed.

(** Triangle predicate through the corners. *)
Definition lifted {V} (vs : list V) (good : V -> V -> V -> bool) (t : Z * Z * Z) : bool :=
  let '(i, j, k) := t in
  match refers vs i, refers vs j, refers vs k with Some a, Some b, Some c => good a b c | _, _, _ => false end.

Lemma cleanup_ok : forall V N good (m : mesh V N), (forall i, In i (indices m) -> 0 <= i < size (vertices m)) ->
  cleanup good m = Ok (Mesh (flat3 (filter (lifted (vertices m) good) (triples (indices m)))) (vertices m) (normals m)).
Proof.
  intros V N good m R. unfold cleanup. destruct (iterate_ok V (vertices m) (indices m) R) as (ts & E & F & G). rewrite E. cbn [bind].
  do 2 f_equal. rewrite <- F. clear E.
  assert (TR : triples (map (refers (vertices m)) (indices m)) = map (fun t => let '(i, j, k) := t in (refers (vertices m) i, refers (vertices m) j, refers (vertices m) k)) (triples (indices m))).
  { clear. assert (K : forall n idx, (List.length idx <= n)%nat -> triples (map (refers (vertices m)) idx) =
      map (fun t => let '(i, j, k) := t in (refers (vertices m) i, refers (vertices m) j, refers (vertices m) k)) (triples idx)).
    { induction n as [|n IH]; intros idx L; [destruct idx; [reflexivity|cbn in L; lia]|].
      destruct idx as [|a [|b [|c idx]]]; try reflexivity. cbn [map triples]. rewrite IH by (cbn in L; lia). reflexivity. }
    apply (K (List.length (indices m))). lia. }
  rewrite TR, <- F in G. clear F TR. induction ts as [|[[[i j] k] [[a b] c]] ts IH]; [reflexivity|].
  cbn [map] in G. injection G as Ea Eb Ec G. cbn [map flat_map filter fst lifted]. cbn in Ea, Eb, Ec. rewrite <- Ea, <- Eb, <- Ec.
  rewrite IH by exact G. destruct (good a b c); reflexivity.
Qed.

Lemma filter_idem : forall A (f : A -> bool) l, filter f (filter f l) = filter f l.
Proof. intros A f l. induction l as [|x l IH]; [reflexivity|]. cbn. destruct (f x) eqn:E; [cbn; rewrite E, IH; reflexivity|exact IH]. Qed.

Lemma cleanup_keeps_range : forall V N good (m m' : mesh V N), (forall i, In i (indices m) -> 0 <= i < size (vertices m)) ->
  cleanup good m = Ok m' -> forall i, In i (indices m') -> In i (indices m).
Proof.
  intros V N good m m' R E i Hi. rewrite (cleanup_ok _ _ good m R) in E. injection E as <-. cbn [indices] in Hi.
  apply In_flat3 in Hi. destruct Hi as (a & b & c & H & X). apply filter_In in H. destruct H as [H _].
  apply In_triples in H. destruct X as [->|[->| ->]]; tauto.
Qed.

Lemma cleanup_idem : forall V N good (m m' : mesh V N), (forall i, In i (indices m) -> 0 <= i < size (vertices m)) ->
  cleanup good m = Ok m' -> cleanup good m' = Ok m'.
Proof.
  intros V N good m m' R E. assert (R' : forall i, In i (indices m') -> 0 <= i < size (vertices m')).
  { intros i Hi. assert (V' : vertices m' = vertices m) by (rewrite (cleanup_ok _ _ good m R) in E; injection E as <-; reflexivity).
    rewrite V'. apply R. eapply cleanup_keeps_range; eassumption. }
  rewrite (cleanup_ok _ _ good m' R'). rewrite (cleanup_ok _ _ good m R) in E. injection E as <-. cbn [indices vertices normals].
  rewrite triples_flat3, filter_idem. reflexivity.
Qed.

Local Open Scope R_scope.

Lemma rle_iff : forall x y, rle x y = true <-> x <= y.
Proof. intros x y. unfold rle. destruct (Rle_dec x y); split; auto; try discriminate; contradiction. Qed.

Lemma direction_normalized : forall s, direction_of s (normalized s).
Proof.
  intro s. unfold normalized. destruct (Rlt_dec 0 (dot s s)) as [P|P].
  - right. assert (NP : 0 < norm s) by (apply sqrt_lt_R0; exact P).
    assert (NN : norm s * norm s = dot s s) by (apply sqrt_sqrt; lra). split.
    + replace (dot (smul (/ norm s) s) (smul (/ norm s) s)) with (/ norm s * / norm s * dot s s) by (unfold dot, smul; simpl; ring).
      rewrite <- NN. field. lra.
    + exists (norm s). split; [exact NP|]. apply vec_eq; simpl; field; lra.
  - left. assert (Z : dot s s = 0) by (assert (Q := dot_self_nonneg s); lra). apply dot_self_zero in Z. auto.
Qed.

Lemma area_orthogonal : forall a b c n, direction_of (area_vector a b c) n ->
  dot n (vsub b a) = 0 /\ dot n (vsub c a) = 0 /\ dot n (vsub c b) = 0.
Proof.
  intros a b c n [(_ & ->)|(_ & k & K & E)]; [unfold dot; simpl; repeat split; ring|].
  assert (D : forall w, dot (area_vector a b c) w = 0 -> dot n w = 0).
  { intros w H. rewrite E in H. replace (dot (smul k n) w) with (k * dot n w) in H by (unfold dot, smul; simpl; ring).
    apply Rmult_integral in H. destruct H; [lra|assumption]. }
  repeat split; apply D; unfold area_vector, dot, cross, vsub; simpl; ring.
Qed.

Lemma direction_unique : forall s n m, direction_of s n -> direction_of s m -> n = m.
Proof.
  intros s n m [(Z & ->)|(U & k & K & E)] [(Z' & ->)|(U' & k' & K' & E')].
  - reflexivity.
  - exfalso. rewrite Z in E'. assert (H : dot (smul k' m) (smul k' m) = 0) by (rewrite <- E'; unfold dot, vzero; simpl; ring).
    replace (dot (smul k' m) (smul k' m)) with (k' * k' * dot m m) in H by (unfold dot, smul; simpl; ring). rewrite U' in H. nra.
  - exfalso. rewrite Z' in E. assert (H : dot (smul k n) (smul k n) = 0) by (rewrite <- E; unfold dot, vzero; simpl; ring).
    replace (dot (smul k n) (smul k n)) with (k * k * dot n n) in H by (unfold dot, smul; simpl; ring). rewrite U in H. nra.
  - assert (S1 : dot s s = k * k) by (rewrite E; replace (dot (smul k n) (smul k n)) with (k * k * dot n n) by (unfold dot, smul; simpl; ring); rewrite U; ring).
    assert (S2 : dot s s = k' * k') by (rewrite E'; replace (dot (smul k' m) (smul k' m)) with (k' * k' * dot m m) by (unfold dot, smul; simpl; ring); rewrite U'; ring).
    assert (KK : k = k') by nra. subst k'. rewrite E in E'. unfold smul in E'. injection E' as X Y Zz.
    apply vec_eq; [apply (Rmult_eq_reg_l k)|apply (Rmult_eq_reg_l k)|apply (Rmult_eq_reg_l k)]; auto; lra.
Qed.

Lemma face_normals_ok : forall idx vs, (forall i, In i idx -> (0 <= i < size vs)%Z) ->
  exists faces, CalculateFaceNormals idx vs = Ok faces /\
    Forall2 (fun t n => let '(i, j, k) := t in exists a b c,
      refers vs i = Some a /\ refers vs j = Some b /\ refers vs k = Some c /\ direction_of (area_vector a b c) n) (triples idx) faces.
Proof.
  intros idx vs R. unfold CalculateFaceNormals. destruct (iterate_ok vec vs idx R) as (ts & E & F & G). rewrite E. cbn [bind].
  eexists. split; [reflexivity|]. rewrite <- F. clear E.
  assert (TR : triples (map (refers vs) idx) = map (fun t => let '(i, j, k) := t in (refers vs i, refers vs j, refers vs k)) (triples idx)).
  { clear. assert (K : forall n idx, (List.length idx <= n)%nat -> triples (map (refers vs) idx) =
      map (fun t => let '(i, j, k) := t in (refers vs i, refers vs j, refers vs k)) (triples idx)).
    { induction n as [|n IH]; intros l L; [destruct l; [reflexivity|cbn in L; lia]|].
      destruct l as [|a [|b [|c l]]]; try reflexivity. cbn [map triples]. rewrite IH by (cbn in L; lia). reflexivity. }
    apply (K (List.length idx)). lia. }
  rewrite TR, <- F in G. clear F TR. induction ts as [|[[[i j] k] [[a b] c]] ts IH]; [constructor|].
  cbn [map] in G. injection G as Ea Eb Ec G. cbn [map fst]. constructor; [|apply IH, G].
  exists a, b, c. cbn in Ea, Eb, Ec. repeat split; auto. apply direction_normalized.
Qed.

Lemma vadd_assoc : forall a b c, vadd (vadd a b) c = vadd a (vadd b c).
Proof. intros. vring. Qed.
Lemma vadd_zero_r : forall a, vadd a vzero = a.
Proof. intros. vring. Qed.
Lemma vsum_app : forall a b, vsum (a ++ b) = vadd (vsum a) (vsum b).
Proof.
  intros a b. unfold vsum. induction a as [|x a IH]; cbn [app fold_right].
  - generalize (fold_right vadd vzero b). intro s. vring.
  - rewrite IH. generalize (fold_right vadd vzero a) (fold_right vadd vzero b). intros. vring.
Qed.

Lemma add_at_ok : forall ns i n, (0 <= i < size ns)%Z ->
  exists ns', add_at ns i n = Ok ns' /\ size ns' = size ns /\
    forall v x, refers ns v = Some x -> refers ns' v = Some (if Z.eqb v i then vadd x n else x).
Proof.
  intros ns i n H. unfold add_at. rewrite at_refers. destruct (proj1 (refers_some _ ns i) H) as (y & Ey). rewrite Ey. cbn [bind].
  rewrite set_at_ok by exact H. eexists. split; [reflexivity|]. split; [apply size_set_nth|].
  intros v x E. destruct (Z.eqb_spec v i) as [->|D].
  - rewrite refers_set_same by exact H. congruence.
  - rewrite refers_set_other by (auto; lia). exact E.
Qed.

Lemma add_faces_ok : forall faces idx ns, (forall i, In i idx -> (0 <= i < size ns)%Z) -> List.length (triples idx) = List.length faces ->
  exists ns', add_faces ns idx faces = Ok ns' /\ size ns' = size ns /\
    forall v x, refers ns v = Some x -> refers ns' v = Some (vadd x (vsum (incident v (combine (triples idx) faces)))).
Proof.
  induction faces as [|n faces IH]; intros idx ns R L.
  - exists ns. split; [reflexivity|]. split; [reflexivity|]. intros v x E. rewrite combine_nil. cbn [incident flat_map vsum fold_right]. rewrite vadd_zero_r. exact E.
  - destruct idx as [|i [|j [|k idx]]]; try discriminate L. cbn [triples List.length] in L. injection L as L. cbn [add_faces].
    destruct (add_at_ok ns i n) as (n1 & E1 & S1 & F1); [apply R; left; reflexivity|]. rewrite E1. cbn [bind].
    destruct (add_at_ok n1 j n) as (n2 & E2 & S2 & F2); [rewrite S1; apply R; right; left; reflexivity|]. rewrite E2. cbn [bind].
    destruct (add_at_ok n2 k n) as (n3 & E3 & S3 & F3); [rewrite S2, S1; apply R; do 2 right; left; reflexivity|]. rewrite E3. cbn [bind].
    destruct (IH idx n3) as (ns' & E & S & F); [intros x Hx; rewrite S3, S2, S1; apply R; do 3 right; exact Hx|exact L|].
    exists ns'. split; [exact E|]. split; [congruence|]. intros v x Ex.
    rewrite (F v _ (F3 v _ (F2 v _ (F1 v _ Ex)))). f_equal. cbn [triples combine incident flat_map]. rewrite vsum_app. rewrite <- vadd_assoc. f_equal.
    cbn [filter map]. destruct (Z.eqb v i), (Z.eqb v j), (Z.eqb v k); cbn; vring.
Qed.

Lemma Forall2_len : forall A B (P : A -> B -> Prop) l m, Forall2 P l m -> List.length l = List.length m.
Proof. induction 1; cbn; auto. Qed.

Lemma estimate_ok : forall idx vs, (forall i, In i idx -> (0 <= i < size vs)%Z) ->
  exists faces ns, CalculateFaceNormals idx vs = Ok faces /\ EstimateNormals idx vs = Ok ns /\ List.length ns = List.length vs /\
    forall v, (0 <= v < size vs)%Z -> exists n, refers ns v = Some n /\ direction_of (vsum (incident v (combine (triples idx) faces))) n.
Proof.
  intros idx vs R. destruct (face_normals_ok idx vs R) as (faces & E & F). unfold EstimateNormals. rewrite E. cbn [bind].
  assert (SZ : size (map (fun _ : vec => vzero) vs) = size vs) by apply size_map.
  destruct (add_faces_ok faces idx (map (fun _ => vzero) vs)) as (ns & E2 & S & G); [rewrite SZ; exact R|apply (Forall2_len _ _ _ _ _ F)|].
  rewrite E2. cbn [bind]. exists faces, (map normalized ns). split; [reflexivity|]. split; [reflexivity|]. split.
  - rewrite map_length. unfold size in *. rewrite map_length in *. lia.
  - intros v Hv. assert (Z0 : refers (map (fun _ : vec => vzero) vs) v = Some vzero).
    { destruct (proj1 (refers_some _ vs v) Hv) as (y & Ey). unfold refers in *. destruct (v <? 0)%Z; [discriminate|].
      rewrite nth_error_map, Ey. reflexivity. }
    specialize (G v _ Z0). exists (normalized (vsum (incident v (combine (triples idx) faces)))).
    split; [|apply direction_normalized]. unfold refers in *. destruct (v <? 0)%Z; [discriminate|]. rewrite nth_error_map, G. cbn [option_map]. do 2 f_equal. generalize (vsum (incident v (combine (triples idx) faces))). intro s. vring.
Qed.
