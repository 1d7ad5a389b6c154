(** Proofs about sampling. *)
From Coq Require Import Reals Lra Lia List ZArith Bool.
From Verif.Base Require Import Py PyFacts Vec.
From Verif.Geom Require Import Model Proofs.
From Verif.Box Require Import Model Spec Proofs.
From Verif.Sample Require Import Model Spec.
Import ListNotations.
Open Scope R_scope.

(** * Rounding *)

Lemma floor_spec : forall x, IZR (floor x) <= x < IZR (floor x) + 1.
Proof. intro x. unfold floor. rewrite minus_IZR. destruct (archimed x). lra. Qed.
Lemma floor_unique : forall x z, IZR z <= x < IZR z + 1 -> floor x = z.
Proof.
  intros x z H. assert (F := floor_spec x). assert (A : IZR (floor x) < IZR (z + 1)) by (rewrite plus_IZR; lra). assert (B : IZR z < IZR (floor x + 1)) by (rewrite plus_IZR; lra).
  apply lt_IZR in A. apply lt_IZR in B. lia.
Qed.
Lemma floor_mono : forall x y, x <= y -> (floor x <= floor y)%Z.
Proof. intros x y H. assert (F := floor_spec x). assert (G := floor_spec y). assert (A : IZR (floor x) < IZR (floor y + 1)) by (rewrite plus_IZR; lra). apply lt_IZR in A. lia. Qed.
Lemma floor_1 : floor 1 = 1%Z.
Proof. apply floor_unique. lra. Qed.
Lemma floor_nonneg : forall x, 0 <= x -> (0 <= floor x)%Z.
Proof. intros x H. rewrite <- (floor_unique 0 0%Z) by lra. apply floor_mono, H. Qed.

(** Both ways of rounding give the same number. *)
Lemma counts_agree : forall x, trunc (Rmax 1 x) = Z.max 1 (trunc x).
Proof.
  intro x. unfold trunc. destruct (Rle_dec 0 (Rmax 1 x)) as [_|N]; [|exfalso; apply N; apply Rle_trans with 1; [lra|apply Rmax_l]].
  unfold Rmax. destruct (Rle_dec 1 x) as [L|L].
  - destruct (Rle_dec 0 x) as [_|]; [|lra]. assert (H := floor_mono 1 x L). rewrite floor_1 in H. lia.
  - rewrite floor_1. destruct (Rle_dec 0 x) as [P|P].
    + assert (H : (floor x < 1)%Z) by (apply lt_IZR; assert (F := floor_spec x); lra). lia.
    + assert (H := floor_nonneg (- x) ltac:(lra)). lia.
Qed.
Lemma count_spec : forall density area, n_samples density area (Z.to_nat (Z.max 1 (trunc (density * area)))).
Proof.
  intros d a. rewrite <- counts_agree. set (x := d * a). assert (G : 1 <= Rmax 1 x) by apply Rmax_l. unfold trunc. destruct (Rle_dec 0 (Rmax 1 x)) as [_|N]; [|lra].
  assert (F := floor_spec (Rmax 1 x)). assert (H := floor_mono _ _ G). rewrite floor_1 in H. split; [lia|].
  rewrite INR_IZR_INZ, Z2Nat.id by lia. exact F.
Qed.

(** * Texture cells *)

Lemma wraps_mod : forall u n, (0 < n)%nat -> wraps u n (Z.to_nat (floor (u * INR n) mod Z.of_nat n)).
Proof.
  intros u n P. set (f := floor (u * INR n)). assert (M := Z.mod_pos_bound f (Z.of_nat n) ltac:(lia)). split; [lia|].
  exists (- (f / Z.of_nat n))%Z. rewrite INR_IZR_INZ, Z2Nat.id by lia. assert (F := floor_spec (u * INR n)). fold f in F.
  assert (D := Z.div_mod f (Z.of_nat n) ltac:(lia)). apply (f_equal IZR) in D. rewrite plus_IZR, mult_IZR in D. rewrite (INR_IZR_INZ n) in *. rewrite opp_IZR. lra.
Qed.
Lemma texel_ok : forall t uv, (0 < height t)%nat -> (0 < width t)%nat -> exists r c, texel t uv = Ok (pixel t r c) /\ wraps (fst uv) (height t) r /\ wraps (snd uv) (width t) c.
Proof.
  intros t uv H W. unfold texel, pixel_at.
  assert (A := Z.mod_pos_bound (floor (fst uv * INR (height t))) (Z.of_nat (height t)) ltac:(lia)). assert (B := Z.mod_pos_bound (floor (snd uv * INR (width t))) (Z.of_nat (width t)) ltac:(lia)).
  do 2 (rewrite (proj2 (Z.leb_le _ _)) by lia; rewrite (proj2 (Z.ltb_lt _ _)) by lia). cbn [andb].
  eexists. eexists. split; [reflexivity|]. split; apply wraps_mod; assumption.
Qed.

(** * Rows *)

Lemma item_ok : forall A (l : list A) i, (i < List.length l)%nat -> exists x, item l i = Ok x /\ nth_error l i = Some x.
Proof. intros A l i H. unfold item. destruct (nth_error l i) as [x|] eqn:E; [eauto|]. apply nth_error_None in E. lia. Qed.

Lemma mapM_rel : forall A B (f : A -> res B) (P : A -> B -> Prop) l, Forall (fun x => exists y, f x = Ok y /\ P x y) l -> exists ys, mapM f l = Ok ys /\ Forall2 P l ys.
Proof.
  intros A B f P l F. induction F as [|x l (y & E & H) F (ys & E' & H')]; [exists []; split; [reflexivity|constructor]|].
  cbn [mapM]. rewrite E. cbn [bind]. rewrite E'. cbn [bind]. exists (y :: ys). split; [reflexivity|constructor; assumption].
Qed.

(** A row for vertex [i] of mesh [m]. *)
Definition row_of (T : pose) (m : surface) (i : nat) (s : corner) : Prop :=
  (exists p, nth_error (s_vertices m) i = Some p /\ fst s = transform_from T p) /\ vertex_color m i (snd s).

Lemma Forall2_combine : forall A B C (P : A -> B -> Prop) (Q : A -> C -> Prop) l bs cs, Forall2 P l bs -> Forall2 Q l cs ->
  Forall2 (fun a p => P a (fst p) /\ Q a (snd p)) l (combine bs cs).
Proof. intros A B C P Q l bs cs F. revert cs. induction F as [|a b l bs H F IH]; intros cs G; inversion G; subst; [constructor|]. cbn [combine]. constructor; [split; assumption|apply IH; assumption]. Qed.
Lemma Forall2_weaken : forall A B (P Q : A -> B -> Prop) l l', (forall a b, P a b -> Q a b) -> Forall2 P l l' -> Forall2 Q l l'.
Proof. intros A B P Q l l' H F. induction F; constructor; auto. Qed.
Lemma Forall2_len : forall A B (P : A -> B -> Prop) l l', Forall2 P l l' -> List.length l = List.length l'.
Proof. intros A B P l l' F. induction F; cbn; congruence. Qed.
Lemma Forall2_trans_map : forall A B C (P : A -> B -> Prop) (Q : B -> C -> Prop) l bs cs, Forall2 P l bs -> Forall2 Q bs cs -> Forall2 (fun a c => exists b, P a b /\ Q b c) l cs.
Proof. intros A B C P Q l bs cs F. revert cs. induction F; intros cs G; inversion G; subst; constructor; eauto. Qed.

Lemma mesh_rows_ok : forall T m, sound m -> exists rs, mesh_rows (transform T m) = Ok rs /\ Forall2 (row_of T m) (s_indices m) rs.
Proof.
  intros T m (_ & V & X). unfold mesh_rows, transform. cbn [s_indices s_vertices s_texture]. rewrite transform_all_from_map.
  destruct (mapM_rel _ _ (item (map (transform_from T) (s_vertices m))) (fun i p => exists q, nth_error (s_vertices m) i = Some q /\ p = transform_from T q) (s_indices m)) as (ps & E & F).
  { apply Forall_forall. intros i I. rewrite Forall_forall in V. destruct (item_ok _ (map (transform_from T) (s_vertices m)) i) as (p & E & N); [rewrite map_length; apply V, I|].
    exists p. split; [exact E|]. rewrite nth_error_map in N. destruct (nth_error (s_vertices m) i) as [q|]; [|discriminate N]. cbn in N. injection N as <-. eauto. }
  rewrite E. cbn [bind].
  assert (C : exists cs, match s_texture m with
     | None => Ok (map (fun _ => grey) ps)
     | Some (uvs, t) => if (Nat.eqb (height t) 0 || Nat.eqb (width t) 0)%bool then Ok (map (fun _ => grey) ps)
         else let* temp2 := mapM (item uvs) (s_indices m) in mapM (texel t) temp2 end = Ok cs /\ Forall2 (vertex_color m) (s_indices m) cs).
  { assert (GR : forall Q : nat -> vec -> Prop, (forall i, Q i grey) -> Forall2 Q (s_indices m) (map (fun _ : vec => grey) ps)).
    { intros Q HQ. clear E X V. induction F; cbn [map]; constructor; auto. }
    unfold vertex_color. destruct (s_texture m) as [[uvs t]|].
    - destruct (Nat.eqb_spec (height t) 0) as [H0|H0]; [exists (map (fun _ => grey) ps); split; [reflexivity|]; apply GR; auto|].
      destruct (Nat.eqb_spec (width t) 0) as [W0|W0]; [exists (map (fun _ => grey) ps); split; [reflexivity|]; apply GR; auto|]. cbn [orb].
      destruct X as [|[|X]]; [contradiction|contradiction|].
      destruct (mapM_rel _ _ (item uvs) (fun i uv => nth_error uvs i = Some uv) (s_indices m)) as (us & E1 & F1).
      { apply Forall_forall. intros i I. rewrite Forall_forall in X. apply item_ok, X, I. }
      rewrite E1. cbn [bind].
      destruct (mapM_rel _ _ (texel t) (fun uv c => exists r k, c = pixel t r k /\ wraps (fst uv) (height t) r /\ wraps (snd uv) (width t) k) us) as (cs & E2 & F2).
      { apply Forall_forall. intros uv _. destruct (texel_ok t uv ltac:(lia) ltac:(lia)) as (r & c & E2 & R1 & R2). eauto 8. }
      exists cs. split; [exact E2|]. eapply Forall2_weaken; [|exact (Forall2_trans_map _ _ _ _ _ _ _ _ F1 F2)].
      intros i c ([u v] & N & r & k & -> & R1 & R2). right. exists u, v, r, k. auto.
    - exists (map (fun _ => grey) ps). split; [reflexivity|]. apply GR. reflexivity. }
  destruct C as (cs & EC & FC). rewrite EC. cbn [bind]. eexists. split; [reflexivity|].
  eapply Forall2_weaken; [|exact (Forall2_combine _ _ _ _ _ _ _ _ F FC)]. intros i s (A & B). split; assumption.
Qed.

(** * Triples *)

Definition flat3 {A} (ts : list (A * A * A)) : list A := flat_map (fun t => let '(a, b, c) := t in [a; b; c]) ts.

Lemma list3_ind : forall A (P : list A -> Prop), P [] -> (forall a, P [a]) -> (forall a b, P [a; b]) ->
  (forall a b c l, P l -> P (a :: b :: c :: l)) -> forall l, P l.
Proof.
  intros A P H0 H1 H2 H3. assert (G : forall n l, (List.length l <= n)%nat -> P l).
  { induction n as [|n IH]; intros l L; [destruct l; [exact H0|cbn in L; lia]|]. destruct l as [|a [|b [|c l]]]; auto. apply H3, IH. cbn in L. lia. }
  intro l. apply (G (List.length l)). lia.
Qed.
Lemma mod3_cons : forall n, (S (S (S n)) mod 3 = n mod 3)%nat.
Proof. intro n. replace (S (S (S n))) with (n + 1 * 3)%nat by lia. apply Nat.mod_add. lia. Qed.
Lemma flat3_triples : forall A (l : list A), (List.length l mod 3 = 0)%nat -> l = flat3 (triples l).
Proof. intros A. induction l using list3_ind; intro H; [reflexivity|discriminate H|discriminate H|]. cbn [List.length] in H. rewrite mod3_cons in H. cbn [triples flat3 flat_map app]. do 3 f_equal. apply IHl, H. Qed.
Lemma triples_app : forall A (l l' : list A), (List.length l mod 3 = 0)%nat -> triples (l ++ l') = triples l ++ triples l'.
Proof. intros A l l'. induction l using list3_ind; intro H; [reflexivity|discriminate H|discriminate H|]. cbn [List.length] in H. rewrite mod3_cons in H. cbn [app triples]. rewrite IHl by exact H. reflexivity. Qed.

Definition rel3 {A B} (P : A -> B -> Prop) (t : A * A * A) (t' : B * B * B) : Prop :=
  let '(a, b, c) := t in let '(a', b', c') := t' in P a a' /\ P b b' /\ P c c'.
Lemma Forall2_triples : forall A B (P : A -> B -> Prop) l l', Forall2 P l l' -> Forall2 (rel3 P) (triples l) (triples l').
Proof.
  intros A B P l. induction l using list3_ind; intros l' F; repeat match goal with H : Forall2 _ (_ :: _) _ |- _ => inversion H; subst; clear H end;
    try (inversion F; subst; constructor); cbn [triples]; repeat match goal with H : Forall2 _ [] _ |- _ => inversion H; subst; clear H end; try constructor.
  - split; [assumption|split; assumption].
  - apply IHl; assumption.
Qed.

Lemma stride_flat3 : forall A (ts : list (A * A * A)),
  stride3 (flat3 ts) = map (fun t => fst (fst t)) ts /\ stride3 (tl (flat3 ts)) = map (fun t => snd (fst t)) ts /\ stride3 (tl (tl (flat3 ts))) = map snd ts.
Proof.
  intros A ts. induction ts as [|[[a b] c] ts (I1 & I2 & I3)]; [repeat split|].
  cbn [flat3 flat_map app tl map fst snd]. fold (flat3 ts). split; [|split].
  - cbn [stride3]. rewrite I1. reflexivity.
  - destruct ts as [|[[a' b'] c'] ts]; [reflexivity|]. cbn [flat3 flat_map app] in *. cbn [tl] in I2. cbn [stride3]. f_equal. exact I2.
  - destruct ts as [|[[a' b'] c'] ts]; [reflexivity|]. cbn [flat3 flat_map app] in *. cbn [tl] in I3. cbn [stride3]. f_equal. exact I3.
Qed.

Lemma broadcast_map : forall A B C X (f : A -> B -> C) (g : X -> A) (h : X -> B) l, broadcast f (map g l) (map h l) = Ok (map (fun x => f (g x) (h x)) l).
Proof.
  intros. unfold broadcast. rewrite !map_length, Nat.eqb_refl. f_equal. induction l as [|x l IH]; [reflexivity|]. cbn [map combine fst snd]. rewrite IH. reflexivity.
Qed.

(** The area as the code computes it. *)
Definition area3 (t : corner * corner * corner) : R :=
  let '(a, b, c) := t in let x := cross (vsub (fst a) (fst c)) (vsub (fst b) (fst c)) in 1 / 2 * sqrt (vx x * vx x + vy x * vy x + vz x * vz x).
Lemma areas_flat3 : forall ts, areas (map (fun t => fst (fst t)) ts) (map (fun t => snd (fst t)) ts) (map snd ts) = Ok (map area3 ts).
Proof.
  intro ts. unfold areas. rewrite !broadcast_map. cbn [bind]. rewrite broadcast_map. cbn [bind]. rewrite map_map. f_equal. apply map_ext. intros [[a b] c]. reflexivity.
Qed.
Lemma area3_spec : forall a b c, tri_area (fst a) (fst b) (fst c) (area3 (a, b, c)).
Proof.
  intros [a ca] [b cb] [c cc]. unfold tri_area, area3. cbn [fst]. set (x := cross (vsub a c) (vsub b c)). split.
  - assert (H := sqrt_pos (vx x * vx x + vy x * vy x + vz x * vz x)). lra.
  - assert (S : sqrt (vx x * vx x + vy x * vy x + vz x * vz x) * sqrt (vx x * vx x + vy x * vy x + vz x * vz x) = vx x * vx x + vy x * vy x + vz x * vz x) by (apply sqrt_sqrt; nra).
    replace (4 * (1 / 2 * sqrt (vx x * vx x + vy x * vy x + vz x * vz x) * (1 / 2 * sqrt (vx x * vx x + vy x * vy x + vz x * vz x))))
      with (sqrt (vx x * vx x + vy x * vy x + vz x * vz x) * sqrt (vx x * vx x + vy x * vy x + vz x * vz x)) by field.
    rewrite S. unfold x, cross, vsub, dot. cbn [vx vy vz]. ring.
Qed.
Lemma tri_area_unique : forall a b c x y, tri_area a b c x -> tri_area a b c y -> x = y.
Proof. intros a b c x y (P & E) (Q & F). apply Rsqr_inj; [exact P|exact Q|]. unfold Rsqr. lra. Qed.

(** * Samples of flat faces *)

Definition drawn (draws : nat -> R * R) (t : corner * corner * corner) (s : corner) : Prop :=
  let '(a, b, c) := t in exists k, s = one_sample (draws k) a b c.

Lemma samples_repeat : forall draws A B C n k i rest l, item A i = Ok (fst (fst (l : corner * corner * corner))) -> item B i = Ok (snd (fst l)) -> item C i = Ok (snd l) ->
  samples draws k (repeat i n ++ rest) A B C =
  (let* r := samples draws (k + n) rest A B C in Ok (map (fun j => one_sample (draws (k + j)%nat) (fst (fst l)) (snd (fst l)) (snd l)) (seq 0 n) ++ r)).
Proof.
  intros draws A B C n. induction n as [|n IH]; intros k i rest l HA HB HC; cbn [repeat app].
  - rewrite Nat.add_0_r. cbn [seq map app]. destruct (samples draws k rest A B C); reflexivity.
  - cbn [samples]. rewrite HA, HB, HC. cbn [bind]. rewrite (IH (S k) i rest l HA HB HC). replace (S k + n)%nat with (k + S n)%nat by lia.
    destruct (samples draws (k + S n) rest A B C) as [r|e]; [|reflexivity]. cbn [bind seq map app]. rewrite Nat.add_0_r. do 3 f_equal. rewrite <- seq_shift, map_map. apply map_ext. intro j. do 2 f_equal. lia.
Qed.

Lemma samples_ok : forall draws (cnt : corner * corner * corner -> Z) ts pre k,
  let all := pre ++ ts in
  exists groups, samples draws k (face_ids (List.length pre) (map cnt ts)) (map (fun t => fst (fst t)) all) (map (fun t => snd (fst t)) all) (map snd all) = Ok (concat groups) /\
    Forall2 (fun t g => List.length g = Z.to_nat (cnt t) /\ Forall (drawn draws t) g) ts groups.
Proof.
  intros draws cnt ts. induction ts as [|t ts IH]; intros pre k all; [exists []; split; [reflexivity|constructor]|].
  cbn [map face_ids]. assert (I : forall B (g : corner * corner * corner -> B), item (map g all) (List.length pre) = Ok (g t)).
  { intros B g. unfold item, all. rewrite map_app, nth_error_app2 by (rewrite map_length; lia). rewrite map_length, Nat.sub_diag. reflexivity. }
  rewrite (samples_repeat draws _ _ _ _ _ _ _ t (I _ _) (I _ _) (I _ _)).
  destruct (IH (pre ++ [t]) (k + Z.to_nat (cnt t))%nat) as (gs & E & F). rewrite app_length in E. cbn [List.length] in E. rewrite Nat.add_1_r in E.
  replace ((pre ++ [t]) ++ ts) with all in E by (unfold all; rewrite <- app_assoc; reflexivity). rewrite E. cbn [bind].
  exists (map (fun j => one_sample (draws (k + j)%nat) (fst (fst t)) (snd (fst t)) (snd t)) (seq 0 (Z.to_nat (cnt t))) :: gs). split; [reflexivity|].
  constructor; [|exact F]. rewrite map_length, seq_length. split; [reflexivity|]. apply Forall_forall. intros s H. apply in_map_iff in H. destruct H as (j & <- & _). destruct t as [[a b] c]. exists (k + j)%nat. reflexivity.
Qed.

Lemma sample_flat : forall draws ts density, exists groups, sample_mesh draws (flat3 ts) density = Ok (concat groups) /\
  Forall2 (fun t g => n_samples density (area3 t) (List.length g) /\ Forall (drawn draws t) g) ts groups.
Proof.
  intros draws ts d. unfold sample_mesh. destruct (stride_flat3 _ ts) as (-> & -> & ->). rewrite areas_flat3. cbn [bind]. rewrite map_map.
  destruct (samples_ok draws (fun t => Z.max 1 (trunc (d * area3 t))) ts [] 0) as (gs & E & F). cbn [app List.length] in E. exists gs. split; [exact E|].
  eapply Forall2_weaken; [|exact F]. intros t g (L & D). split; [rewrite L; apply count_spec|exact D].
Qed.

Lemma sampler_flat : forall draws ts density, sampler_mesh draws (flat3 ts) density =
  match ts with [] => Ok (3%nat, []) | _ => let* r := sample_mesh draws (flat3 ts) density in Ok (6%nat, r) end.
Proof.
  intros draws ts d. unfold sampler_mesh, sample_mesh. destruct (stride_flat3 _ ts) as (-> & -> & ->). rewrite areas_flat3. cbn [bind]. rewrite !map_map.
  rewrite (map_ext (fun t => trunc (Rmax 1 (d * area3 t))) (fun t => Z.max 1 (trunc (d * area3 t)))) by (intro; apply counts_agree).
  destruct ts as [|t ts]; [reflexivity|]. cbn [map fold_right].
  assert (P : (0 <= fold_right Z.add 0 (map (fun t => Z.max 1 (trunc (d * area3 t))) ts))%Z) by (induction ts as [|x ts IH]; cbn [map fold_right]; lia).
  match goal with |- context [Z.eqb ?x 0] => destruct (Z.eqb_spec x 0%Z) as [Q|_] end; [lia|reflexivity].
Qed.

(** * Whole models *)

Lemma mesh_rows_all : forall T ms, Forall sound ms -> exists ts, (let* rs := mapM mesh_rows (map (transform T) ms) in Ok (concat rs)) = Ok (flat3 ts) /\
  Forall2 (fun mt t => rel3 (row_of T (fst mt)) (snd mt) t) (all_triangles ms) ts.
Proof.
  intros T ms F. induction F as [|m ms S F (ts & E & H)]; [exists []; split; [reflexivity|constructor]|].
  destruct (mesh_rows_ok T m S) as (rs & ER & HR). cbn [map mapM]. rewrite ER. cbn [bind].
  destruct (mapM mesh_rows (map (transform T) ms)) as [rss|e]; [|discriminate E]. cbn [bind concat] in *. injection E as E. rewrite E.
  assert (L := Forall2_len _ _ _ _ _ HR). destruct S as (L3 & _). rewrite (flat3_triples _ rs) by (rewrite <- L; exact L3). exists (triples rs ++ ts). split.
  - unfold flat3. rewrite flat_map_app. reflexivity.
  - unfold all_triangles. cbn [flat_map]. apply Forall2_app; [|exact H]. assert (G := Forall2_triples _ _ _ _ _ HR). clear -G. induction G; cbn [map]; constructor; auto.
Qed.
Lemma all_rows_ok : forall T ms, ms <> [] -> Forall sound ms -> exists ts, all_rows (map (transform T) ms) = Ok (flat3 ts) /\
  Forall2 (fun mt t => rel3 (row_of T (fst mt)) (snd mt) t) (all_triangles ms) ts.
Proof. intros T ms NE F. destruct (mesh_rows_all T ms F) as (ts & E & H). exists ts. split; [|exact H]. destruct ms; [contradiction|exact E]. Qed.

Lemma transform_id : forall m, transform pose_id m = m.
Proof. intros [i v t]. unfold transform. cbn [s_indices s_vertices s_texture]. rewrite transform_all_from_map. f_equal. rewrite <- (map_id v) at 2. apply map_ext. intro p. unfold transform_from, pose_id. cbn [pR pt]. apply vec_eq; cbn; ring. Qed.

Lemma one_sample_of : forall T mt t r s, rel3 (row_of T (fst mt)) (snd mt) t -> (0 <= fst r < 1) /\ (0 <= snd r < 1) ->
  s = (let '(a, b, c) := t in one_sample r a b c) -> sample_of T mt s.
Proof.
  intros T [m [[i j] k]] [[[a ca] [b cb]] [c cc]] [r1 r2] s (A & B & C) (H1 & H2) ->. cbn [fst snd] in *.
  destruct A as ((p & P & PA) & CA), B as ((q & Q & QB) & CB), C as ((r & R & RC) & CC). cbn [fst snd] in *.
  assert (S0 := sqrt_pos r1). assert (S1 : sqrt r1 <= 1) by (rewrite <- sqrt_1; apply sqrt_le_1_alt; lra).
  exists a, b, c, ca, cb, cc, (1 - sqrt r1), (sqrt r1 * (1 - r2)), (sqrt r1 * r2). split; [exists p, q, r; auto 10|]. split; [exact CA|]. split; [exact CB|]. split; [exact CC|].
  split; [lra|]. split; [apply Rmult_le_pos; lra|]. split; [apply Rmult_le_pos; lra|]. split; [ring|]. split; reflexivity.
Qed.

Lemma corners_of : forall T mt t, rel3 (row_of T (fst mt)) (snd mt) t -> let '(a, b, c) := t in has_corners T mt (fst a) (fst b) (fst c).
Proof. intros T [m [[i j] k]] [[a b] c] (((p & P & PA) & _) & ((q & Q & QB) & _) & ((r & R & RC) & _)). exists p, q, r. auto 10. Qed.

Lemma element_ok : forall draws T ms density, ms <> [] -> Forall sound ms -> uniform draws ->
  exists groups, sample_element draws T ms density = Ok (concat groups) /\
    Forall2 (fun t g => (exists a b c x, has_corners T t a b c /\ tri_area a b c x /\ n_samples density x (List.length g)) /\ Forall (sample_of T t) g) (all_triangles ms) groups.
Proof.
  intros draws T ms d NE F U. unfold sample_element. destruct (all_rows_ok T ms NE F) as (ts & -> & H). cbn [bind].
  destruct (sample_flat draws ts d) as (gs & E & G). exists gs. split; [exact E|]. eapply Forall2_weaken; [|exact (Forall2_trans_map _ _ _ _ _ _ _ _ H G)].
  intros mt g (t & R & N & D). split.
  - assert (C := corners_of T mt t R). destruct t as [[a b] c]. exists (fst a), (fst b), (fst c), (area3 (a, b, c)). split; [exact C|]. split; [apply area3_spec|exact N].
  - eapply Forall_impl; [|exact D]. intros s X. destruct t as [[a b] c]. destruct X as (k & ->). eapply one_sample_of; [exact R|apply U|reflexivity].
Qed.

(** * Counting *)

Lemma Forall2_bounds : forall T d ts gs A, 0 <= d ->
  Forall2 (fun t (g : list corner) => (exists a b c x, has_corners T t a b c /\ tri_area a b c x /\ n_samples d x (List.length g)) /\ Forall (sample_of T t) g) ts gs ->
  total_area T ts A -> d * A - INR (List.length ts) <= INR (List.length (concat gs)) <= d * A + INR (List.length ts).
Proof.
  intros T d ts gs A D F. revert A. induction F as [|t g ts gs ((a & b & c & x & HC & HA & P & N) & _) F IH]; intros A TA; inversion TA; subst.
  - cbn. lra.
  - cbn [concat]. rewrite app_length, plus_INR. change (List.length (t :: ts)) with (S (List.length ts)). rewrite S_INR.
    match goal with H : total_area T ts _ |- _ => specialize (IH _ H) end.
    match goal with H : has_corners T t _ _ _ |- _ => assert (HH := H) end. destruct t as [m [[i j] k]].
    assert (EQ : x = x0).
    { destruct HC as (p & q & r & P1 & P2 & P3 & -> & -> & ->). match goal with H : has_corners T (m, (i, j, k)) a0 b0 c0 |- _ => destruct H as (p' & q' & r' & Q1 & Q2 & Q3 & -> & -> & ->) end.
      rewrite P1 in Q1. rewrite P2 in Q2. rewrite P3 in Q3. injection Q1 as <-. injection Q2 as <-. injection Q3 as <-. eapply tri_area_unique; eassumption. }
    subst x0. assert (M : Rmax 1 (d * x) <= d * x + 1).
    { destruct HA as (X0 & _). assert (0 <= d * x) by (apply Rmult_le_pos; assumption). unfold Rmax. destruct (Rle_dec 1 (d * x)); lra. }
    assert (M' := Rmax_r 1 (d * x)). lra.
Qed.

(** * Convexity *)

Lemma mix_between : forall lo hi x y z a b c, 0 <= x -> 0 <= y -> 0 <= z -> x + y + z = 1 -> lo <= a <= hi -> lo <= b <= hi -> lo <= c <= hi -> lo <= x * a + y * b + z * c <= hi.
Proof.
  intros lo hi x y z a b c X Y Z S A B C.
  assert (L : 0 <= x * (a - lo) + y * (b - lo) + z * (c - lo)) by (repeat apply Rplus_le_le_0_compat; apply Rmult_le_pos; lra).
  assert (H : 0 <= x * (hi - a) + y * (hi - b) + z * (hi - c)) by (repeat apply Rplus_le_le_0_compat; apply Rmult_le_pos; lra).
  assert (E1 : (x + y + z) * lo = lo) by (rewrite S; ring). assert (E2 : (x + y + z) * hi = hi) by (rewrite S; ring). lra.
Qed.
Lemma mix_inside : forall bx x y z a b c, 0 <= x -> 0 <= y -> 0 <= z -> x + y + z = 1 -> inside bx a -> inside bx b -> inside bx c -> inside bx (mix x y z a b c).
Proof.
  intros bx x y z a b c X Y Z S ((A1 & A2 & A3) & A4 & A5 & A6) ((B1 & B2 & B3) & B4 & B5 & B6) ((C1 & C2 & C3) & C4 & C5 & C6).
  assert (HX := mix_between (vx (min_corner bx)) (vx (max_corner bx)) x y z (vx a) (vx b) (vx c) X Y Z S (conj A1 A4) (conj B1 B4) (conj C1 C4)).
  assert (HY := mix_between (vy (min_corner bx)) (vy (max_corner bx)) x y z (vy a) (vy b) (vy c) X Y Z S (conj A2 A5) (conj B2 B5) (conj C2 C5)).
  assert (HZ := mix_between (vz (min_corner bx)) (vz (max_corner bx)) x y z (vz a) (vz b) (vz c) X Y Z S (conj A3 A6) (conj B3 B6) (conj C3 C6)).
  split; (split; [|split]); unfold mix, vadd, smul; cbn [vx vy vz]; lra.
Qed.

(** * Moving *)

Definition move (T : pose) (s : corner) : corner := (transform_from T (fst s), snd s).
Definition move3 (T : pose) (t : corner * corner * corner) := let '(a, b, c) := t in (move T a, move T b, move T c).

Lemma one_sample_move : forall T r a b c, one_sample r (move T a) (move T b) (move T c) = move T (one_sample r a b c).
Proof.
  intros T [r1 r2] [a ca] [b cb] [c cc]. unfold one_sample, move, add_corner, scale_corner. cbn [fst snd]. f_equal. unfold transform_from. generalize (sqrt r1). intro q. apply vec_eq; cbn; ring.
Qed.
Lemma item_map : forall A B (f : A -> B) l i, item (map f l) i = (let* x := item l i in Ok (f x)).
Proof. intros. unfold item. rewrite nth_error_map. destruct (nth_error l i); reflexivity. Qed.
Lemma samples_move : forall T draws ids k A B C, samples draws k ids (map (move T) A) (map (move T) B) (map (move T) C) = (let* r := samples draws k ids A B C in Ok (map (move T) r)).
Proof.
  intros T draws ids. induction ids as [|i ids IH]; intros k A B C; [reflexivity|]. cbn [samples]. rewrite !item_map. destruct (item A i); [|reflexivity]. cbn [bind].
  destruct (item B i); [|reflexivity]. cbn [bind]. destruct (item C i); [|reflexivity]. cbn [bind]. rewrite IH. destruct (samples draws (S k) ids A B C); [|reflexivity]. cbn [bind map]. rewrite one_sample_move. reflexivity.
Qed.
Lemma area_rigid : forall T a b c x, rotation (pR T) -> (tri_area (transform_from T a) (transform_from T b) (transform_from T c) x <-> tri_area a b c x).
Proof.
  intros T a b c x RT. unfold tri_area.
  assert (E : forall u v w, dot (vsub (transform_from T u) (transform_from T w)) (vsub (transform_from T v) (transform_from T w)) = dot (vsub u w) (vsub v w)).
  { intros u v w. replace (vsub (transform_from T u) (transform_from T w)) with (mvec (pR T) (vsub u w)) by (unfold transform_from; vring).
    replace (vsub (transform_from T v) (transform_from T w)) with (mvec (pR T) (vsub v w)) by (unfold transform_from; vring).
    generalize (vsub u w) (vsub v w). intros p q. destruct RT as (O & _).
    assert (D : dot (mvec (pR T) p) (mvec (pR T) q) = dot p (mvec (mmul (mtr (pR T)) (pR T)) q)) by (unfold dot; cbn; ring). rewrite D, O. unfold dot. cbn. ring. }
  rewrite !E. reflexivity.
Qed.
Lemma area3_move : forall T t, rotation (pR T) -> area3 (move3 T t) = area3 t.
Proof.
  intros T [[a b] c] RT. assert (H := area3_spec (move T a) (move T b) (move T c)). change (fst (move T a)) with (transform_from T (fst a)) in H. change (fst (move T b)) with (transform_from T (fst b)) in H. change (fst (move T c)) with (transform_from T (fst c)) in H. rewrite (area_rigid T _ _ _ _ RT) in H.
  exact (tri_area_unique _ _ _ _ _ H (area3_spec a b c)).
Qed.

Lemma mapM_item_map : forall A B (f : A -> B) l idx, mapM (item (map f l)) idx = (let* xs := mapM (item l) idx in Ok (map f xs)).
Proof.
  intros A B f l idx. induction idx as [|i idx IH]; [reflexivity|]. cbn [mapM]. rewrite item_map. destruct (item l i); [|reflexivity]. cbn [bind]. rewrite IH. destruct (mapM (item l) idx); reflexivity.
Qed.
Lemma mesh_rows_move : forall T m, mesh_rows (transform T m) = (let* rs := mesh_rows m in Ok (map (move T) rs)).
Proof.
  intros T m. unfold mesh_rows, transform. cbn [s_indices s_vertices s_texture]. rewrite transform_all_from_map, mapM_item_map. destruct (mapM (item (s_vertices m)) (s_indices m)) as [ps|]; [|reflexivity]. cbn [bind].
  assert (G : map (fun _ => grey) (map (transform_from T) ps) = map (fun _ : vec => grey) ps) by (rewrite map_map; reflexivity). rewrite G.
  match goal with |- (let* cs := ?x in _) = _ => destruct x as [cs|] end; [|reflexivity]. cbn [bind]. clear G. match goal with |- Ok ?x = Ok ?y => assert (E : x = y); [|rewrite E; reflexivity] end. revert cs. induction ps as [|p ps IH]; intros [|c cs]; try reflexivity. cbn [map combine]. rewrite IH. reflexivity.
Qed.
Lemma all_rows_move : forall T ms, all_rows (map (transform T) ms) = (let* rs := all_rows ms in Ok (map (move T) rs)).
Proof.
  intros T ms. unfold all_rows. destruct ms as [|m ms]; [reflexivity|]. change (map (transform T) (m :: ms)) with (transform T m :: map (transform T) ms). generalize dependent m. intro m.
  change (transform T m :: map (transform T) ms) with (map (transform T) (m :: ms)). generalize (m :: ms). clear. intro ms.
  assert (E : mapM mesh_rows (map (transform T) ms) = (let* rs := mapM mesh_rows ms in Ok (map (map (move T)) rs))).
  { induction ms as [|m ms IH]; [reflexivity|]. cbn [map mapM]. rewrite mesh_rows_move. destruct (mesh_rows m); [|reflexivity]. cbn [bind]. rewrite IH. destruct (mapM mesh_rows ms); reflexivity. }
  rewrite E. destruct (mapM mesh_rows ms) as [rs|]; [|reflexivity]. cbn [bind]. rewrite concat_map. reflexivity.
Qed.
Lemma sample_move : forall T draws ts d, rotation (pR T) -> sample_mesh draws (map (move T) (flat3 ts)) d = (let* r := sample_mesh draws (flat3 ts) d in Ok (map (move T) r)).
Proof.
  intros T draws ts d RT. replace (map (move T) (flat3 ts)) with (flat3 (map (move3 T) ts)).
  - unfold sample_mesh. destruct (stride_flat3 _ ts) as (-> & -> & ->). destruct (stride_flat3 _ (map (move3 T) ts)) as (-> & -> & ->). rewrite !areas_flat3. cbn [bind]. rewrite !map_map.
    rewrite (map_ext (fun x => Z.max 1 (trunc (d * area3 (move3 T x)))) (fun x => Z.max 1 (trunc (d * area3 x)))) by (intro x; rewrite area3_move by exact RT; reflexivity).
    rewrite <- samples_move, !map_map. f_equal; apply map_ext; intros [[a b] c]; reflexivity.
  - unfold flat3. induction ts as [|[[a b] c] ts IH]; [reflexivity|]. cbn [map flat_map move3 app]. rewrite IH. reflexivity.
Qed.

(** * Uniformity *)

Lemma mix_unique : forall a b c, cross (vsub b a) (vsub c a) <> vzero -> forall x y z x' y' z', x + y + z = 1 -> x' + y' + z' = 1 -> mix x y z a b c = mix x' y' z' a b c -> y = y' /\ z = z'.
Proof.
  intros a b c N x y z x' y' z' S S' E. set (u := vsub b a) in *. set (v := vsub c a) in *.
  assert (EU : forall x y z, x + y + z = 1 -> mix x y z a b c = vadd a (vadd (smul y u) (smul z v))).
  { intros. unfold mix, u, v. replace x0 with (1 - y0 - z0) by lra. apply vec_eq; unfold cross, vadd, vsub, smul, vzero; cbn [vx vy vz]; ring. }
  rewrite (EU _ _ _ S), (EU _ _ _ S') in E.
  assert (D : vadd (smul (y - y') u) (smul (z - z') v) = vzero).
  { assert (EX := f_equal vx E). assert (EY := f_equal vy E). assert (EZ := f_equal vz E). cbn in EX, EY, EZ. apply vec_eq; cbn; lra. }
  assert (CY : smul (y - y') (cross u v) = vzero).
  { replace (smul (y - y') (cross u v)) with (cross (vadd (smul (y - y') u) (smul (z - z') v)) v) by (unfold cross; apply vec_eq; unfold cross, vadd, vsub, smul, vzero; cbn [vx vy vz]; ring). rewrite D. unfold cross. apply vec_eq; unfold cross, vadd, vsub, smul, vzero; cbn [vx vy vz]; ring. }
  assert (CZ : smul (z - z') (cross u v) = vzero).
  { replace (smul (z - z') (cross u v)) with (cross u (vadd (smul (y - y') u) (smul (z - z') v))) by (unfold cross; apply vec_eq; unfold cross, vadd, vsub, smul, vzero; cbn [vx vy vz]; ring). rewrite D. unfold cross. apply vec_eq; unfold cross, vadd, vsub, smul, vzero; cbn [vx vy vz]; ring. }
  assert (Z : forall k, smul k (cross u v) = vzero -> k = 0).
  { intros k H. destruct (Req_dec k 0) as [|NK]; [assumption|]. exfalso. apply N. assert (HX := f_equal vx H). assert (HY := f_equal vy H). assert (HZ := f_equal vz H). cbn [vx vy vz smul vzero] in HX, HY, HZ.
    apply Rmult_integral in HX, HY, HZ. apply vec_eq; cbn [vx vy vz vzero]; [destruct HX|destruct HY|destruct HZ]; tauto. }
  apply Z in CY. apply Z in CZ. lra.
Qed.

Lemma uniform_region : forall r1 r2 t s a b c, 0 < r1 < 1 -> 0 <= r2 < 1 -> 0 <= t <= 1 -> 0 <= s <= 1 ->
  cross (vsub (fst b) (fst a)) (vsub (fst c) (fst a)) <> vzero ->
  (in_triangle (fst a) (mix (1 - sqrt t) (sqrt t) 0 (fst a) (fst b) (fst c)) (mix (1 - sqrt t) (sqrt t * (1 - s)) (sqrt t * s) (fst a) (fst b) (fst c)) (fst (one_sample (r1, r2) a b c))
   <-> r1 <= t /\ r2 <= s).
Proof.
  intros r1 r2 t s [a ca] [b cb] [c cc] R1 R2 HT HS N. cbn [fst] in *. assert (Q := sqrt_lt_R0 r1 (proj1 R1)). assert (W := sqrt_pos t). set (q := sqrt r1) in *. set (w := sqrt t) in *.
  assert (QQ : q * q = r1) by (apply sqrt_sqrt; lra). assert (WW : w * w = t) by (apply sqrt_sqrt; lra).
  assert (OS : fst (one_sample (r1, r2) (a, ca) (b, cb) (c, cc)) = mix (1 - q) (q * (1 - r2)) (q * r2) a b c) by reflexivity. rewrite OS.
  assert (ME : forall x y z, x + y + z = 1 -> mix x y z a (mix (1 - w) w 0 a b c) (mix (1 - w) (w * (1 - s)) (w * s) a b c) = mix (x + (y + z) * (1 - w)) (y * w + z * w * (1 - s)) (z * w * s) a b c).
  { intros x y z _. unfold mix. apply vec_eq; unfold cross, vadd, vsub, smul, vzero; cbn [vx vy vz]; ring. }
  split.
  - intros (x & y & z & X & Y & Z & S & E). rewrite (ME x y z S) in E. assert (S1 : 1 - q + q * (1 - r2) + q * r2 = 1) by ring. assert (S2 : x + (y + z) * (1 - w) + (y * w + z * w * (1 - s)) + z * w * s = 1) by (replace x with (1 - y - z) by lra; ring). destruct (mix_unique a b c N _ _ _ _ _ _ S1 S2 E) as (E1 & E2).
    assert (QW : q = (y + z) * w) by lra. assert (YZ : (y + z) * w <= 1 * w) by (apply Rmult_le_compat_r; lra). split.
    + rewrite <- QQ, <- WW. apply Rmult_le_compat; lra.
    + apply Rmult_le_reg_l with q; [exact Q|]. rewrite E2, QW. assert (0 <= y * w * s) by (apply Rmult_le_pos; [apply Rmult_le_pos|]; lra). lra.
  - intros (L1 & L2). assert (QW : q <= w) by (apply sqrt_le_1_alt; exact L1). assert (WP : 0 < w) by lra.
    destruct (Rle_lt_or_eq_dec 0 s (proj1 HS)) as [SP|SZ].
    + assert (F : 0 <= r2 / s <= 1).
      { split; [apply Rmult_le_pos; [lra|apply Rlt_le, Rinv_0_lt_compat, SP]|]. apply Rmult_le_reg_r with s; [exact SP|]. unfold Rdiv. rewrite Rmult_assoc, Rinv_l by lra. lra. }
      assert (G : 0 < q / w <= 1).
      { split; [apply Rmult_lt_0_compat; [exact Q|apply Rinv_0_lt_compat, WP]|]. apply Rmult_le_reg_r with w; [exact WP|]. unfold Rdiv. rewrite Rmult_assoc, Rinv_l by lra. lra. }
      exists (1 - q / w), (q / w * (1 - r2 / s)), (q / w * (r2 / s)). split; [lra|]. split; [apply Rmult_le_pos; lra|]. split; [apply Rmult_le_pos; lra|]. split; [ring|].
      rewrite ME by ring. unfold mix. apply vec_eq; cbn; field; lra.
    + subst s. assert (r2 = 0) by lra. subst r2. assert (G : 0 < q / w <= 1).
      { split; [apply Rmult_lt_0_compat; [exact Q|apply Rinv_0_lt_compat, WP]|]. apply Rmult_le_reg_r with w; [exact WP|]. unfold Rdiv. rewrite Rmult_assoc, Rinv_l by lra. lra. }
      exists (1 - q / w), (q / w), 0. split; [lra|]. split; [lra|]. split; [lra|]. split; [ring|]. rewrite ME by ring. unfold mix. apply vec_eq; cbn; field; lra.
Qed.
Lemma region_area : forall t s a b c x, 0 <= t <= 1 -> 0 <= s <= 1 -> tri_area a b c x ->
  tri_area a (mix (1 - sqrt t) (sqrt t) 0 a b c) (mix (1 - sqrt t) (sqrt t * (1 - s)) (sqrt t * s) a b c) (t * s * x).
Proof.
  intros t s a b c x HT HS (P & E). split; [repeat apply Rmult_le_pos; lra|]. assert (WW : sqrt t * sqrt t = t) by (apply sqrt_sqrt; lra). set (w := sqrt t) in *. rewrite <- WW.
  replace (vsub (mix (1 - w) w 0 a b c) a) with (smul w (vsub b a)) by (unfold mix; apply vec_eq; unfold cross, vadd, vsub, smul, vzero; cbn [vx vy vz]; ring).
  replace (vsub (mix (1 - w) (w * (1 - s)) (w * s) a b c) a) with (vadd (smul (w * (1 - s)) (vsub b a)) (smul (w * s) (vsub c a))) by (unfold mix; apply vec_eq; unfold cross, vadd, vsub, smul, vzero; cbn [vx vy vz]; ring).
  replace (4 * (w * w * s * x * (w * w * s * x))) with (w * w * (w * w) * (s * s) * (4 * (x * x))) by ring. rewrite E. unfold dot, vsub, vadd, smul. cbn [vx vy vz]. ring.
Qed.
