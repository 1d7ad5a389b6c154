(** The bounds are the extremes. *)
From Coq Require Import List Bool ZArith QArith Ascii String Lia Lqa.
From Verif.Base Require Import Py.
From Verif.Mesh Require Model.
From Verif.Gltf Require Model Spec Proofs.
From Verif.Doc Require Import Model Facts.
From Verif.Trip Require Import Model Spec Floats Building Adding.
Import ListNotations.
Local Open Scope Z_scope.

Lemma value_float : forall w q, float_value w q -> exists q', float_of w = Finite q' /\ (q' == q)%Q.
Proof.
  intros w q (s & e & f & S & E & F & W & V).
  assert (M : w mod 8388608 = f) by (symmetry; apply Z.mod_unique with (s * 256 + e); lia).
  assert (D : w / 8388608 = s * 256 + e) by (symmetry; apply Z.div_unique with f; lia).
  assert (D2 : w / 8388608 mod 256 = e) by (rewrite D; symmetry; apply Z.mod_unique with s; lia).
  unfold float_of. cbv zeta. rewrite D2, M. destruct (Z.eqb_spec e 255); [lia|]. eexists. split; [reflexivity|]. rewrite Qred_correct, V. clear V.
  assert (N : (2147483648 <=? w) = (s =? 1)). { destruct (Z.leb_spec 2147483648 w), (Z.eqb_spec s 1); try reflexivity; lia. }
  rewrite N. destruct (Z.eqb_spec e 0) as [->|E0].
  - change (Z.max 0 1 - 150) with (-149). destruct (s =? 1); [rewrite inject_Z_opp; ring|ring].
  - replace (Z.max e 1) with e by lia. replace (f + 8388608) with (2 ^ 23 + f) by lia. destruct (s =? 1); [rewrite inject_Z_opp; ring|ring].
Qed.
Lemma value_eq : forall w q q', float_value w q -> (q' == q)%Q -> float_value w q'.
Proof. intros w q q' (s & e & f & S & E & F & W & V) Q. exists s, e, f. repeat (split; [assumption|]). rewrite Q. exact V. Qed.
Lemma value_of_float : forall w q q', float_value w q -> float_of w = Finite q' -> float_value w q' /\ (q' == q)%Q.
Proof. intros w q q' V F. destruct (value_float w q V) as (y & E & Y). rewrite E in F. injection F as ->. split; [eapply value_eq; eassumption|exact Y]. Qed.

Definition some_value (w : word) : Prop := exists q, float_value w q.
Lemma lowest_run : forall l acc, Forall some_value l ->
  exists lo, fold_left (fun a w => if less (float_of w) a then float_of w else a) l (Finite acc) = Finite lo /\ (lo <= acc)%Q /\
    (forall w q, In w l -> float_value w q -> (lo <= q)%Q) /\ (lo = acc \/ exists w, In w l /\ float_value w lo).
Proof.
  intros l acc F. revert acc. induction F as [|w l (q & V) F IH]; intros acc; [exists acc; split; [reflexivity|]; split; [apply Qle_refl|]; split; [intros ? ? []|left; reflexivity]|].
  cbn [fold_left]. destruct (value_float w q V) as (y & E & Y). rewrite E. cbn [less]. destruct (Qle_bool acc y) eqn:C; cbn [negb].
  - destruct (IH acc) as (lo & E' & L & A & O). exists lo. split; [exact E'|]. split; [exact L|]. split.
    + intros w' q' [<-|I] V'; [|apply (A w' q' I V')]. destruct (value_of_float _ _ _ V' E) as [_ EQ]. apply Qle_bool_iff in C. rewrite <- EQ. eapply Qle_trans; eassumption.
    + destruct O as [->|(u & I & U)]; [left; reflexivity|right; exists u; split; [right; exact I|exact U]].
  - destruct (IH y) as (lo & E' & L & A & O). exists lo. split; [exact E'|]. split; [|split].
    + eapply Qle_trans; [exact L|]. destruct (Qlt_le_dec y acc) as [G|G]; [apply Qlt_le_weak, G|]. apply Qle_bool_iff in G. congruence.
    + intros w' q' [<-|I] V'; [|apply (A w' q' I V')]. destruct (value_of_float _ _ _ V' E) as [_ EQ]. rewrite <- EQ. exact L.
    + right. destruct O as [->|(u & I & U)]; [exists w; split; [left; reflexivity|eapply value_eq; [exact V|exact Y]]|exists u; split; [right; exact I|exact U]].
Qed.
Lemma highest_run : forall l acc, Forall some_value l ->
  exists hi, fold_left (fun a w => if less a (float_of w) then float_of w else a) l (Finite acc) = Finite hi /\ (acc <= hi)%Q /\
    (forall w q, In w l -> float_value w q -> (q <= hi)%Q) /\ (hi = acc \/ exists w, In w l /\ float_value w hi).
Proof.
  intros l acc F. revert acc. induction F as [|w l (q & V) F IH]; intros acc; [exists acc; split; [reflexivity|]; split; [apply Qle_refl|]; split; [intros ? ? []|left; reflexivity]|].
  cbn [fold_left]. destruct (value_float w q V) as (y & E & Y). rewrite E. cbn [less]. destruct (Qle_bool y acc) eqn:C; cbn [negb].
  - destruct (IH acc) as (hi & E' & L & A & O). exists hi. split; [exact E'|]. split; [exact L|]. split.
    + intros w' q' [<-|I] V'; [|apply (A w' q' I V')]. destruct (value_of_float _ _ _ V' E) as [_ EQ]. apply Qle_bool_iff in C. rewrite <- EQ. eapply Qle_trans; eassumption.
    + destruct O as [->|(u & I & U)]; [left; reflexivity|right; exists u; split; [right; exact I|exact U]].
  - destruct (IH y) as (hi & E' & L & A & O). exists hi. split; [exact E'|]. split; [|split].
    + eapply Qle_trans; [|exact L]. destruct (Qlt_le_dec acc y) as [G|G]; [apply Qlt_le_weak, G|]. apply Qle_bool_iff in G. congruence.
    + intros w' q' [<-|I] V'; [|apply (A w' q' I V')]. destruct (value_of_float _ _ _ V' E) as [_ EQ]. rewrite <- EQ. exact L.
    + right. destruct O as [->|(u & I & U)]; [exists w; split; [left; reflexivity|eapply value_eq; [exact V|exact Y]]|exists u; split; [right; exact I|exact U]].
Qed.
Lemma column_extremes : forall l, l <> [] -> Forall moderate l -> exists lo hi, lowest l = Finite lo /\ highest l = Finite hi /\ extremes l lo hi.
Proof.
  intros l N M. assert (F : Forall some_value l) by (eapply Forall_impl; [|exact M]; intros w (q & V & _); exists q; exact V).
  destruct (lowest_run l 2147483648 F) as (lo & E1 & _ & A1 & O1). destruct (highest_run l (-2147483648) F) as (hi & E2 & _ & A2 & O2).
  exists lo, hi. split; [exact E1|]. split; [exact E2|]. destruct l as [|w l]; [contradiction|]. inversion M as [|? ? (q & V & QL & QH) _]; subst.
  split; [|split].
  - destruct O1 as [->|O1]; [|exact O1]. exists w. split; [left; reflexivity|]. eapply value_eq; [exact V|]. apply Qle_antisym; [apply (A1 w q (or_introl eq_refl) V)|exact QH].
  - destruct O2 as [->|O2]; [|exact O2]. exists w. split; [left; reflexivity|]. eapply value_eq; [exact V|]. apply Qle_antisym; [exact QL|apply (A2 w q (or_introl eq_refl) V)].
  - intros u y I U. split; [apply (A1 u y I U)|apply (A2 u y I U)].
Qed.
Lemma vec3_extremes : forall l, l <> [] -> Forall (fun v => Forall moderate (coordinates3 v)) l ->
  exists lo hi, vec3_bounds l = Some (lo, hi) /\ List.length lo = 3%nat /\ List.length hi = 3%nat /\ forall k, (k < 3)%nat -> extremes (column k l) (nth k lo 0%Q) (nth k hi 0%Q).
Proof.
  intros l N M.
  assert (C : forall k, (k < 3)%nat -> exists lo hi, lowest (column k l) = Finite lo /\ highest (column k l) = Finite hi /\ extremes (column k l) lo hi).
  { intros k K. apply column_extremes; [destruct l; [contradiction|discriminate]|]. unfold column. apply Forall_map. eapply Forall_impl; [|exact M]. intros [[x y] z] F. cbn [coordinates3] in F |- *.
    rewrite !Forall_cons_iff in F. destruct F as (X & Y & Z & _). destruct k as [|[|[|k]]]; [exact X|exact Y|exact Z|lia]. }
  destruct (C 0%nat ltac:(lia)) as (l0 & h0 & A0 & B0 & E0). destruct (C 1%nat ltac:(lia)) as (l1 & h1 & A1 & B1 & E1). destruct (C 2%nat ltac:(lia)) as (l2 & h2 & A2 & B2 & E2).
  assert (K0 : map (fun v : vec3 => fst (fst v)) l = column 0 l) by (apply map_ext; intros [[? ?] ?]; reflexivity).
  assert (K1 : map (fun v : vec3 => snd (fst v)) l = column 1 l) by (apply map_ext; intros [[? ?] ?]; reflexivity).
  assert (K2 : map (fun v : vec3 => snd v) l = column 2 l) by (apply map_ext; intros [[? ?] ?]; reflexivity).
  exists [l0; l1; l2], [h0; h1; h2]. split; [|split; [reflexivity|split; [reflexivity|]]].
  - unfold vec3_bounds, columns_bounds. rewrite K0, K1, K2. cbn [map]. rewrite A0, A1, A2, B0, B1, B2. reflexivity.
  - intros [|[|[|k]]] K; [exact E0|exact E1|exact E2|lia].
Qed.

(** * The accessor of a mesh *)
Lemma push_get : forall A (L : layout A) bounds first target g vals g' i, pushData L bounds first target g vals = Ok (g', i) ->
  i = len (accessors g) /\ meshes g' = meshes g /\ exists ac lo hi, accessors g' = accessors g ++ [ac] /\ bounds vals = Some (lo, hi) /\ ac_min ac = lo /\ ac_max ac = hi /\ ac_count ac = len vals.
Proof.
  intros A L bounds first target g vals g' i E. unfold pushData in E. destruct (first && _); [discriminate E|]. destruct (buffers g); [discriminate E|]. destruct (bounds vals) as [[lo hi]|]; [|discriminate E].
  injection E as <- <-. split; [reflexivity|]. split; [reflexivity|]. do 3 eexists. fields. repeat split.
Qed.
(** The mesh was added last, with this accessor. *)
Definition described (g : model) (key : string) (ac : accessor) : Prop :=
  exists ms e p i, meshes g = ms ++ [e] /\ me_primitives e = [p] /\ get key (pr_attributes p) = Some i /\ at_ (accessors g) i = Ok ac.
Lemma at_inside : forall A (l : list A) y r, at_ (l ++ y :: r) (len l) = Ok y.
Proof.
  intros A l y r. apply Gltf.Proofs.at_Ok. rewrite len_app. assert (P := len_pos _ l). assert (Q := len_pos _ r). assert (X : len (y :: r) = 1 + len r) by (unfold Mesh.Model.size; cbn [List.length]; lia).
  split; [lia|]. unfold Mesh.Model.size. rewrite Nat2Z.id. rewrite nth_error_app2, Nat.sub_diag by lia. reflexivity.
Qed.
Lemma prim_described : forall g t g', addPrimitiveMesh g t = Ok g' -> exists ac lo hi ms mt i nn pp, vec3_bounds (Mesh.Model.vertices (geo t)) = Some (lo, hi) /\ ac_min ac = lo /\ ac_max ac = hi /\
  ac_count ac = len (Mesh.Model.vertices (geo t)) /\ meshes g' = ms ++ [Mesh "" [Primitive [("NORMAL"%string, nn); ("POSITION"%string, pp)] mt i 4 [] VNull] [] [] [] VNull] /\ at_ (accessors g') pp = Ok ac.
Proof.
  intros g t g' E. unfold addPrimitiveMesh in E. step E p E0. destruct p as [g1 i]. step E p E1. destruct p as [g2 v]. step E p E2. destruct p as [g3 n]. injection E as <-.
  apply push_get in E0. destruct E0 as (-> & _ & a0 & _ & _ & X0 & _). apply push_get in E1. destruct E1 as (-> & _ & a1 & lo & hi & X1 & B1 & L1 & H1 & C1). apply push_get in E2. destruct E2 as (-> & _ & a2 & _ & _ & X2 & _).
  exists a1, lo, hi. do 5 eexists. split; [exact B1|]. split; [exact L1|]. split; [exact H1|]. split; [exact C1|]. fields. split; [reflexivity|]. rewrite X2, X1, <- app_assoc. apply at_inside.
Qed.
Lemma at_more : forall A (l r : list A) i y, at_ l i = Ok y -> at_ (l ++ r) i = Ok y.
Proof.
  intros A l r i y E. apply Gltf.Proofs.at_Ok in E. destruct E as [I N]. apply Gltf.Proofs.at_Ok. rewrite len_app. assert (P := len_pos _ r). split; [lia|]. rewrite nth_error_app1; [exact N|]. apply nth_error_Some. congruence.
Qed.
Lemma map_described : forall key t g mt g' mt', add_map key t (g, mt) = Ok (g', mt') -> accessors g' = accessors g /\ meshes g' = meshes g.
Proof.
  intros key t g mt g' mt' E. unfold add_map in E. destruct (Gltf.Model.empty t); [injection E as <- <-; split; reflexivity|]. destruct (get key (ma_values mt)); [|discriminate E]. injection E as <- <-. split; reflexivity.
Qed.
Lemma add_described : forall g t g', add_mesh g t = Ok g' -> exists ac lo hi, described g' "POSITION" ac /\ vec3_bounds (Mesh.Model.vertices (geo t)) = Some (lo, hi) /\ ac_min ac = lo /\ ac_max ac = hi /\
  ac_count ac = len (Mesh.Model.vertices (geo t)).
Proof.
  intros g t g' E. unfold add_mesh in E. destruct (tex t) as [[[uv color] rough]|].
  - unfold addTexturedPrimitiveMesh in E. step E g1 E1. apply prim_described in E1. destruct E1 as (ac & lo & hi & ms & mt & i & nn & pp & B & L & H & C & M & A).
    step E p E2. destruct p as [g2 u]. apply push_get in E2. destruct E2 as (-> & M2 & a2 & _ & _ & X2 & _). rewrite M2, M, last_last in E. cbn [me_primitives bind pr_attributes] in E. rewrite removelast_last in E.
    step E q E3. destruct q as [g3 m3]. apply map_described in E3. step E q E4. destruct q as [g4 m4]. apply map_described in E4. injection E as <-. destruct E3 as [A3 M3], E4 as [A4 M4]. revert A3 M3 A4 M4. fields. intros A3 M3 A4 M4.
    exists ac, lo, hi. split; [|repeat split; assumption]. unfold described. fields. rewrite M4, M3, A4, A3, X2. cbn [removelast app me_name me_weights me_targets me_extensions me_extras pr_material pr_indices pr_mode pr_targets pr_extras].
    do 4 eexists. split; [reflexivity|]. split; [reflexivity|]. split; [reflexivity|]. apply at_more, A.
  - apply prim_described in E. destruct E as (ac & lo & hi & ms & mt & i & nn & pp & B & L & H & C & M & A). exists ac, lo, hi. split; [|repeat split; assumption].
    do 4 eexists. split; [exact M|]. split; [reflexivity|]. split; [reflexivity|]. exact A.
Qed.
