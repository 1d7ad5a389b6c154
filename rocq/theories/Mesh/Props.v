(** C35-C39 and C62-C64: meshes. *)
From Coq Require Import List Bool ZArith Reals Lra Lia.
From Verif.Base Require Import Py PyFacts Vec.
From Verif.Mesh Require Import Model Spec Proofs Normals.
Import ListNotations.
Local Open Scope Z_scope.

(** * C35 *)

(** Merging two meshes whose first k vertices agree. *)
Theorem C35_merge : forall V N (m1 m2 : mesh V N) k,
  well_formed m1 -> well_formed m2 -> agree k (vertices m1) (vertices m2) ->
  size (vertices m1) + size (vertices m2) - k <= 4294967296 ->
  exists m, merge m1 m2 k = Ok m /\ well_formed m /\
    size (vertices m) = size (vertices m1) + size (vertices m2) - k /\
    (exists rest, indices m = indices m1 ++ rest) /\
    (exists rest, vertices m = vertices m1 ++ rest) /\
    triangles (indices m) (vertices m) = triangles (indices m1) (vertices m1) ++ triangles (indices m2) (vertices m2) /\
    (agree k (normals m1) (normals m2) ->
     triangles (indices m) (normals m) = triangles (indices m1) (normals m1) ++ triangles (indices m2) (normals m2)).
Proof.
  intros V N m1 m2 k W1 W2 AG B. assert (W1' := W1). assert (W2' := W2). destruct W1' as (L1 & R1 & E1 & B1). destruct W2' as (L2 & R2 & E2 & B2).
  assert (K := AG). destruct K as (K1 & K2 & _).
  assert (E := merge_eq m1 m2 k E2 ltac:(lia)). eexists. split; [exact E|]. split; [eapply merged_well_formed; [exact W1|exact W2|exact K1|exact K2|exact B|eassumption]|].
  cbn [indices vertices normals]. split; [rewrite size_app, size_skipn by lia; lia|]. split; [eauto|]. split; [eauto|].
  split; [apply triangles_merged; auto|]. intro AN.
  assert (SN1 : size (normals m1) = size (vertices m1)) by (unfold size; lia).
  assert (SN2 : size (normals m2) = size (vertices m2)) by (unfold size; lia).
  rewrite <- SN1. apply triangles_merged; auto; rewrite ?SN1, ?SN2; auto.
Qed.

(** Texture coordinates follow, if every vertex has one. *)
Theorem C35_textured_merge : forall V N T (m1 m2 : tmesh V N T) k,
  fully_textured m1 -> fully_textured m2 ->
  agree k (vertices (base m1)) (vertices (base m2)) -> agree k (uvs m1) (uvs m2) ->
  size (vertices (base m1)) + size (vertices (base m2)) - k <= 4294967296 ->
  exists m, tmerge m1 m2 k = Ok m /\ merge (base m1) (base m2) k = Ok (base m) /\ fully_textured m /\
    triangles (indices (base m)) (uvs m) =
      triangles (indices (base m1)) (uvs m1) ++ triangles (indices (base m2)) (uvs m2).
Proof.
  intros V N T m1 m2 k (W1 & U1) (W2 & U2) AG AU B. assert (K := AG). destruct K as (K1 & K2 & _).
  assert (W1' := W1). assert (W2' := W2). destruct W1' as (L1 & R1 & E1 & B1). destruct W2' as (L2 & R2 & E2 & B2).
  assert (E := tmerge_eq m1 m2 k E2 U2 ltac:(lia)). assert (F := merge_eq (base m1) (base m2) k E2 ltac:(lia)).
  eexists. split; [exact E|]. cbn [base]. split; [exact F|].
  assert (SU1 : size (uvs m1) = size (vertices (base m1))) by (unfold size; lia).
  assert (SU2 : size (uvs m2) = size (vertices (base m2))) by (unfold size; lia).
  split.
  - split; cbn [base uvs]; [eapply merged_well_formed; [exact W1|exact W2|exact K1|exact K2|exact B|eassumption]|]. cbn [vertices]. rewrite !app_length, !skipn_length. lia.
  - cbn [uvs indices]. rewrite <- SU1. apply triangles_merged; auto; rewrite ?SU1, ?SU2; auto.
Qed.

(** Meshes may have fewer texture coordinates than vertices; then merging gives
    corners of the second mesh the wrong texture coordinate. *)
Theorem C35_partial_texture_refuted : exists (m1 m2 m : tmesh nat nat nat),
  well_formed (base m1) /\ fully_textured m2 /\ size (uvs m1) <= size (vertices (base m1)) /\
  tmerge m1 m2 0 = Ok m /\
  triangles (indices (base m)) (vertices (base m)) =
    triangles (indices (base m1)) (vertices (base m1)) ++ triangles (indices (base m2)) (vertices (base m2)) /\
  triangles (indices (base m)) (uvs m) <>
    triangles (indices (base m1)) (uvs m1) ++ triangles (indices (base m2)) (uvs m2).
Proof.
  exists (TMesh (Mesh [0; 1; 2] [10; 11; 12]%nat [0; 0; 0]%nat) []), (TMesh (Mesh [0; 1; 2] [20; 21; 22]%nat [0; 0; 0]%nat) [7; 8; 9]%nat).
  eexists. split; [|split; [|split; [|split; [|split]]]].
  - split; [exists 1%nat; reflexivity|]. split; [|split; [reflexivity|cbn; lia]]. cbn. intros i H. intuition lia.
  - split; [|reflexivity]. split; [exists 1%nat; reflexivity|]. split; [|split; [reflexivity|cbn; lia]]. cbn. intros i H. intuition lia.
  - cbn. lia.
  - reflexivity.
  - reflexivity.
  - vm_compute. discriminate.
Qed.

(** Replacing the geometry gives the geometry of the other mesh, exactly. *)
Theorem C35_replace : forall V N T (m1 m2 : mesh V N) (t1 t2 : tmesh V N T),
  well_formed m2 -> fully_textured t2 -> replaceGeometry m1 m2 = Ok m2 /\ treplaceGeometry t1 t2 = Ok t2.
Proof.
  intros V N T m1 m2 t1 t2 W2 (WT & UT).
  assert (MV : forall s (idx : list Z), (forall i, In i idx -> 0 <= i < s) -> s <= 4294967296 -> map (moved 0 0) idx = idx).
  { intros s idx R B. rewrite <- (map_id idx) at 2. apply map_ext_in. intros i Hi. specialize (R i Hi). rewrite moved_eq by lia.
    destruct (Z.ltb_spec i 0); lia. }
  split.
  - unfold replaceGeometry. destruct W2 as (_ & R & E & B). rewrite merge_eq by (exact E || (split; [lia|apply size_nonneg])).
    cbn [indices vertices normals app]. change (size (@nil V)) with 0. rewrite (MV (size (vertices m2))) by auto. destruct m2; reflexivity.
  - unfold treplaceGeometry. destruct WT as (_ & R & E & B). rewrite tmerge_eq by (exact E || exact UT || (split; [lia|apply size_nonneg])).
    cbn [base uvs indices vertices normals app]. change (size (@nil V)) with 0. rewrite (MV (size (vertices (base t2)))) by auto.
    destruct t2 as [[] ?]; reflexivity.
Qed.

Example C35_example : exists m, merge (Mesh [0; 1; 2] [10; 11; 12]%nat [1; 1; 1]%nat) (Mesh [0; 1; 2; 1; 0; 3] [10; 11; 22; 23]%nat [1; 1; 2; 2]%nat) 2 = Ok m /\
  indices m = [0; 1; 2; 0; 1; 3; 1; 0; 4] /\ vertices m = [10; 11; 12; 22; 23]%nat /\ normals m = [1; 1; 1; 2; 2]%nat.
Proof. eexists. repeat split. Qed.

(** * C36 *)

Section Renumber.
  Variables (V N T : Type) (jv : nat -> V) (jn : nat -> N) (jt : nat -> T).

  (** All vertices renumbered injectively into the new block, or none. *)
  Theorem C36_full_or_none : forall (m : tmesh V N T) n ren,
    fully_textured m -> 0 <= n -> (forall r, In r ren -> 0 <= r < n) -> NoDup ren ->
    ren = [] \/ size ren = size (vertices (base m)) ->
    size (vertices (base m)) + n <= 4294967296 ->
    exists m', renumber jv jn jt m n ren = Ok m' /\ fully_textured m' /\
      size (vertices (base m')) = n + size (vertices (base m)) - size ren /\
      triangles (indices (base m')) (vertices (base m')) = triangles (indices (base m)) (vertices (base m)) /\
      triangles (indices (base m')) (normals (base m')) = triangles (indices (base m)) (normals (base m)) /\
      triangles (indices (base m')) (uvs m') = triangles (indices (base m)) (uvs m).
  Proof.
    intros m n ren FT N0 RR ND OR B. assert (FT' := FT). destruct FT' as (((k & L) & R & EN & B1) & EU).
    assert (SR : size ren <= size (vertices (base m))) by (destruct OR as [->|E]; [apply size_nonneg|lia]).
    destruct (renumber_ok V N T jv jn jt m n ren FT N0 RR ND SR B) as (m' & E & EI & Ev & En & Et & S & Ln & Lt).
    exists m'. split; [exact E|].
    assert (RG : forall i, In i (indices (base m)) -> 0 <= renamed n ren i < n + size (vertices (base m)) - size ren).
    { intros i Hi. specialize (R i Hi). destruct OR as [->|Q].
      - unfold renamed. change (size []) with 0. destruct (Z.ltb_spec i 0); lia.
      - assert (X := renamed_full V jv n ren _ _ i N0 RR ND Q Ev R). lia. }
    assert (REF : forall A (junk : nat -> A) b l, size b = size (vertices (base m)) -> assemble junk n ren b = Ok l ->
      forall i, In i (indices (base m)) -> refers l (renamed n ren i) = refers b i).
    { intros A junk b l Sb El i Hi. specialize (R i Hi). destruct OR as [->|Q].
      - rewrite (renamed_rest A junk n [] b l) by (auto; change (size []) with 0; lia). reflexivity.
      - apply (renamed_full A junk n ren b l); auto; lia. }
    split; [|split; [exact S|]].
    - split; [|exact Lt]. split; [exists k; rewrite EI, map_length; exact L|]. split; [|split; [exact Ln|]].
      + intros i Hi. rewrite EI in Hi. apply in_map_iff in Hi. destruct Hi as (j & <- & Hj). rewrite S. apply RG, Hj.
      + assert (SN := size_nonneg _ ren). lia.
    - rewrite EI. split; [|split].
      + apply triangles_renamed. apply (REF _ jv); auto.
      + apply triangles_renamed. apply (REF _ jn); auto. unfold size; lia.
      + apply triangles_renamed. apply (REF _ jt); auto. unfold size; lia.
  Qed.

  (** In general the corners inside the renumbered block keep their vertex, and a
      corner i beyond it gets vertex i + number of renumbered ones, or none. *)
  Theorem C36_general : forall (m : tmesh V N T) n ren,
    fully_textured m -> 0 <= n -> (forall r, In r ren -> 0 <= r < n) -> NoDup ren ->
    size ren <= size (vertices (base m)) -> size (vertices (base m)) + n <= 4294967296 ->
    exists m', renumber jv jn jt m n ren = Ok m' /\
      Forall2 (fun i i' => refers (vertices (base m')) i' =
                           refers (vertices (base m)) (if i <? size ren then i else i + size ren))
              (indices (base m)) (indices (base m')).
  Proof.
    intros m n ren FT N0 RR ND SR B. assert (FT' := FT). destruct FT' as (((k & L) & R & EN & B1) & EU).
    destruct (renumber_ok V N T jv jn jt m n ren FT N0 RR ND SR B) as (m' & E & EI & Ev & _).
    exists m'. split; [exact E|]. rewrite EI. clear L E EI. induction (indices (base m)) as [|i idx IH]; [constructor|].
    cbn [map]. constructor; [|apply IH; intros j Hj; apply R; right; exact Hj].
    destruct (Z.ltb_spec i (size ren)) as [Lt|Ge].
    - destruct (assemble_ok V jv n ren (vertices (base m)) N0 RR ND ltac:(unfold size in *; lia)) as (l & El & _ & F & _).
      assert (l = vertices (base m')) by congruence. subst l. assert (I := R i (or_introl eq_refl)).
      unfold renamed. destruct (Z.ltb_spec i (size ren)); [|lia].
      rewrite (F (Z.to_nat i)); [unfold refers; destruct (Z.ltb_spec i 0); [lia|reflexivity]|].
      apply nth_error_nth'. unfold size in *. lia.
    - rewrite (renamed_rest V jv n ren _ _ i N0 RR ND SR Ev Ge). f_equal. lia.
  Qed.
End Renumber.

(** Renumbering some but not all vertices breaks triangles: here a triangle that
    avoided the renumbered vertex ends up with two other vertices and a missing one. *)
Theorem C36_partial_refuted : exists (m m' : tmesh nat nat nat) n ren,
  fully_textured m /\ (forall r, In r ren -> 0 <= r < n) /\ NoDup ren /\ 0 < size ren < size (vertices (base m)) /\
  renumber (fun _ => 0%nat) (fun _ => 0%nat) (fun _ => 0%nat) m n ren = Ok m' /\
  triangles (indices (base m)) (vertices (base m)) = [(Some 11%nat, Some 12%nat, Some 13%nat)] /\
  triangles (indices (base m')) (vertices (base m')) = [(Some 12%nat, Some 13%nat, None)].
Proof.
  exists (TMesh (Mesh [1; 2; 3] [10; 11; 12; 13]%nat [0; 0; 0; 0]%nat) [0; 0; 0; 0]%nat). eexists. exists 2, [1].
  split; [|split; [|split; [|split; [|split; [|split]]]]].
  - split; [|reflexivity]. split; [exists 1%nat; reflexivity|]. split; [|split; [reflexivity|cbn; lia]]. cbn. intros i H. intuition lia.
  - cbn. intros r [<-|[]]. lia.
  - constructor; [intros []|constructor].
  - cbn. lia.
  - reflexivity.
  - reflexivity.
  - reflexivity.
Qed.

(** * C37 *)

(** Corner data of a fully textured mesh. *)
Definition shows {V N T} (m : tmesh V N T) tv tn tt : Prop :=
  fully_textured m /\ triangles (indices (base m)) (vertices (base m)) = tv /\
  triangles (indices (base m)) (normals (base m)) = tn /\ triangles (indices (base m)) (uvs m) = tt.

Section Quadrants.
  Variables (V N T : Type) (jv : nat -> V) (jn : nat -> N) (jt : nat -> T).

  Lemma renumber_shows : forall (m : tmesh V N T) n ren tv tn tt v w t, shows m tv tn tt ->
    0 <= n <= 9 -> (forall r, In r ren -> 0 <= r < n) -> NoDup ren -> size ren = size (vertices (base m)) -> size (vertices (base m)) <= 9 ->
    assemble jv n ren (vertices (base m)) = Ok v -> assemble jn n ren (normals (base m)) = Ok w -> assemble jt n ren (uvs m) = Ok t ->
    exists m', renumber jv jn jt m n ren = Ok m' /\ shows m' tv tn tt /\ vertices (base m') = v /\ normals (base m') = w /\ uvs m' = t.
  Proof.
    intros m n ren tv tn tt v w t (FT & <- & <- & <-) N0 RR ND SR S9 Ev Ew Et.
    destruct (C36_full_or_none V N T jv jn jt m n ren FT ltac:(lia) RR ND (or_intror SR) ltac:(lia)) as (m' & E & FT' & _ & T1 & T2 & T3).
    destruct (renumber_ok V N T jv jn jt m n ren FT ltac:(lia) RR ND ltac:(lia) ltac:(lia)) as (m2 & E2 & _ & F1 & F2 & F3 & _).
    assert (m2 = m') by congruence. subst m2. exists m'. split; [exact E|]. split; [split; auto|].
    repeat split; congruence.
  Qed.

  Lemma merge_shows : forall (m1 m2 : tmesh V N T) k tv tn tt tv' tn' tt', shows m1 tv tn tt -> shows m2 tv' tn' tt' ->
    size (vertices (base m1)) <= 9 -> size (vertices (base m2)) <= 9 ->
    agree k (vertices (base m1)) (vertices (base m2)) -> agree k (normals (base m1)) (normals (base m2)) -> agree k (uvs m1) (uvs m2) ->
    exists m', tmerge m1 m2 k = Ok m' /\ shows m' (tv ++ tv') (tn ++ tn') (tt ++ tt') /\
      vertices (base m') = vertices (base m1) ++ skipn (Z.to_nat k) (vertices (base m2)) /\
      normals (base m') = normals (base m1) ++ skipn (Z.to_nat k) (normals (base m2)) /\
      uvs m' = uvs m1 ++ skipn (Z.to_nat k) (uvs m2).
  Proof.
    intros m1 m2 k tv tn tt tv' tn' tt' (F1 & <- & <- & <-) (F2 & <- & <- & <-) S1 S2 AV AN AU.
    assert (K := AV). destruct K as (K1 & K2 & _).
    destruct (C35_textured_merge V N T m1 m2 k F1 F2 AV AU ltac:(lia)) as (m & E & Eb & FT & TU).
    destruct (C35_merge V N (base m1) (base m2) k (proj1 F1) (proj1 F2) AV ltac:(lia)) as (mb & E' & _ & _ & _ & _ & TV & TN).
    assert (mb = base m) by congruence. subst mb.
    exists m. split; [exact E|]. split; [split; [exact FT|split; [exact TV|split; [exact (TN AN)|exact TU]]]|].
    destruct F2 as ((_ & _ & E2 & _) & U2). rewrite tmerge_eq in E by (auto; lia). injection E as <-. auto.
  Qed.

End Quadrants.

Ltac nodup := repeat (constructor; [cbn; intuition discriminate|]); constructor.
Ltac range := cbn; intros; intuition lia.
Ltac agrees := split; [cbn; lia|split; [cbn; lia|]]; let i := fresh "i" in let H := fresh "H" in
    intros i H; assert (Q : i = 0 \/ i = 1 \/ i = 2) by lia; destruct Q as [->|[->| ->]]; try lia; reflexivity.

(** Nine vertices in the layout
        2 7 3
        4 6 8
        0 5 1
    and four quadrant meshes on them, with any triangles. *)
Theorem C37_quadrants : forall V N T (jv : nat -> V) (jn : nat -> N) (jt : nat -> T)
  (v0 v1 v2 v3 v4 v5 v6 v7 v8 : V) (n0 n1 n2 n3 n4 n5 n6 n7 n8 : N) (t0 t1 t2 t3 t4 t5 t6 t7 t8 : T) i0 i1 i2 i3,
  let q0 := TMesh (Mesh i0 [v0; v5; v4; v6] [n0; n5; n4; n6]) [t0; t5; t4; t6] in
  let q1 := TMesh (Mesh i1 [v5; v1; v6; v8] [n5; n1; n6; n8]) [t5; t1; t6; t8] in
  let q2 := TMesh (Mesh i2 [v4; v6; v2; v7] [n4; n6; n2; n7]) [t4; t6; t2; t7] in
  let q3 := TMesh (Mesh i3 [v6; v8; v7; v3] [n6; n8; n7; n3]) [t6; t8; t7; t3] in
  well_formed (base q0) -> well_formed (base q1) -> well_formed (base q2) -> well_formed (base q3) ->
  exists m, merge_quadrant_meshes jv jn jt q0 q1 q2 q3 = Ok m /\ fully_textured m /\
    vertices (base m) = [v0; v1; v2; v3; v4; v5; v6; v7; v8] /\
    normals (base m) = [n0; n1; n2; n3; n4; n5; n6; n7; n8] /\
    uvs m = [t0; t1; t2; t3; t4; t5; t6; t7; t8] /\
    triangles (indices (base m)) (vertices (base m)) =
      flat_map (fun q => triangles (indices (base q)) (vertices (base q))) [q0; q1; q2; q3] /\
    triangles (indices (base m)) (normals (base m)) =
      flat_map (fun q => triangles (indices (base q)) (normals (base q))) [q0; q1; q2; q3] /\
    triangles (indices (base m)) (uvs m) =
      flat_map (fun q => triangles (indices (base q)) (uvs q)) [q0; q1; q2; q3].
Proof.
  intros V N T jv jn jt v0 v1 v2 v3 v4 v5 v6 v7 v8 n0 n1 n2 n3 n4 n5 n6 n7 n8 t0 t1 t2 t3 t4 t5 t6 t7 t8 i0 i1 i2 i3 q0 q1 q2 q3 W0 W1 W2 W3.
  assert (S0 : shows q0 _ _ _) by (split; [split; [exact W0|reflexivity]|split; [reflexivity|split; reflexivity]]).
  assert (S1 : shows q1 _ _ _) by (split; [split; [exact W1|reflexivity]|split; [reflexivity|split; reflexivity]]).
  assert (S2 : shows q2 _ _ _) by (split; [split; [exact W2|reflexivity]|split; [reflexivity|split; reflexivity]]).
  assert (S3 : shows q3 _ _ _) by (split; [split; [exact W3|reflexivity]|split; [reflexivity|split; reflexivity]]).
  unfold merge_quadrant_meshes.
  destruct (renumber_shows V N T jv jn jt q0 4 [2; 0; 3; 1] _ _ _ [v5; v6; v0; v4] [n5; n6; n0; n4] [t5; t6; t0; t4] S0 ltac:(lia) ltac:(range) ltac:(nodup) eq_refl ltac:(cbn; lia) eq_refl eq_refl eq_refl)
    as (a0 & -> & A0 & V0 & N0 & T0). cbn [bind].
  destruct (renumber_shows V N T jv jn jt q1 4 [0; 2; 1; 3] _ _ _ [v5; v6; v1; v8] [n5; n6; n1; n8] [t5; t6; t1; t8] S1 ltac:(lia) ltac:(range) ltac:(nodup) eq_refl ltac:(cbn; lia) eq_refl eq_refl eq_refl)
    as (a1 & -> & A1 & V1 & N1 & T1). cbn [bind].
  destruct (merge_shows V N T a0 a1 2 _ _ _ _ _ _ A0 A1) as (b0 & -> & B0 & VB & NB & TB).
  { rewrite V0; cbn; lia. } { rewrite V1; cbn; lia. } { rewrite V0, V1; agrees. } { rewrite N0, N1; agrees. } { rewrite T0, T1; agrees. }
  cbn [bind]. rewrite V0, V1 in VB. rewrite N0, N1 in NB. rewrite T0, T1 in TB. change (Z.to_nat 2) with 2%nat in VB, NB, TB. cbn [app skipn] in VB, NB, TB. clear V0 V1 N0 N1 T0 T1.
  destruct (renumber_shows V N T jv jn jt q2 4 [3; 0; 2; 1] _ _ _ [v6; v7; v2; v4] [n6; n7; n2; n4] [t6; t7; t2; t4] S2 ltac:(lia) ltac:(range) ltac:(nodup) eq_refl ltac:(cbn; lia) eq_refl eq_refl eq_refl)
    as (a2 & -> & A2 & V2 & N2 & T2). cbn [bind].
  destruct (renumber_shows V N T jv jn jt q3 4 [0; 3; 1; 2] _ _ _ [v6; v7; v3; v8] [n6; n7; n3; n8] [t6; t7; t3; t8] S3 ltac:(lia) ltac:(range) ltac:(nodup) eq_refl ltac:(cbn; lia) eq_refl eq_refl eq_refl)
    as (a3 & -> & A3 & V3 & N3 & T3). cbn [bind].
  destruct (merge_shows V N T a2 a3 2 _ _ _ _ _ _ A2 A3) as (b2 & -> & B2 & VC & NC & TC).
  { rewrite V2; cbn; lia. } { rewrite V3; cbn; lia. } { rewrite V2, V3; agrees. } { rewrite N2, N3; agrees. } { rewrite T2, T3; agrees. }
  cbn [bind]. rewrite V2, V3 in VC. rewrite N2, N3 in NC. rewrite T2, T3 in TC. change (Z.to_nat 2) with 2%nat in VC, NC, TC. cbn [app skipn] in VC, NC, TC. clear V2 V3 N2 N3 T2 T3.
  destruct (renumber_shows V N T jv jn jt b0 6 [4; 1; 3; 0; 5; 2] _ _ _ [v4; v6; v8; v0; v5; v1] [n4; n6; n8; n0; n5; n1] [t4; t6; t8; t0; t5; t1] B0 ltac:(lia) ltac:(range) ltac:(nodup))
    as (c0 & -> & C0 & V0 & N0 & T0); [rewrite VB; reflexivity|rewrite VB; cbn; lia|rewrite VB; reflexivity|rewrite NB; reflexivity|rewrite TB; reflexivity|].
  cbn [bind].
  destruct (renumber_shows V N T jv jn jt b2 6 [1; 4; 3; 0; 5; 2] _ _ _ [v4; v6; v8; v2; v7; v3] [n4; n6; n8; n2; n7; n3] [t4; t6; t8; t2; t7; t3] B2 ltac:(lia) ltac:(range) ltac:(nodup))
    as (c2 & -> & C2 & V2 & N2 & T2); [rewrite VC; reflexivity|rewrite VC; cbn; lia|rewrite VC; reflexivity|rewrite NC; reflexivity|rewrite TC; reflexivity|].
  cbn [bind].
  destruct (merge_shows V N T c0 c2 3 _ _ _ _ _ _ C0 C2) as (d & -> & D & VD & ND & TD).
  { rewrite V0; cbn; lia. } { rewrite V2; cbn; lia. } { rewrite V0, V2; agrees. } { rewrite N0, N2; agrees. } { rewrite T0, T2; agrees. }
  cbn [bind]. rewrite V0, V2 in VD. rewrite N0, N2 in ND. rewrite T0, T2 in TD. change (Z.to_nat 3) with 3%nat in VD, ND, TD. cbn [app skipn] in VD, ND, TD.
  destruct (renumber_shows V N T jv jn jt d 9 [4; 6; 8; 0; 5; 1; 2; 7; 3] _ _ _ [v0; v1; v2; v3; v4; v5; v6; v7; v8] [n0; n1; n2; n3; n4; n5; n6; n7; n8] [t0; t1; t2; t3; t4; t5; t6; t7; t8] D ltac:(lia) ltac:(range) ltac:(nodup))
    as (m & -> & (FM & M1 & M2 & M3) & V9 & N9 & T9); [rewrite VD; reflexivity|rewrite VD; cbn; lia|rewrite VD; reflexivity|rewrite ND; reflexivity|rewrite TD; reflexivity|].
  exists m. split; [reflexivity|]. split; [exact FM|]. split; [exact V9|]. split; [exact N9|]. split; [exact T9|].
  cbn [flat_map]. rewrite M1, M2, M3, !app_nil_r, <- !app_assoc. auto.
Qed.

(** * C38 *)
Local Open Scope R_scope.

Lemma cleanup_as : forall V N good (m : mesh V N), well_formed m -> exists m', cleanup good m = Ok m' /\
  well_formed m' /\ vertices m' = vertices m /\ normals m' = normals m /\ cleanup good m' = Ok m' /\
  forall keep : Z * Z * Z -> bool,
    (forall i j k a b c, refers (vertices m) i = Some a -> refers (vertices m) j = Some b -> refers (vertices m) k = Some c ->
       good a b c = keep (i, j, k)) ->
    triples (indices m') = filter keep (triples (indices m)).
Proof.
  intros V N good m ((n & L) & R & EN & B). eexists. split; [apply cleanup_ok; exact R|]. cbn [indices vertices normals].
  split; [|split; [reflexivity|split; [reflexivity|split]]].
  - split; [|split; [|split; [exact EN|exact B]]]; cbn [indices vertices normals].
    + eexists. apply flat3_length.
    + intros i Hi. apply R. eapply cleanup_keeps_range; [exact R|apply cleanup_ok; exact R|exact Hi].
  - eapply cleanup_idem; [exact R|apply cleanup_ok; exact R].
  - intros keep K. rewrite triples_flat3. apply filter_ext_in. intros [[i j] k] H. apply In_triples in H. destruct H as (Hi & Hj & Hk).
    apply R in Hi, Hj, Hk. apply refers_some in Hi, Hj, Hk. destruct Hi as (a & Ea), Hj as (b & Eb), Hk as (c & Ec).
    unfold lifted. rewrite Ea, Eb, Ec. apply K; assumption.
Qed.

(** Exactly the triangles without an edge longer than the threshold stay, in order. *)
Theorem C38_long_edges : forall N (m : mesh vec N) threshold, well_formed m ->
  exists m', cleanupLongEdges threshold m = Ok m' /\
    well_formed m' /\ vertices m' = vertices m /\ normals m' = normals m /\ cleanupLongEdges threshold m' = Ok m' /\
    forall keep : Z * Z * Z -> bool,
      (forall i j k a b c, refers (vertices m) i = Some a -> refers (vertices m) j = Some b -> refers (vertices m) k = Some c ->
         (keep (i, j, k) = true <-> dist a b <= threshold /\ dist b c <= threshold /\ dist a c <= threshold)) ->
      triples (indices m') = filter keep (triples (indices m)).
Proof.
  intros N m th W. unfold cleanupLongEdges. match goal with |- context [cleanup ?g m] => destruct (cleanup_as _ _ g m W) as (m' & E & W' & EV & EN & I & K) end.
  exists m'. split; [exact E|]. split; [exact W'|]. split; [exact EV|]. split; [exact EN|]. split; [exact I|].
  intros keep H. apply K. intros i j k a b c Ea Eb Ec. specialize (H i j k a b c Ea Eb Ec). apply eq_true_iff_eq.
  rewrite H, !andb_true_iff, !rle_iff. rewrite (dist_sym c a). tauto.
Qed.

(** Exactly the triangles with no corner within [precision] of the origin in every
    coordinate stay. *)
Theorem C38_origin : forall N (m : mesh vec N) precision, well_formed m ->
  exists m', cleanupEdgesToOrigin precision m = Ok m' /\
    well_formed m' /\ vertices m' = vertices m /\ normals m' = normals m /\ cleanupEdgesToOrigin precision m' = Ok m' /\
    forall keep : Z * Z * Z -> bool,
      (forall i j k a b c, refers (vertices m) i = Some a -> refers (vertices m) j = Some b -> refers (vertices m) k = Some c ->
         (keep (i, j, k) = true <-> forall v, In v [a; b; c] ->
            Rmax (Rabs (vx v)) (Rmax (Rabs (vy v)) (Rabs (vz v))) > precision)) ->
      triples (indices m') = filter keep (triples (indices m)).
Proof.
  intros N m pr W. unfold cleanupEdgesToOrigin. match goal with |- context [cleanup ?g m] => destruct (cleanup_as _ _ g m W) as (m' & E & W' & EV & EN & I & K) end.
  exists m'. split; [exact E|]. split; [exact W'|]. split; [exact EV|]. split; [exact EN|]. split; [exact I|].
  intros keep H. apply K. intros i j k a b c Ea Eb Ec. specialize (H i j k a b c Ea Eb Ec). apply eq_true_iff_eq.
  assert (Z : forall v, isZero pr v = false <-> Rmax (Rabs (vx v)) (Rmax (Rabs (vy v)) (Rabs (vz v))) > pr).
  { intro v. rewrite <- not_true_iff_false. unfold isZero. rewrite !andb_true_iff, !rle_iff.
    assert (M := Rmax_l (Rabs (vx v)) (Rmax (Rabs (vy v)) (Rabs (vz v)))). assert (M1 := Rmax_r (Rabs (vx v)) (Rmax (Rabs (vy v)) (Rabs (vz v)))).
    assert (M2 := Rmax_l (Rabs (vy v)) (Rabs (vz v))). assert (M3 := Rmax_r (Rabs (vy v)) (Rabs (vz v))).
    split; intro Q; [|intros ((A & B) & C); assert (Rmax (Rabs (vx v)) (Rmax (Rabs (vy v)) (Rabs (vz v))) <= pr) by (repeat apply Rmax_lub; assumption); lra].
    apply Rnot_le_gt. intro P. apply Q. repeat split; lra. }
  rewrite H, negb_true_iff, !orb_false_iff, !Z. cbn [In]. split.
  - intros ((A & B) & C) v [<-|[<-|[<-|[]]]]; assumption.
  - intro F. repeat split; apply F; auto.
Qed.

Example C38_example : exists m',
  cleanupLongEdges 3 (Mesh [0; 1; 2; 0; 1; 3]%Z [V 0 0 0; V 1 0 0; V 0 1 0; V 0 5 0] [tt; tt; tt; tt]) = Ok m' /\
  indices m' = [0; 1; 2]%Z.
Proof.
  assert (T : forall a b, dot (vsub a b) (vsub a b) <= 9 -> rle (dist a b) 3 = true).
  { intros a b H. apply rle_iff. unfold dist, norm. rewrite <- (sqrt_square 3) by lra. apply sqrt_le_1_alt. lra. }
  assert (F : forall a b, 9 < dot (vsub a b) (vsub a b) -> rle (dist a b) 3 = false).
  { intros a b H. apply not_true_iff_false. rewrite rle_iff. apply Rlt_not_le. unfold dist, norm. rewrite <- (sqrt_square 3) by lra. apply sqrt_lt_1_alt. lra. }
  eexists. split; [reflexivity|]. cbn [indices flat_map app].
  rewrite (T (V 0 0 0) (V 1 0 0)), (T (V 1 0 0) (V 0 1 0)), (T (V 0 1 0) (V 0 0 0)), (F (V 1 0 0) (V 0 5 0)) by (unfold dot, vsub; simpl; lra).
  reflexivity.
Qed.


(** * C39 *)

(** One normal per triangle, a unit vector along its area vector (zero for a
    degenerate triangle), orthogonal to its edges. *)
Theorem C39_face_normals : forall idx vs, (forall i, In i idx -> (0 <= i < size vs)%Z) ->
  exists faces, CalculateFaceNormals idx vs = Ok faces /\
    Forall2 (fun t n => let '(i, j, k) := t in exists a b c,
      refers vs i = Some a /\ refers vs j = Some b /\ refers vs k = Some c /\
      direction_of (area_vector a b c) n /\
      dot n (vsub b a) = 0 /\ dot n (vsub c a) = 0 /\ dot n (vsub c b) = 0) (triples idx) faces.
Proof.
  intros idx vs R. destruct (face_normals_ok idx vs R) as (faces & E & F). exists faces. split; [exact E|].
  clear E. induction F as [|[[i j] k] n ts ns (a & b & c & Ea & Eb & Ec & D) F IH]; constructor; [|exact IH]. exists a, b, c.
  assert (O := area_orthogonal a b c n D). tauto.
Qed.

(** One normal per vertex: the unit vector along the sum of the face normals
    meeting there, zero if the sum is, and so if no face meets there. *)
Theorem C39_vertex_normals : forall idx vs, (forall i, In i idx -> (0 <= i < size vs)%Z) ->
  exists faces ns, CalculateFaceNormals idx vs = Ok faces /\ EstimateNormals idx vs = Ok ns /\
    List.length ns = List.length vs /\
    forall v, (0 <= v < size vs)%Z -> exists n, refers ns v = Some n /\
      let meeting := incident v (combine (triples idx) faces) in
      direction_of (vsum meeting) n /\ (meeting = [] -> n = vzero) /\
      (forall u, dot u u = 1 -> meeting <> [] -> (forall f, In f meeting -> f = u) -> n = u).
Proof.
  intros idx vs R. destruct (estimate_ok idx vs R) as (faces & ns & E & E' & L & D). exists faces, ns. repeat split; auto.
  intros v Hv. destruct (D v Hv) as (n & En & Dn). exists n. split; [exact En|]. cbv zeta. split; [exact Dn|]. split.
  - intro M. rewrite M in Dn. destruct Dn as [(_ & ->)|(U & k & K & Q)]; [reflexivity|]. exfalso.
    assert (H : dot (smul k n) (smul k n) = 0) by (rewrite <- Q; unfold dot, vsum, vzero; simpl; ring).
    replace (dot (smul k n) (smul k n)) with (k * k * dot n n) in H by (unfold dot, smul; simpl; ring). rewrite U in H. nra.
  - intros u U M A. apply (direction_unique (vsum (incident v (combine (triples idx) faces)))); [exact Dn|]. right. split; [exact U|].
    set (me := incident v (combine (triples idx) faces)) in *. clearbody me. exists (INR (List.length me)).
    split; [apply lt_0_INR; destruct me; [contradiction|cbn; lia]|]. clear M Dn.
    induction me as [|f me IH]; [unfold vsum; cbn; vring|].
    unfold vsum in *. cbn [fold_right]. rewrite IH by (intros; apply A; right; assumption). rewrite (A f) by (left; reflexivity).
    rewrite S_INR || cbn [List.length]. rewrite ?S_INR. vring.
Qed.

Example C39_example : exists ns, EstimateNormals [0; 1; 2; 1; 3; 2]%Z [V 0 0 0; V 1 0 0; V 0 1 0; V 1 1 0; V 5 5 5] = Ok ns /\
  ns = [V 0 0 1; V 0 0 1; V 0 0 1; V 0 0 1; vzero].
Proof.
  set (vs := [V 0 0 0; V 1 0 0; V 0 1 0; V 1 1 0; V 5 5 5]).
  assert (R : forall i, In i [0; 1; 2; 1; 3; 2]%Z -> (0 <= i < size vs)%Z) by (cbn; intros; intuition lia).
  destruct (C39_vertex_normals _ _ R) as (faces & ns & E & E' & L & D).
  destruct (C39_face_normals _ _ R) as (faces' & F & G). assert (faces' = faces) by congruence. subst faces'.
  cbn [triples] in G. inversion G as [|t0 f0 l0 m0 G0 G1]; subst. inversion G1 as [|t1 f1 l1 m1 G2 G3]; subst. inversion G3; subst.
  assert (U : dot (V 0 0 1) (V 0 0 1) = 1) by (unfold dot; simpl; ring).
  assert (X : forall a b c n, direction_of (area_vector a b c) n -> area_vector a b c = V 0 0 1 -> n = V 0 0 1).
  { intros a b c n Dn Q. apply (direction_unique (area_vector a b c)); [exact Dn|]. right. split; [exact U|]. exists 1. split; [lra|]. rewrite Q. vring. }
  assert (f0 = V 0 0 1).
  { destruct G0 as (a & b & c & Ea & Eb & Ec & Dn & _). injection Ea as <-. injection Eb as <-. injection Ec as <-. apply (X _ _ _ _ Dn). unfold area_vector. vring. }
  assert (f1 = V 0 0 1).
  { destruct G2 as (a & b & c & Ea & Eb & Ec & Dn & _). injection Ea as <-. injection Eb as <-. injection Ec as <-. apply (X _ _ _ _ Dn). unfold area_vector. vring. }
  subst f0 f1. exists ns. split; [exact E'|].
  destruct ns as [|a0 [|a1 [|a2 [|a3 [|a4 [|a5 ns]]]]]]; try discriminate L.
  assert (Y : forall v w, (0 <= v < 5)%Z -> refers [a0; a1; a2; a3; a4] v = Some w ->
    (v = 4%Z -> w = vzero) /\ ((v < 4)%Z -> w = V 0 0 1)).
  { intros v w Hv Q. destruct (D v Hv) as (n & En & _ & M0 & M1). assert (n = w) by congruence. subst n. split.
    - intros ->. apply M0. reflexivity.
    - intro Lt. assert (C : (v = 0 \/ v = 1 \/ v = 2 \/ v = 3)%Z) by lia.
      apply M1; [exact U| |]; destruct C as [->|[->|[->| ->]]]; cbn; try discriminate; intuition. }
  repeat f_equal.
  - apply (Y 0%Z); [lia|reflexivity|lia].
  - apply (Y 1%Z); [lia|reflexivity|lia].
  - apply (Y 2%Z); [lia|reflexivity|lia].
  - apply (Y 3%Z); [lia|reflexivity|lia].
  - apply (Y 4%Z); [lia|reflexivity|lia].
Qed.

(** * C62 *)

Definition sign (inward : bool) : R := if inward then -1 else 1.

(** The example cube: eight vertices, twelve triangles that form a closed, consistently
    oriented surface and all face away from the centre (or towards it, for an
    inward cube), and so do the vertex normals. *)
Theorem C62_example : forall length inward, 0 < length ->
  exists m, Example_ length inward = Ok m /\ well_formed m /\
    List.length (vertices m) = 8%nat /\ List.length (triples (indices m)) = 12%nat /\ closed_surface (indices m) /\
    (forall x y z, (x = 1 \/ x = -1) -> (y = 1 \/ y = -1) -> (z = 1 \/ z = -1) ->
       In (V (x * length / 2) (y * length / 2) (z * length / 2)) (vertices m)) /\
    (forall i j k, In (i, j, k) (triples (indices m)) -> exists a b c,
       refers (vertices m) i = Some a /\ refers (vertices m) j = Some b /\ refers (vertices m) k = Some c /\
       forall p, In p [a; b; c] -> 0 < sign inward * dot (area_vector a b c) p) /\
    (forall v, (0 <= v < 8)%Z -> exists p n, refers (vertices m) v = Some p /\ refers (normals m) v = Some n /\
       dot n n = 1 /\ 0 < sign inward * dot n p).
Proof.
  intros l inward P.
  set (idx := if inward then example_indices else rev example_indices).
  assert (R : forall i, In i idx -> (0 <= i < size (example_vertices l))%Z).
  { change (size (example_vertices l)) with 8%Z. unfold idx. destruct inward; cbn; intros; intuition lia. }
  assert (FACE : forall i j k, In (i, j, k) (triples idx) -> exists a b c,
       refers (example_vertices l) i = Some a /\ refers (example_vertices l) j = Some b /\ refers (example_vertices l) k = Some c /\
       forall p, In p [a; b; c] -> 0 < sign inward * dot (area_vector a b c) p).
  { intros i j k H. unfold idx in H. unfold sign. assert (P3 : 0 < l / 2 * (l / 2) * (l / 2)) by (repeat apply Rmult_lt_0_compat; lra).
    destruct inward; cbn in H; repeat (destruct H as [H|H]; [injection H as <- <- <-; do 3 eexists; split; [reflexivity|split; [reflexivity|split; [reflexivity|]]];
      intros p [<-|[<-|[<-|[]]]]; unfold dot, area_vector, cross, vsub, smul; cbn [vx vy vz];
      match goal with |- 0 < ?g => replace g with (4 * (l / 2 * (l / 2) * (l / 2))) by (cbn; field) end; lra|]); destruct H. }
  destruct (C39_vertex_normals idx (example_vertices l) R) as (faces & ns & EF & EN & L & D).
  destruct (C39_face_normals idx (example_vertices l) R) as (faces' & EF' & G). assert (faces' = faces) by congruence. subst faces'.
  exists (Mesh idx (example_vertices l) ns). split; [|split; [|split; [reflexivity|split; [|split; [|split; [|split; [exact FACE|]]]]]]]; cbn [indices vertices normals].
  - unfold Example_. fold idx. rewrite EN. cbn [bind]. unfold mk_mesh, size. rewrite L, Z.eqb_refl. reflexivity.
  - split; [exists 12%nat; unfold idx; destruct inward; reflexivity|]. split; [exact R|]. split; [exact L|]. cbn; lia.
  - unfold idx. destruct inward; reflexivity.
  - split.
    + unfold idx. destruct inward; cbn; nodup.
    + intros i j H. unfold idx in *. destruct inward; cbn in H; repeat (destruct H as [H|H]; [injection H as <- <-; cbn; tauto|]); destruct H.
  - intros x y z [->| ->] [->| ->] [->| ->]; unfold example_vertices; apply in_map_iff;
    match goal with |- exists v, smul _ v = V (?a * _ / 2) (?b * _ / 2) (?c * _ / 2) /\ _ => exists (V a b c) end; (split; [apply vec_eq; simpl; field|cbn; tauto]).
  - intros v Hv. destruct (proj1 (refers_some _ (example_vertices l) v) Hv) as (p & Ep). destruct (D v Hv) as (n & En & Dn & _).
    exists p, n. split; [exact Ep|]. split; [exact En|].
    (* every face normal meeting at v faces the right way *)
    assert (A : forall f, In f (incident v (combine (triples idx) faces)) -> 0 < sign inward * dot f p).
    { intros f Hf. unfold incident in Hf. apply in_flat_map in Hf. destruct Hf as ([[[i j] k] f'] & Hc & Hm).
      apply in_map_iff in Hm. destruct Hm as (w & <- & Hw). apply filter_In in Hw. destruct Hw as (Hw & Ew). apply Z.eqb_eq in Ew. subst w.
      assert (Q : exists a b c, refers (example_vertices l) i = Some a /\ refers (example_vertices l) j = Some b /\ refers (example_vertices l) k = Some c /\ direction_of (area_vector a b c) f').
      { clear - G Hc. revert Hc. induction G as [|[[i' j'] k'] n ts nss H G IH]; [intros []|]. intros [Q|Q]; [|auto].
        injection Q as -> -> -> ->. destruct H as (a & b & c & Ea & Eb & Ec & Dn & _). exists a, b, c; auto. }
      destruct Q as (a & b & c & Ea & Eb & Ec & Dd). destruct (FACE i j k) as (a' & b' & c' & Ea' & Eb' & Ec' & S).
      { apply (in_combine_l _ _ _ _ Hc). }
      assert (a' = a) by congruence. assert (b' = b) by congruence. assert (c' = c) by congruence. subst a' b' c'.
      assert (S' : 0 < sign inward * dot (area_vector a b c) p).
      { apply S. cbn in Hw. destruct Hw as [->|[->|[->|[]]]]; rewrite Ep in *; [left|right; left|right; right; left]; congruence. }
      destruct Dd as [(Z0 & _)|(_ & k0 & K0 & Q)].
      - rewrite Z0 in S'. unfold dot, vzero in S'. simpl in S'. lra.
      - rewrite Q in S'. replace (dot (smul k0 f') p) with (k0 * dot f' p) in S' by (unfold dot, smul; simpl; ring). nra. }
    assert (NE : incident v (combine (triples idx) faces) <> []).
    { assert (LF : List.length faces = 12%nat) by (rewrite <- (Forall2_len _ _ _ _ _ G); unfold idx; destruct inward; reflexivity).
      do 12 (destruct faces as [|? faces]; [discriminate LF|]). change (size (example_vertices l)) with 8%Z in Hv.
      assert (C : (v = 0 \/ v = 1 \/ v = 2 \/ v = 3 \/ v = 4 \/ v = 5 \/ v = 6 \/ v = 7)%Z) by lia.
      unfold idx. destruct inward; destruct C as [->|[->|[->|[->|[->|[->|[->| ->]]]]]]]; discriminate. }
    assert (S : 0 < sign inward * dot (vsum (incident v (combine (triples idx) faces))) p).
    { revert A NE. generalize (incident v (combine (triples idx) faces)). clear. intros me A NE.
      assert (K : forall me, (forall f, In f me -> 0 < sign inward * dot f p) -> 0 <= sign inward * dot (vsum me) p).
      { clear. induction me as [|f me IH]; intro A; [unfold vsum, dot, vzero; simpl; lra|].
        assert (H := A f (or_introl eq_refl)). specialize (IH (fun g Hg => A g (or_intror Hg))). unfold vsum in *. cbn [fold_right].
        replace (dot (vadd f (fold_right vadd vzero me)) p) with (dot f p + dot (fold_right vadd vzero me) p) by (unfold dot, vadd; simpl; ring). nra. }
      destruct me as [|f me]; [contradiction|]. assert (H := A f (or_introl eq_refl)). assert (H' := K me (fun g Hg => A g (or_intror Hg))).
      unfold vsum in *. cbn [fold_right].
      replace (dot (vadd f (fold_right vadd vzero me)) p) with (dot f p + dot (fold_right vadd vzero me) p) by (unfold dot, vadd; simpl; ring). nra. }
    destruct Dn as [(Z0 & _)|(U & k0 & K0 & Q)].
    + rewrite Z0 in S. unfold dot, vzero in S. simpl in S. lra.
    + split; [exact U|]. rewrite Q in S. replace (dot (smul k0 n) p) with (k0 * dot n p) in S by (unfold dot, smul; simpl; ring). nra.
Qed.

(** * C63 *)

(** Mesh.cube returns whatever the index array held before: any 36 numbers. *)
Theorem C63_any_indices : forall idx, List.length idx = 36%nat ->
  exists junk m, Mesh_cube junk = Ok m /\ indices m = idx.
Proof.
  intros idx L. exists (fun n => nth n idx 0%Z). eexists. split; [reflexivity|]. cbn [indices].
  do 36 (destruct idx as [|? idx]; [discriminate L|]). destruct idx; [reflexivity|discriminate L].
Qed.
Theorem C63_mesh_cube_refuted : exists junk m, Mesh_cube junk = Ok m /\ ~ well_formed m.
Proof.
  destruct (C63_any_indices (repeat 99%Z 36) eq_refl) as (junk & m & E & I). exists junk, m. split; [exact E|].
  intros (_ & R & _). specialize (R 99%Z). rewrite I in R. injection E as <-. cbn in R. assert (0 <= 99 < 24)%Z by (apply R; auto). lia.
Qed.

(** * C64 *)

(** The textured cube faces inwards, its normals agree with its triangles, and face
    number f uses the f-th sixth of the texture. *)
Theorem C64_textured_cube : forall h, (0 < h)%Z ->
  exists m, TexturedMesh_cube h (6 * h) = Ok m /\ fully_textured m /\ List.length (triples (indices (base m))) = 12%nat /\
    (forall i j k, In (i, j, k) (triples (indices (base m))) -> exists a b c n s,
       refers (vertices (base m)) i = Some a /\ refers (vertices (base m)) j = Some b /\ refers (vertices (base m)) k = Some c /\
       refers (normals (base m)) i = Some n /\ refers (normals (base m)) j = Some n /\ refers (normals (base m)) k = Some n /\
       dot n n = 1 /\ 0 < s /\ area_vector a b c = smul s n /\ dot n a < 0) /\
    (forall f, (0 <= f < 6)%Z -> map (refers (uvs m)) [4 * f; 4 * f + 1; 4 * f + 2; 4 * f + 3]%Z =
       [Some (IZR f / 6, 1); Some ((IZR f + 1) / 6, 1); Some (IZR f / 6, 0); Some ((IZR f + 1) / 6, 0)]).
Proof.
  intros h P. assert (HP : 0 < IZR h) by (apply IZR_lt; exact P). unfold TexturedMesh_cube. rewrite Z.eqb_refl.
  eexists. split; [reflexivity|]. cbn [base uvs indices vertices normals]. split; [|split; [reflexivity|split]].
  - split; [|reflexivity]. split; [exists 12%nat; reflexivity|]. split; [|split; [reflexivity|cbn; lia]]. cbn. intros i H. intuition lia.
  - intros i j k H. cbn in H. repeat (destruct H as [H|H]; [injection H as <- <- <-; do 4 eexists; exists 4;
      split; [reflexivity|]; split; [reflexivity|]; split; [reflexivity|]; split; [reflexivity|]; split; [reflexivity|]; split; [reflexivity|];
      (split; [unfold dot; simpl; ring|]; split; [lra|]; split; [unfold area_vector; vring|unfold dot; simpl; lra])|]). destruct H.
  - intros f Hf. assert (C : (f = 0 \/ f = 1 \/ f = 2 \/ f = 3 \/ f = 4 \/ f = 5)%Z) by lia.
    assert (Q : forall a b a' b' c d c' d' e f e' f' g i g' i' : R, a = a' -> b = b' -> c = c' -> d = d' -> e = e' -> f = f' -> g = g' -> i = i' ->
      [Some (a, b); Some (c, d); Some (e, f); Some (g, i)] = [Some (a', b'); Some (c', d'); Some (e', f'); Some (g', i')]) by (intros; subst; reflexivity).
    destruct C as [->|[->|[->|[->|[->| ->]]]]]; apply Q; cbn [fst snd]; rewrite ?mult_IZR; field; lra.
Qed.

Theorem C64_other_sizes : forall h w, w <> (6 * h)%Z -> TexturedMesh_cube h w = Err AssertionError.
Proof. intros h w D. unfold TexturedMesh_cube. destruct (Z.eqb_spec w (6 * h)); [contradiction|reflexivity]. Qed.

Print Assumptions C35_merge.
Print Assumptions C35_textured_merge.
Print Assumptions C35_partial_texture_refuted.
Print Assumptions C35_replace.
Print Assumptions C36_full_or_none.
Print Assumptions C36_general.
Print Assumptions C36_partial_refuted.
Print Assumptions C37_quadrants.
Print Assumptions C38_long_edges.
Print Assumptions C38_origin.
Print Assumptions C39_face_normals.
Print Assumptions C39_vertex_normals.
Print Assumptions C62_example.
Print Assumptions C63_any_indices.
Print Assumptions C63_mesh_cube_refuted.
Print Assumptions C64_textured_cube.
Print Assumptions C64_other_sizes.
