(** Proofs about the glTF model. *)
From Coq Require Import List Bool ZArith QArith String Lia.
From Coq Require Decimal DecimalString DecimalNat.
From Verif.Base Require Import Py PyFacts.
From Verif.Mesh Require Import Model.
From Verif.Gltf Require Import Model Spec.
Import ListNotations.
Local Open Scope string_scope.
Local Open Scope list_scope.
Local Open Scope Z_scope.

(** ** Lists *)

Definition prefix {A} (a b : list A) := exists c, b = a ++ c.
Lemma prefix_refl : forall A (a : list A), prefix a a.
Proof. intros A a. exists []. rewrite app_nil_r. reflexivity. Qed.
Lemma prefix_trans : forall A (a b c : list A), prefix a b -> prefix b c -> prefix a c.
Proof. intros A a b c (x & ->) (y & ->). exists (x ++ y). rewrite app_assoc. reflexivity. Qed.
Lemma prefix_app : forall A (a b : list A), prefix a (a ++ b).
Proof. intros. exists b. reflexivity. Qed.
Lemma prefix_nth : forall A (a b : list A) i x, prefix a b -> nth_error a i = Some x -> nth_error b i = Some x.
Proof. intros A a b i x (c & ->) H. rewrite nth_error_app1; [exact H|]. apply nth_error_Some. congruence. Qed.
Lemma size_app : forall A (a b : list A), size (a ++ b) = size a + size b.
Proof. intros. unfold size. rewrite app_length. lia. Qed.
Lemma size_pos : forall A (a : list A), 0 <= size a.
Proof. intros. unfold size. lia. Qed.
Lemma prefix_size : forall A (a b : list A), prefix a b -> size a <= size b.
Proof. intros A a b (c & ->). rewrite size_app. assert (H := size_pos _ c). lia. Qed.
Lemma at_Ok : forall A (l : list A) i x, at_ l i = Ok x <-> 0 <= i < size l /\ nth_error l (Z.to_nat i) = Some x.
Proof.
  intros A l i x. unfold at_, size. destruct (Z.ltb_spec i 0); [split; [discriminate|lia]|].
  destruct (nth_error l (Z.to_nat i)) as [y|] eqn:E.
  - assert (N : (Z.to_nat i < List.length l)%nat) by (apply nth_error_Some; congruence).
    split; [intro Q; injection Q as ->; split; [lia|reflexivity]|intros (_ & Q); congruence].
  - split; [discriminate|]. intros (_ & Q). discriminate.
Qed.
Lemma at_prefix : forall A (a b : list A) i x, prefix a b -> at_ a i = Ok x -> at_ b i = Ok x.
Proof.
  intros A a b i x P H. apply at_Ok in H. destruct H as (R & N). apply at_Ok. assert (S := prefix_size _ _ _ P).
  split; [lia|]. eapply prefix_nth; eassumption.
Qed.
Lemma at_last : forall A (l : list A) x, at_ (l ++ [x]) (size l) = Ok x.
Proof.
  intros A l x. apply at_Ok. rewrite size_app. split; [assert (H := size_pos _ l); change (size [x]) with 1; lia|].
  unfold size. rewrite Nat2Z.id, nth_error_app2, Nat.sub_diag by lia. reflexivity.
Qed.

Lemma mapM_mono : forall A B (f f' : A -> res B) l ys, (forall x y, f x = Ok y -> f' x = Ok y) ->
  mapM f l = Ok ys -> mapM f' l = Ok ys.
Proof.
  intros A B f f' l ys H. revert ys. induction l as [|x l IH]; intros ys E; [exact E|]. cbn [mapM] in *.
  destruct (f x) as [y|] eqn:F; [|discriminate E]. cbn [bind] in E. rewrite (H _ _ F). cbn [bind].
  destruct (mapM f l) as [zs|] eqn:G; [|discriminate E]. rewrite (IH zs eq_refl). exact E.
Qed.

(** ** Layouts *)

Definition faithful {A} (L : layout A) (P : A -> Prop) : Prop :=
  0 < width_of L /\ forall x, P x -> size (bytes_of L x) = width_of L /\ of_bytes L (bytes_of L x) = Some x.

Lemma word_ok : forall w, is_word w -> bytes_word (w mod 256) (w / 256 mod 256) (w / 65536 mod 256) (w / 16777216 mod 256) = w.
Proof.
  intros w (L & H). unfold bytes_word.
  assert (E1 := Z.div_mod w 256 ltac:(lia)). assert (E2 := Z.div_mod (w / 256) 256 ltac:(lia)). assert (E3 := Z.div_mod (w / 65536) 256 ltac:(lia)).
  replace (w / 65536) with (w / 256 / 256) in * by (rewrite Z.div_div by lia; reflexivity).
  replace (w / 16777216) with (w / 256 / 256 / 256) by (rewrite !Z.div_div by lia; reflexivity).
  rewrite (Z.mod_small (w / 256 / 256 / 256)) by (rewrite !Z.div_div by lia; split; [apply Z.div_pos; lia|apply Z.div_lt_upper_bound; lia]).
  lia.
Qed.
Lemma uint_faithful : faithful uint_layout is_word.
Proof. split; [reflexivity|]. intros w W. split; [reflexivity|]. cbn. rewrite word_ok by exact W. reflexivity. Qed.
Lemma vec3_faithful : faithful vec3_layout is_vec3.
Proof.
  split; [reflexivity|]. intros [[x y] z] (X & Y & Z). split; [reflexivity|]. cbn [bytes_of of_bytes vec3_layout word_bytes app].
  rewrite !word_ok by assumption. reflexivity.
Qed.
Lemma vec2_faithful : faithful vec2_layout is_vec2.
Proof.
  split; [reflexivity|]. intros [x y] (X & Y). split; [reflexivity|]. cbn [bytes_of of_bytes vec2_layout word_bytes app].
  rewrite !word_ok by assumption. reflexivity.
Qed.

Lemma element_ext : forall A (L : layout A) b post s j x, 0 <= j -> 0 <= width_of L ->
  element L b s j = Ok x -> element L (b ++ post) s j = Ok x.
Proof.
  intros A L b post s j x J W E. unfold element in *. rewrite size_app. assert (SP := size_pos _ post).
  destruct (Z.leb_spec (s + (j + 1) * width_of L) (size b)) as [Le|]; [|discriminate E].
  destruct (Z.leb_spec 0 s) as [S0|]; [|discriminate E].
  destruct (Z.leb_spec (s + (j + 1) * width_of L) (size b + size post)); [|lia]. cbn [andb] in *.
  rewrite skipn_app, firstn_app.
  assert (Q : (Z.to_nat (width_of L) - List.length (skipn (Z.to_nat (s + j * width_of L)) b))%nat = 0%nat).
  { rewrite skipn_length. unfold size in *. assert (0 <= j * width_of L) by (apply Z.mul_nonneg_nonneg; lia).
    assert ((j + 1) * width_of L = j * width_of L + width_of L) by ring. lia. }
  rewrite Q. cbn [firstn]. rewrite app_nil_r. exact E.
Qed.

Lemma flat_size : forall A (L : layout A) P vals, faithful L P -> Forall P vals -> size (flat_map (bytes_of L) vals) = size vals * width_of L.
Proof.
  intros A L P vals (_ & F). induction 1 as [|x vals X VS IH]; [reflexivity|]. cbn [flat_map]. rewrite size_app, IH, (proj1 (F x X)).
  unfold size. cbn [List.length]. lia.
Qed.

Lemma element_at : forall A (L : layout A) P vals pre x post, faithful L P -> Forall P vals -> P x ->
  element L (pre ++ flat_map (bytes_of L) (vals ++ x :: post)) (size pre) (size vals) = Ok x.
Proof.
  intros A L P vals pre x post F FV PX. assert (F' := F). destruct F' as (W & G). destruct (G x PX) as (S & D).
  assert (SV := flat_size A L P vals F FV). assert (SP := size_pos _ pre). assert (SS := size_pos _ vals).
  unfold element. rewrite !flat_map_app. cbn [flat_map]. rewrite !size_app, SV, S. assert (SO := size_pos _ (flat_map (bytes_of L) post)).
  destruct (Z.leb_spec (size pre + (size vals + 1) * width_of L) (size pre + (size vals * width_of L + (width_of L + size (flat_map (bytes_of L) post))))); [|lia].
  destruct (Z.leb_spec 0 (size pre)); [|lia]. cbn [andb].
  assert (Q : Z.to_nat (size pre + size vals * width_of L) = (List.length pre + List.length (flat_map (bytes_of L) vals))%nat).
  { rewrite <- SV. unfold size. lia. }
  rewrite Q. rewrite app_assoc, <- app_length, skipn_app, skipn_all, Nat.sub_diag. cbn [skipn app].
  assert (Q2 : Z.to_nat (width_of L) = List.length (bytes_of L x)) by (unfold size in S; lia).
  rewrite Q2, firstn_app, firstn_all, Nat.sub_diag. cbn [firstn]. rewrite app_nil_r, D. reflexivity.
Qed.

Lemma elements : forall A (L : layout A) P pre vals, faithful L P -> Forall P vals ->
  mapM (fun j => element L (pre ++ flat_map (bytes_of L) vals) (size pre) (Z.of_nat j)) (seq 0 (List.length vals)) = Ok vals.
Proof.
  intros A L P pre vals F FV.
  assert (K : forall don todo, vals = don ++ todo ->
    mapM (fun j => element L (pre ++ flat_map (bytes_of L) vals) (size pre) (Z.of_nat j)) (seq (List.length don) (List.length todo)) = Ok todo).
  { intros don todo. revert don. induction todo as [|x todo IH]; intros don E; [reflexivity|]. cbn [List.length seq mapM].
    assert (X := element_at A L P don pre x todo F). rewrite <- E in X. unfold size at 2 in X. rewrite X; cbn [bind].
    - specialize (IH (don ++ [x])). rewrite app_length in IH. cbn [List.length] in IH. rewrite Nat.add_1_r in IH.
      rewrite IH by (rewrite <- app_assoc; exact E). reflexivity.
    - rewrite E in FV. apply Forall_app in FV. apply FV.
    - rewrite E in FV. apply Forall_app in FV. destruct FV as (_ & FV). inversion FV; assumption. }
  exact (K [] vals eq_refl).
Qed.

(** ** Growing models *)

Definition grows (a b : list (list Z)) := forall i x, nth_error a i = Some x -> exists y, nth_error b i = Some (x ++ y).
Lemma grows_refl : forall a, grows a a.
Proof. intros a i x H. exists []. rewrite app_nil_r. exact H. Qed.
Lemma grows_trans : forall a b c, grows a b -> grows b c -> grows a c.
Proof. intros a b c H K i x E. destruct (H i x E) as (y & E1). destruct (K i _ E1) as (z & E2). exists (y ++ z). rewrite app_assoc. exact E2. Qed.
Lemma grows_size : forall a b, grows a b -> size a <= size b.
Proof.
  intros a b H. unfold size. destruct (Nat.le_gt_cases (List.length a) (List.length b)) as [L|G]; [lia|]. exfalso.
  destruct (nth_error a (List.length b)) as [x|] eqn:E; [|apply nth_error_None in E; lia].
  destruct (H _ _ E) as (y & E1). assert (N : nth_error b (List.length b) = None) by (apply nth_error_None; lia). congruence.
Qed.

Definition ext_data (g g' : gmodel) := grows (buffers g) (buffers g') /\ prefix (views g) (views g') /\ prefix (accessors g) (accessors g').
Lemma ext_data_refl : forall g, ext_data g g.
Proof. intro g. split; [apply grows_refl|split; apply prefix_refl]. Qed.
Lemma ext_data_trans : forall a b c, ext_data a b -> ext_data b c -> ext_data a c.
Proof. intros a b c (A1 & A2 & A3) (B1 & B2 & B3). split; [eapply grows_trans; eassumption|split; eapply prefix_trans; eassumption]. Qed.

Lemma getVector_ext : forall A (L : layout A) g g' i l, 0 <= width_of L -> ext_data g g' -> getVector L g i = Ok l -> getVector L g' i = Ok l.
Proof.
  intros A L g g' i l W (GB & PV & PA) E. unfold getVector in *.
  assert (SB := grows_size _ _ GB). assert (SV := prefix_size _ _ _ PV). assert (SA := prefix_size _ _ _ PA).
  destruct (Z.ltb_spec i 0); [discriminate E|]. destruct (Z.leb_spec (size (accessors g)) i); [discriminate E|].
  destruct (Z.leb_spec (size (accessors g')) i); [lia|]. cbn [orb] in *.
  destruct (at_ (accessors g) i) as [a|] eqn:EA; [|discriminate E]. rewrite (at_prefix _ _ _ _ _ PA EA). cbn [bind] in *.
  destruct (Z.leb_spec (size (views g)) (a_view a)); [discriminate E|]. destruct (Z.leb_spec (size (views g')) (a_view a)); [lia|].
  destruct (at_ (views g) (a_view a)) as [v|] eqn:EV; [|discriminate E]. rewrite (at_prefix _ _ _ _ _ PV EV). cbn [bind] in *.
  destruct (Z.leb_spec (size (buffers g)) (v_buffer v)); [discriminate E|]. destruct (Z.leb_spec (size (buffers g')) (v_buffer v)); [lia|].
  destruct (at_ (buffers g) (v_buffer v)) as [b|] eqn:EB; [|discriminate E]. apply at_Ok in EB. destruct EB as (R & N).
  destruct (GB _ _ N) as (post & N'). assert (EB' : at_ (buffers g') (v_buffer v) = Ok (b ++ post)) by (apply at_Ok; split; [lia|exact N']).
  rewrite EB'. cbn [bind] in *. eapply mapM_mono; [|exact E]. intros j x Q. apply element_ext; [lia|exact W|exact Q].
Qed.

Lemma getType_ext : forall g g' i t, ext_data g g' -> getAccessorType g i = Ok t -> getAccessorType g' i = Ok t.
Proof.
  intros g g' i t (_ & _ & PA) E. unfold getAccessorType in *. assert (SA := prefix_size _ _ _ PA).
  destruct (Z.ltb_spec i 0); [discriminate E|]. destruct (Z.leb_spec (size (accessors g)) i); [discriminate E|].
  destruct (Z.leb_spec (size (accessors g')) i); [lia|]. cbn [orb] in *.
  destruct (at_ (accessors g) i) as [a|] eqn:EA; [|discriminate E]. rewrite (at_prefix _ _ _ _ _ PA EA). exact E.
Qed.

Definition read_geo (g : gmodel) (p : primitive) : res (mesh vec3 vec3) :=
  let* ty := getAccessorType g (p_indices p) in
  let* idx := if ty =? UNSIGNED_SHORT then getVector ushort_layout g (p_indices p)
              else getVector uint_layout g (p_indices p) in
  let* va := atE "POSITION" (attributes p) in
  let* vs := getVector vec3_layout g va in
  let* na := atE "NORMAL" (attributes p) in
  let* ns := getVector vec3_layout g na in
  Ok (Mesh idx vs ns).

Lemma extract_geo : forall g k p m mt, getPrimitiveMesh g k = Ok p ->
  (extractPrimitiveMesh g k = Ok (m, mt) <-> read_geo g p = Ok m /\ material_at g (p_material p) = Ok mt).
Proof.
  intros g k p m mt E. unfold extractPrimitiveMesh, read_geo. rewrite E. cbn [bind].
  destruct (getAccessorType g (p_indices p)) as [ty|]; cbn [bind]; [|split; [discriminate|intros (Q & _); discriminate]].
  destruct (if ty =? UNSIGNED_SHORT then getVector ushort_layout g (p_indices p) else getVector uint_layout g (p_indices p)) as [idx|]; cbn [bind]; [|split; [discriminate|intros (Q & _); discriminate]].
  destruct (atE "POSITION" (attributes p)) as [va|]; cbn [bind]; [|split; [discriminate|intros (Q & _); discriminate]].
  destruct (getVector vec3_layout g va) as [vs|]; cbn [bind]; [|split; [discriminate|intros (Q & _); discriminate]].
  destruct (atE "NORMAL" (attributes p)) as [na|]; cbn [bind]; [|split; [discriminate|intros (Q & _); discriminate]].
  destruct (getVector vec3_layout g na) as [ns|]; cbn [bind]; [|split; [discriminate|intros (Q & _); discriminate]].
  destruct (material_at g (p_material p)) as [x|]; cbn [bind]; [|split; [discriminate|intros (_ & Q); discriminate]].
  split; [intro Q; injection Q as <- <-; auto|intros (Q & R); congruence].
Qed.

Ltac step E := match type of E with bind ?x _ = _ => let H := fresh "H" in destruct x eqn:H; [|discriminate E]; cbn [bind] in E end.

Lemma read_geo_ext : forall g g' p m, ext_data g g' -> read_geo g p = Ok m -> read_geo g' p = Ok m.
Proof.
  intros g g' p m X E. unfold read_geo in *. step E. rewrite (getType_ext _ _ _ _ X H). cbn [bind].
  step E. assert (H0' : (if a =? UNSIGNED_SHORT then getVector ushort_layout g' (p_indices p) else getVector uint_layout g' (p_indices p)) = Ok a0).
  { destruct (a =? UNSIGNED_SHORT); eapply getVector_ext; try exact X; try exact H0; cbn; lia. }
  rewrite H0'. cbn [bind]. step E. cbn [bind]. step E. rewrite (getVector_ext _ vec3_layout _ _ _ _ ltac:(cbn; lia) X H2). cbn [bind].
  step E. cbn [bind]. step E. rewrite (getVector_ext _ vec3_layout _ _ _ _ ltac:(cbn; lia) X H4). cbn [bind]. exact E.
Qed.

(** ** Pushing data *)

Lemma push_ok : forall A (L : layout A) P first target g vals b bs, faithful L P -> Forall P vals -> buffers g = b :: bs ->
  (first = true -> vals <> []) ->
  exists g', pushData L first target g vals = Ok (g', size (accessors g)) /\ ext_data g g' /\
    getVector L g' (size (accessors g)) = Ok vals /\ getAccessorType g' (size (accessors g)) = Ok (component_of L) /\
    (exists b', buffers g' = b' :: bs) /\ meshes g' = meshes g /\ nodes g' = nodes g /\ scenes g' = scenes g /\
    materials g' = materials g /\ images g' = images g /\ textures g' = textures g /\ samplers g' = samplers g.
Proof.
  intros A L P first target g vals b bs F FV EB NE. unfold pushData, reallyAddToBuffer.
  assert (C : first && (size vals =? 0) = false).
  { destruct first; [|reflexivity]. cbn. destruct vals; [exfalso; apply NE; reflexivity|reflexivity]. }
  rewrite C, EB. cbn [bind]. eexists. split; [reflexivity|]. cbn [buffers views accessors meshes nodes scenes materials images textures samplers].
  split; [|split; [|split; [|split; [eexists; reflexivity|repeat split; reflexivity]]]].
  - split; cbn [buffers views accessors]; [|split; apply prefix_app]. intros [|i] x Q; rewrite EB in Q; cbn in *.
    + injection Q as <-. eexists. reflexivity.
    + exists []. rewrite app_nil_r. exact Q.
  - unfold getVector. cbn [accessors views buffers]. rewrite size_app. change (size [_]) with 1. assert (SA := size_pos _ (accessors g)).
    destruct (Z.ltb_spec (size (accessors g)) 0); [lia|]. destruct (Z.leb_spec (size (accessors g) + 1) (size (accessors g))); [lia|]. cbn [orb].
    rewrite at_last. cbn [bind a_view a_count a_offset]. rewrite size_app. change (size [_]) with 1. assert (SV := size_pos _ (views g)).
    destruct (Z.leb_spec (size (views g) + 1) (size (views g))); [lia|]. rewrite at_last. cbn [bind v_buffer v_offset].
    destruct (Z.leb_spec (size ((b ++ flat_map (bytes_of L) vals) :: bs)) 0) as [Le|]; [unfold size in Le; cbn [List.length] in Le; lia|].
    cbn [at_ Z.ltb Z.compare Z.to_nat nth_error bind]. rewrite Z.add_0_r. unfold size at 2. rewrite Nat2Z.id.
    apply (elements A L P); assumption.
  - unfold getAccessorType. cbn [accessors]. rewrite size_app. change (size [_]) with 1. assert (SA := size_pos _ (accessors g)).
    destruct (Z.ltb_spec (size (accessors g)) 0); [lia|]. destruct (Z.leb_spec (size (accessors g) + 1) (size (accessors g))); [lia|]. cbn [orb].
    rewrite at_last. reflexivity.
Qed.

Lemma ensure_ext : forall g, ext_data g (ensure g) /\ exists b bs, buffers (ensure g) = b :: bs.
Proof.
  intro g. split; [split; cbn [ensure buffers views accessors]; [|split; apply prefix_refl]|].
  - destruct (buffers g) as [|b bs]; [intros [|i] x Q; discriminate Q|apply grows_refl].
  - cbn [ensure buffers]. destruct (buffers g); eauto.
Qed.

Lemma addPrimitive_ok : forall g m, Forall is_word (indices (geo m)) -> Forall is_vec3 (vertices (geo m)) -> vertices (geo m) <> [] ->
  Forall is_vec3 (normals (geo m)) -> normals (geo m) <> [] ->
  exists g' p, addPrimitiveMesh g m = Ok g' /\ ext_data g g' /\ (exists b bs, buffers g' = b :: bs) /\
    meshes g' = meshes g ++ [[p]] /\ materials g' = materials g ++ [mat m] /\ images g' = images g /\ textures g' = textures g /\
    samplers g' = samplers g /\ sget "TEXCOORD_0" (attributes p) = None /\ p_material p = size (materials g) /\ read_geo g' p = Ok (geo m).
Proof.
  intros g m HI HV NV HN NN. unfold addPrimitiveMesh. destruct (ensure_ext g) as (X0 & b & bs & EB).
  destruct (push_ok _ uint_layout is_word false ELEMENT_ARRAY (ensure g) (indices (geo m)) b bs uint_faithful HI EB ltac:(discriminate))
    as (g1 & E1 & X1 & V1 & T1 & (b1 & B1) & M1 & N1 & S1 & MA1 & I1 & TX1 & SA1). rewrite E1. cbn [bind].
  destruct (push_ok _ vec3_layout is_vec3 true ARRAY g1 (vertices (geo m)) b1 bs vec3_faithful HV B1 (fun _ => NV))
    as (g2 & E2 & X2 & V2 & T2 & (b2 & B2) & M2 & N2 & S2 & MA2 & I2 & TX2 & SA2). rewrite E2. cbn [bind].
  destruct (push_ok _ vec3_layout is_vec3 true ARRAY g2 (normals (geo m)) b2 bs vec3_faithful HN B2 (fun _ => NN))
    as (g3 & E3 & X3 & V3 & T3 & (b3 & B3) & M3 & N3 & S3 & MA3 & I3 & TX3 & SA3). rewrite E3. cbn [bind].
  do 2 eexists. split; [reflexivity|]. cbn [buffers views accessors meshes nodes scenes materials images textures samplers attributes p_material].
  assert (XX : ext_data g g3) by (eapply ext_data_trans; [exact X0|]; eapply ext_data_trans; [exact X1|]; eapply ext_data_trans; eassumption).
  split; [exact XX|]. split; [eauto|].
  rewrite M3, M2, M1, MA3, MA2, MA1, I3, I2, I1, TX3, TX2, TX1, SA3, SA2, SA1. cbn [ensure meshes materials images textures samplers].
  do 6 (split; [reflexivity|]). split; [reflexivity|].
  assert (X13 : ext_data g1 g3) by (eapply ext_data_trans; eassumption).
  match goal with |- read_geo ?g' ?p = _ => assert (XD : ext_data g3 g') by (apply (ext_data_refl g3)) end.
  apply (read_geo_ext g3); [exact XD|]. unfold read_geo. cbn [p_indices attributes].
  rewrite (getType_ext _ _ _ _ X13 T1). cbn [bind]. change (component_of uint_layout =? UNSIGNED_SHORT) with false. cbv iota.
  rewrite (getVector_ext _ uint_layout _ _ _ _ ltac:(cbn; lia) X13 V1). cbn [bind atE dset dget String.eqb Ascii.eqb Bool.eqb].
  rewrite (getVector_ext _ vec3_layout _ _ _ _ ltac:(cbn; lia) X3 V2). cbn [bind]. rewrite V3. cbn [bind]. destruct (geo m); reflexivity.
Qed.

(** ** Textures *)

Lemma extractTexture_ext : forall g g' id t, prefix (images g) (images g') -> prefix (textures g) (textures g') ->
  extractTexture g id = Ok t -> extractTexture g' id = Ok t.
Proof.
  intros g g' id t PI PT E. unfold extractTexture in *. assert (SI := prefix_size _ _ _ PI). assert (ST := prefix_size _ _ _ PT).
  destruct (Z.ltb_spec id 0); [discriminate E|]. destruct (Z.leb_spec (size (textures g)) id); [discriminate E|].
  destruct (Z.leb_spec (size (textures g')) id); [lia|]. cbn [orb] in *. step E. rewrite (at_prefix _ _ _ _ _ PT H2). cbn [bind].
  destruct (Z.leb_spec (size (images g)) (source a)); [discriminate E|]. destruct (Z.leb_spec (size (images g')) (source a)); [lia|].
  step E. rewrite (at_prefix _ _ _ _ _ PI H5). exact E.
Qed.

Lemma addTexture_ok : forall g i, is_image i -> data i <> [] ->
  let (g', id) := addTexture g i in
  extractTexture g' id = Ok i /\ prefix (images g) (images g') /\ prefix (textures g) (textures g').
Proof.
  intros g i (R & C & S & _) NE. cbn [addTexture]. split; [|split; apply prefix_app].
  unfold extractTexture. cbn [textures images]. rewrite !size_app. change (size [_]) with 1. assert (ST := size_pos _ (textures g)). assert (SI := size_pos _ (images g)).
  destruct (Z.ltb_spec (size (textures g)) 0); [lia|]. destruct (Z.leb_spec (size (textures g) + 1) (size (textures g))); [lia|]. cbn [orb].
  rewrite at_last. cbn [bind source]. change (size [_]) with 1. destruct (Z.leb_spec (size (images g) + 1) (size (images g))); [lia|]. rewrite at_last. cbn [bind].
  rewrite firstn_all2 by (unfold size in S; lia). unfold cvImageFromImage. cbn [component pixels width height Z.eqb Pos.eqb negb andb].
  rewrite S, Z.eqb_refl. destruct i; reflexivity.
Qed.

(** ** Whole meshes *)

Definition keeps (g g' : gmodel) (k : nat) : Prop :=
  ext_data g g' /\ (forall p, nth_error (primitives g) k = Some p -> nth_error (primitives g') k = Some p) /\
  prefix (materials g) (materials g') /\ prefix (images g) (images g') /\ prefix (textures g) (textures g').

Lemma material_ext : forall g g' i mt, prefix (materials g) (materials g') -> material_at g i = Ok mt -> material_at g' i = Ok mt.
Proof.
  intros g g' i mt P E. unfold material_at in *. assert (S := prefix_size _ _ _ P).
  destruct (Z.ltb_spec i 0); [discriminate E|]. destruct (Z.leb_spec (size (materials g)) i); [discriminate E|].
  destruct (Z.leb_spec (size (materials g')) i); [lia|]. cbn [orb] in *. eapply at_prefix; eassumption.
Qed.

Lemma extract_map_ext : forall g g' key mt t, prefix (images g) (images g') -> prefix (textures g) (textures g') ->
  extract_map g key mt = Ok t -> extract_map g' key mt = Ok t.
Proof.
  intros g g' key mt t PI PT E. unfold extract_map in *. destruct (sget key (values mt)) as [p|]; [|exact E].
  step E. cbn [bind]. eapply extractTexture_ext; eassumption.
Qed.

Lemma getPrimitive_Ok : forall g k p, getPrimitiveMesh g k = Ok p <-> nth_error (primitives g) k = Some p.
Proof. intros g k p. unfold getPrimitiveMesh. destruct (nth_error (primitives g) k); split; congruence. Qed.

Lemma extract_mesh_keeps : forall g g' k m, keeps g g' k -> extract_mesh g k = Ok m -> extract_mesh g' k = Ok m.
Proof.
  intros g g' k m (XD & XP & PM & PI & PT) E. unfold extract_mesh in *. step E. assert (H' : getPrimitiveMesh g' k = Ok a) by (apply getPrimitive_Ok, XP, getPrimitive_Ok, H).
  rewrite H'. cbn [bind]. step E. destruct a0 as [m0 mt]. assert (H0' : extractPrimitiveMesh g' k = Ok (m0, mt)).
  { apply (extract_geo g' k a m0 mt H'). apply (extract_geo g k a m0 mt H) in H0. destruct H0 as (R & M).
    split; [eapply read_geo_ext; eassumption|eapply material_ext; eassumption]. }
  rewrite H0'. cbn [bind]. destruct (sget "TEXCOORD_0" (attributes a)) as [u|]; [|exact E].
  step E. rewrite (getVector_ext _ vec2_layout _ _ _ _ ltac:(cbn; lia) XD H1). cbn [bind].
  step E. rewrite (extract_map_ext _ _ _ _ _ PI PT H2). cbn [bind]. step E. rewrite (extract_map_ext _ _ _ _ _ PI PT H3). exact E.
Qed.

Lemma empty_iff : forall i, empty i = true <-> data i = [].
Proof. intro i. unfold empty. destruct (data i); split; congruence. Qed.

(** One texture block: afterwards the material extracts to the image. *)
Lemma add_map_ok : forall g key t mt, is_image t -> lists_texture mt key t ->
  exists g' mt', add_map key t (g, mt) = Ok (g', mt') /\
    buffers g' = buffers g /\ views g' = views g /\ accessors g' = accessors g /\ meshes g' = meshes g /\ materials g' = materials g /\ samplers g' = samplers g /\
    prefix (images g) (images g') /\ prefix (textures g) (textures g') /\ name mt' = name mt /\
    (forall k, k <> key -> sget k (values mt') = sget k (values mt)) /\ extract_map g' key mt' = Ok t.
Proof.
  intros g key t mt IM LT. unfold add_map. destruct (empty t) eqn:E.
  - exists g, mt. split; [reflexivity|]. do 6 (split; [reflexivity|]). split; [apply prefix_refl|]. split; [apply prefix_refl|].
    split; [reflexivity|]. split; [reflexivity|]. unfold extract_map. apply empty_iff in E. destruct (sget key (values mt)) as [p|] eqn:Q.
    + exfalso. apply (proj1 LT); eauto.
    + destruct IM as (_ & _ & _ & D). rewrite (D E). reflexivity.
  - assert (NE : data t <> []) by (intro Q; apply empty_iff in Q; congruence).
    destruct (proj2 LT NE) as (p & Q). unfold dmem. rewrite Q. assert (A := addTexture_ok g t IM NE). cbn [addTexture] in *. destruct A as (A1 & A2 & A3).
    do 2 eexists. split; [reflexivity|]. do 6 (split; [reflexivity|]). split; [exact A2|]. split; [exact A3|]. split; [reflexivity|]. split.
    + intros k D. apply dget_dset_other; [apply str_eqb_spec|congruence].
    + unfold extract_map. cbn [values]. rewrite dget_dset_same by apply str_eqb_spec. cbn [json atE dget String.eqb Ascii.eqb Bool.eqb bind]. exact A1.
Qed.

Lemma concat_snoc : forall A (l : list (list A)) x, List.concat (l ++ [x]) = List.concat l ++ x.
Proof. intros. rewrite concat_app. cbn. rewrite app_nil_r. reflexivity. Qed.

Lemma add_ok : forall g m, storable m -> exists g' m', add_mesh g m = Ok g' /\
  List.length (primitives g') = S (List.length (primitives g)) /\ (forall k, keeps g g' k) /\
  extract_mesh g' (List.length (primitives g)) = Ok m' /\ same_content m m'.
Proof.
  intros g m (HI & HV & NV & HN & NN & HT). destruct (addPrimitive_ok g m HI HV NV HN NN) as (g1 & p & E1 & X1 & (b & bs & B1) & M1 & MA1 & I1 & T1 & S1 & TX & PM & RG).
  unfold add_mesh. destruct (tex m) as [[[uv color] rough]|] eqn:ET.
  - destruct HT as (HU & IC & IR & LC & LR). unfold addTexturedPrimitiveMesh. rewrite E1. cbn [bind].
    destruct (push_ok _ vec2_layout is_vec2 false ARRAY g1 uv b bs vec2_faithful HU B1 ltac:(discriminate))
      as (g2 & E2 & X2 & V2 & _ & (b2 & B2) & M2 & _ & _ & MA2 & I2 & TX2 & SA2). rewrite E2. cbn [bind].
    rewrite M2, M1, last_last. unfold set_last. rewrite removelast_last.
    set (p' := Primitive (sset "TEXCOORD_0" (size (accessors g1)) (attributes p)) (p_indices p) (p_material p) (p_mode p)).
    set (g3 := GModel (buffers g2) (views g2) (accessors g2) (meshes g ++ [[p']]) (nodes g2) (scenes g2) (defaultScene g2) (materials g2) (images g2) (textures g2) (samplers g2)).
    destruct (add_map_ok g3 "baseColorTexture" color (mat m) IC LC) as (g4 & mt4 & E4 & B4 & VV4 & A4 & M4 & MA4 & S4 & I4 & T4 & N4 & K4 & X4).
    rewrite E4. cbn [bind].
    assert (LR' : lists_texture mt4 "metallicRoughnessTexture" rough) by (unfold lists_texture; rewrite K4 by discriminate; exact LR).
    destruct (add_map_ok g4 "metallicRoughnessTexture" rough mt4 IR LR') as (g5 & mt5 & E5 & B5 & VV5 & A5 & M5 & MA5 & S5 & I5 & T5 & N5 & K5 & X5).
    rewrite E5. cbn [bind].
    set (g' := GModel (buffers g5) (views g5) (accessors g5) (meshes g5) (nodes g5) (scenes g5) (defaultScene g5)
       (removelast (materials g5) ++ [mt5]) (images g5) (textures g5) (match samplers g5 with [] => [tt] | s :: l => s :: l end)).
    assert (EM : meshes g' = meshes g ++ [[p']]) by (cbn [g' meshes]; rewrite M5, M4; reflexivity).
    assert (EMA : materials g' = materials g ++ [mt5]) by (cbn [g' materials]; rewrite MA5, MA4; cbn [g3 materials]; rewrite MA2, MA1, removelast_last; reflexivity).
    assert (EP : primitives g' = primitives g ++ [p']) by (unfold primitives; rewrite EM, concat_snoc; reflexivity).
    assert (X25 : ext_data g2 g').
    { split; [|split]; cbn [g' buffers views accessors]; rewrite ?B5, ?B4, ?VV5, ?VV4, ?A5, ?A4; cbn [g3 buffers views accessors]; [apply grows_refl|apply prefix_refl|apply prefix_refl]. }
    assert (XA : ext_data g g') by (eapply ext_data_trans; [exact X1|]; eapply ext_data_trans; eassumption).
    assert (PI : prefix (images g) (images g')).
    { cbn [g' images]. eapply prefix_trans; [|exact I5]. replace (images g) with (images g3) by (cbn [g3 images]; congruence). exact I4. }
    assert (PT : prefix (textures g) (textures g')).
    { cbn [g' textures]. eapply prefix_trans; [|exact T5]. replace (textures g) with (textures g3) by (cbn [g3 textures]; congruence). exact T4. }
    exists g', (PMesh (geo m) mt5 (Some (uv, color, rough))). split; [reflexivity|].
    split; [rewrite EP, app_length; cbn; lia|]. split.
    + intro k. split; [exact XA|]. split; [|split; [rewrite EMA; apply prefix_app|split; assumption]].
      intros q Q. rewrite EP. rewrite nth_error_app1; [exact Q|]. apply nth_error_Some. congruence.
    + split.
      * unfold extract_mesh. assert (GP : getPrimitiveMesh g' (List.length (primitives g)) = Ok p').
        { apply getPrimitive_Ok. rewrite EP, nth_error_app2, Nat.sub_diag by lia. reflexivity. }
        rewrite GP. cbn [bind].
        assert (GE : extractPrimitiveMesh g' (List.length (primitives g)) = Ok (geo m, mt5)).
        { apply (extract_geo g' _ p' _ _ GP). split.
          - assert (RG' : read_geo g' p = Ok (geo m)) by (eapply read_geo_ext; [|exact RG]; eapply ext_data_trans; eassumption).
            unfold read_geo in *. cbn [p' p_indices attributes]. unfold atE in *.
            rewrite !dget_dset_other by (try apply str_eqb_spec; discriminate). exact RG'.
          - cbn [p' p_material]. rewrite PM. unfold material_at. rewrite EMA, size_app. change (size [_]) with 1. assert (SM := size_pos _ (materials g)).
            destruct (Z.ltb_spec (size (materials g)) 0); [lia|]. destruct (Z.leb_spec (size (materials g) + 1) (size (materials g))); [lia|]. cbn [orb]. apply at_last. }
        rewrite GE. cbn [bind p' attributes]. rewrite dget_dset_same by apply str_eqb_spec.
        rewrite (getVector_ext _ vec2_layout g2 g' _ uv ltac:(cbn; lia) X25 V2). cbn [bind].
        assert (XC : extract_map g5 "baseColorTexture" mt5 = Ok color).
        { assert (Y := extract_map_ext _ _ _ _ _ I5 T5 X4). unfold extract_map in *. rewrite K5 by discriminate. exact Y. }
        change (extract_map g' "baseColorTexture" mt5) with (extract_map g5 "baseColorTexture" mt5). rewrite XC. cbn [bind].
        change (extract_map g' "metallicRoughnessTexture" mt5) with (extract_map g5 "metallicRoughnessTexture" mt5). rewrite X5. reflexivity.
      * split; [reflexivity|]. split; [symmetry; exact ET|]. cbn [mat]. split; [congruence|]. intros key D1 D2. rewrite K5, K4 by assumption. reflexivity.
  - assert (EP : primitives g1 = primitives g ++ [p]) by (unfold primitives; rewrite M1, concat_snoc; reflexivity).
    exists g1, (PMesh (geo m) (mat m) None). split; [exact E1|]. split; [rewrite EP, app_length; cbn; lia|]. split.
    + intro k. split; [exact X1|]. split; [|split; [rewrite MA1; apply prefix_app|rewrite I1, T1; split; apply prefix_refl]].
      intros q Q. rewrite EP. rewrite nth_error_app1; [exact Q|]. apply nth_error_Some. congruence.
    + split.
      * unfold extract_mesh. assert (GP : getPrimitiveMesh g1 (List.length (primitives g)) = Ok p).
        { apply getPrimitive_Ok. rewrite EP, nth_error_app2, Nat.sub_diag by lia. reflexivity. }
        rewrite GP. cbn [bind]. assert (GE : extractPrimitiveMesh g1 (List.length (primitives g)) = Ok (geo m, mat m)).
        { apply (extract_geo g1 _ p _ _ GP). split; [exact RG|]. rewrite PM. unfold material_at. rewrite MA1, size_app. change (size [_]) with 1. assert (SM := size_pos _ (materials g)).
          destruct (Z.ltb_spec (size (materials g)) 0); [lia|]. destruct (Z.leb_spec (size (materials g) + 1) (size (materials g))); [lia|]. cbn [orb]. apply at_last. }
        rewrite GE. cbn [bind]. rewrite TX. reflexivity.
      * split; [reflexivity|]. split; [symmetry; exact ET|]. split; reflexivity.
Qed.

Lemma keeps_refl : forall g k, keeps g g k.
Proof. intros g k. split; [apply ext_data_refl|]. split; [auto|]. repeat split; apply prefix_refl. Qed.
Lemma keeps_trans : forall a b c k, keeps a b k -> keeps b c k -> keeps a c k.
Proof.
  intros a b c k (A1 & A2 & A3 & A4 & A5) (B1 & B2 & B3 & B4 & B5). split; [eapply ext_data_trans; eassumption|]. split; [auto|].
  repeat split; eapply prefix_trans; eassumption.
Qed.

Lemma mapM_seq_app : forall B (f : nat -> res B) n m a b, mapM f (seq 0 n) = Ok a -> mapM f (seq n m) = Ok b -> mapM f (seq 0 (n + m)) = Ok (a ++ b).
Proof.
  intros B f n m a b. rewrite seq_app. cbn [Nat.add]. generalize (seq n m) as l2. generalize (seq 0 n) as l1. intros l1 l2. revert a.
  induction l1 as [|x l1 IH]; intros a E1 E2; cbn [mapM app] in *; [injection E1 as <-; exact E2|].
  step E1. cbn [bind]. step E1. injection E1 as <-. rewrite (IH _ eq_refl E2). reflexivity.
Qed.

Lemma add_all : forall ms g old, Forall storable ms -> primitive_meshes g = Ok old ->
  exists g' ms', foldM add_mesh g ms = Ok g' /\ primitive_meshes g' = Ok (old ++ ms') /\ Forall2 same_content ms ms'.
Proof.
  intros ms. induction ms as [|m ms IH]; intros g old ST EO.
  - exists g, []. rewrite app_nil_r. repeat split; auto.
  - inversion ST as [|? ? S1 S2]; subst. destruct (add_ok g m S1) as (g1 & m' & E1 & L1 & K1 & X1 & C1).
    assert (EO1 : primitive_meshes g1 = Ok (old ++ [m'])).
    { unfold primitive_meshes in *. rewrite L1, <- Nat.add_1_r. apply mapM_seq_app.
      - eapply mapM_mono; [|exact EO]. intros k x. apply extract_mesh_keeps, K1.
      - cbn [seq mapM]. rewrite X1. reflexivity. }
    destruct (IH g1 _ S2 EO1) as (g' & ms' & E' & P' & F'). exists g', (m' :: ms'). cbn [foldM]. rewrite E1. cbn [bind].
    split; [exact E'|]. split; [rewrite <- app_assoc in P'; exact P'|]. constructor; assumption.
Qed.

(** ** Changing a material *)

Lemma set_nth_length : forall A (l : list A) i x, List.length (set_nth l i x) = List.length l.
Proof. intros A l. induction l as [|y l IH]; intros [|i] x; cbn; auto. Qed.
Lemma set_nth_same : forall A (l : list A) i x, (i < List.length l)%nat -> nth_error (set_nth l i x) i = Some x.
Proof. intros A l. induction l as [|y l IH]; intros [|i] x L; cbn in *; try lia; auto. apply IH. lia. Qed.
Lemma set_nth_other : forall A (l : list A) i j x, i <> j -> nth_error (set_nth l i x) j = nth_error l j.
Proof. intros A l. induction l as [|y l IH]; intros [|i] [|j] x D; cbn; try congruence; auto. Qed.

Lemma nth_concat : forall ms k mt p, nth_error (List.concat ms) k = Some p ->
  List.concat (set_material ms k mt) = set_nth (List.concat ms) k (Primitive (attributes p) (p_indices p) mt (p_mode p)).
Proof.
  assert (SA : forall A (a b : list A) k x, (k < List.length a)%nat -> set_nth (a ++ b) k x = set_nth a k x ++ b).
  { intros A a. induction a as [|y a IH]; intros b k x L; [cbn in L; lia|]. destruct k as [|k]; cbn [set_nth app]; [reflexivity|]. rewrite IH by (cbn in L; lia). reflexivity. }
  assert (SB : forall A (a b : list A) k x, (List.length a <= k)%nat -> set_nth (a ++ b) k x = a ++ set_nth b (k - List.length a) x).
  { intros A a. induction a as [|y a IH]; intros b k x L; [cbn; rewrite Nat.sub_0_r; reflexivity|]. destruct k as [|k]; [cbn in L; lia|]. cbn [set_nth app List.length Nat.sub]. rewrite IH by (cbn in L; lia). reflexivity. }
  induction ms as [|ps ms IH]; intros k mt p E; cbn [List.concat set_material] in *; [destruct k; discriminate E|].
  destruct (Nat.ltb_spec k (List.length ps)) as [L|L].
  - rewrite nth_error_app1 in E by exact L. rewrite E. cbn [List.concat]. rewrite SA by exact L. reflexivity.
  - rewrite nth_error_app2 in E by exact L. cbn [List.concat]. rewrite (IH _ _ _ E), SB by exact L. reflexivity.
Qed.

Section Update.
Variables (file : string -> option (list Z)) (decode : list Z -> Z * Z * Z * list Z).

Lemma load_ext : forall g path dir g' t, loadTexture file decode g path dir = Ok (g', t) ->
  ext_data g g' /\ meshes g' = meshes g /\ materials g' = materials g /\ prefix (images g) (images g') /\ prefix (textures g) (textures g').
Proof.
  intros g path dir g' t E. unfold loadTexture in E. destruct (file (dir ++ "/" ++ path)%string) as [[|x l]|]; try discriminate E.
  destruct (decode (x :: l)) as [[[w h] c] px]. injection E as <- <-. repeat split; try apply prefix_refl; try apply prefix_app. apply grows_refl.
Qed.

Definition tint (r gr b : Q) (mt : material) : list (string * param) :=
  if negb (Qeq_bool r 0) && negb (Qeq_bool gr 0) && negb (Qeq_bool b 0)
  then sset "baseColorFactor" (Param [r; gr; b; 1%Q] 0%Q []) (values mt) else values mt.

Lemma update_shape : forall g k r gr b path dir g', updateMaterial file decode g k (r, gr, b) path dir = Ok g' ->
  exists p mt vals, nth_error (primitives g) k = Some p /\ material_at g (p_material p) = Ok mt /\
    ext_data g g' /\ prefix (images g) (images g') /\ prefix (textures g) (textures g') /\
    primitives g' = set_nth (primitives g) k (Primitive (attributes p) (p_indices p) (size (materials g)) (p_mode p)) /\
    materials g' = materials g ++ [Material (material_name (size (materials g))) vals] /\
    (path = "" /\ vals = tint r gr b mt \/
     path <> "" /\ exists g1 t, loadTexture file decode g path dir = Ok (g1, t) /\ images g' = images g1 /\ textures g' = textures g1 /\
       vals = sset "baseColorTexture" (index_param t) (tint r gr b mt)).
Proof.
  intros g k r gr b path dir g' E. unfold updateMaterial in E. destruct (nth_error (primitives g) k) as [p|] eqn:EP; [|discriminate E].
  destruct ((p_material p <? 0) || (size (materials g) <=? p_material p)) eqn:EM; [discriminate E|].
  step E. fold (tint r gr b a) in E. destruct (String.eqb_spec path "") as [->|NP].
  - cbn [bind] in E. injection E as <-. do 3 eexists. split; [reflexivity|]. split; [unfold material_at; rewrite EM; eassumption|].
    split; [apply (ext_data_refl g)|]. split; [apply prefix_refl|]. split; [apply prefix_refl|].
    split; [unfold primitives; cbn [meshes]; apply nth_concat; exact EP|]. split; [reflexivity|]. left. split; reflexivity.
  - step E. destruct a0 as [g2 vals]. destruct (loadTexture file decode g path dir) as [[g1 t]|] eqn:EL; [|discriminate H0].
    cbn [bind] in H0. injection H0 as <- <-. destruct (load_ext _ _ _ _ _ EL) as (X & M & MA & PI & PT). injection E as <-. cbn [bind].
    do 3 eexists. split; [reflexivity|]. split; [unfold material_at; rewrite EM; eassumption|]. split; [exact X|]. split; [exact PI|]. split; [exact PT|].
    split; [unfold primitives; cbn [meshes]; rewrite M, MA; apply nth_concat; exact EP|]. cbn [materials]. rewrite MA. split; [reflexivity|].
    right. split; [exact NP|]. exists g1, t. split; [reflexivity|]. repeat split; reflexivity.
Qed.

Lemma update_keeps : forall g k r gr b path dir g', updateMaterial file decode g k (r, gr, b) path dir = Ok g' ->
  List.length (primitives g') = List.length (primitives g) /\ forall j, j <> k -> keeps g g' j.
Proof.
  intros g k r gr b path dir g' E. destruct (update_shape _ _ _ _ _ _ _ _ E) as (p & mt & vals & EP & _ & X & PI & PT & EPS & EMA & _).
  split; [rewrite EPS; apply set_nth_length|]. intros j D. split; [exact X|]. split; [|split; [rewrite EMA; apply prefix_app|split; assumption]].
  intros q Q. rewrite EPS, set_nth_other by congruence. exact Q.
Qed.

Lemma updates_keep : forall l g k dir g', update_from file decode g k dir l = Ok g' ->
  List.length (primitives g') = List.length (primitives g) /\
  forall j, (j < k \/ nth_error l (j - k) = None \/ nth_error l (j - k) = Some None)%nat -> keeps g g' j.
Proof.
  induction l as [|x l IH]; intros g k dir g' E; cbn [update_from] in E.
  - injection E as <-. split; [reflexivity|]. intros. apply keeps_refl.
  - step E. destruct (IH _ _ _ _ E) as (L & K).
    assert (H1 : List.length (primitives a) = List.length (primitives g) /\ forall j, (j <> k \/ x = None) -> keeps g a j).
    { destruct (Nat.ltb k (List.length (primitives g))); [destruct x as [[[[r gr] b] path]|]|].
      - destruct (update_keeps _ _ _ _ _ _ _ _ H) as (L1 & K1). split; [exact L1|]. intros j [D|D]; [apply K1, D|discriminate D].
      - injection H as <-. split; [reflexivity|]. intros; apply keeps_refl.
      - injection H as <-. split; [reflexivity|]. intros; apply keeps_refl. }
    destruct H1 as (L1 & K1). split; [congruence|]. intros j C.
    destruct (Nat.lt_trichotomy j k) as [Lt|[->|Gt]].
    + eapply keeps_trans; [apply K1; left; lia|]. apply K. left. lia.
    + rewrite Nat.sub_diag in C. cbn in C. assert (x = None) by (destruct C as [C|[C|C]]; [lia|discriminate C|congruence]).
      eapply keeps_trans; [apply K1; right; assumption|]. apply K. left. lia.
    + eapply keeps_trans; [apply K1; left; lia|]. apply K. right. destruct C as [C|C]; [lia|].
      replace (j - k)%nat with (S (j - S k)) in C by lia. exact C.
Qed.

Lemma tint_other : forall r gr b mt key, key <> "baseColorFactor" -> sget key (tint r gr b mt) = sget key (values mt).
Proof.
  intros r gr b mt key D. unfold tint. destruct (negb (Qeq_bool r 0) && negb (Qeq_bool gr 0) && negb (Qeq_bool b 0)); [|reflexivity].
  apply dget_dset_other; [apply str_eqb_spec|congruence].
Qed.
Lemma tint_factor : forall r gr b mt,
  (~ r == 0 -> ~ gr == 0 -> ~ b == 0 -> sget "baseColorFactor" (tint r gr b mt) = Some (Param [r; gr; b; 1%Q] 0%Q []))%Q /\
  (r == 0 \/ gr == 0 \/ b == 0 -> sget "baseColorFactor" (tint r gr b mt) = sget "baseColorFactor" (values mt))%Q.
Proof.
  intros r gr b mt. unfold tint. split.
  - intros N1 N2 N3. rewrite (proj1 (not_true_iff_false _) (fun E => N1 (Qeq_bool_eq _ _ E))), (proj1 (not_true_iff_false _) (fun E => N2 (Qeq_bool_eq _ _ E))),
      (proj1 (not_true_iff_false _) (fun E => N3 (Qeq_bool_eq _ _ E))). cbn [negb andb]. apply dget_dset_same, str_eqb_spec.
  - intros [E|[E|E]]; rewrite (Qeq_eq_bool _ _ E); cbn [negb]; rewrite ?andb_false_r; reflexivity.
Qed.
End Update.

(** ** Saving *)

Lemma digits_inj : forall a b, DecimalString.NilZero.string_of_uint (Nat.to_uint a) = DecimalString.NilZero.string_of_uint (Nat.to_uint b) -> a = b.
Proof.
  assert (NN : forall n, Nat.to_uint n <> Decimal.Nil).
  { intro n. rewrite <- (DecimalNat.Unsigned.of_to n), DecimalNat.Unsigned.to_of. unfold Decimal.unorm. destruct (Decimal.nzhead (Nat.to_uint n)); discriminate. }
  intros a b E. apply DecimalNat.Unsigned.to_uint_inj.
  assert (H : Some (Nat.to_uint a) = Some (Nat.to_uint b)); [|congruence].
  rewrite <- (DecimalString.NilZero.usu _ (NN a)), <- (DecimalString.NilZero.usu _ (NN b)), E. reflexivity.
Qed.

Lemma append_inj : forall s a b, (a ++ s)%string = (b ++ s)%string -> a = b.
Proof.
  assert (LEN : forall a b, String.length (a ++ b)%string = (String.length a + String.length b)%nat) by (induction a as [|c a IH]; intro b; cbn; [reflexivity|rewrite IH; reflexivity]).
  intros s a. induction a as [|c a IH]; intros [|d b] E; try reflexivity; try (apply (f_equal String.length) in E; cbn in E; rewrite LEN in E; lia).
  cbn in E. injection E as -> E. rewrite (IH _ E). reflexivity.
Qed.

Lemma png_inj : forall a b, png (Z.of_nat a) = png (Z.of_nat b) -> a = b.
Proof. intros a b E. unfold png in E. rewrite !Nat2Z.id in E. apply append_inj in E. apply digits_inj, E. Qed.

Lemma save_fold : forall is fs, (forall i, In i is -> pixels i <> [] /\ uri i <> "" /\ exists pic, cvImageFromImage i = Ok pic) ->
  NoDup (map uri is) -> (forall i, In i is -> ~ In (uri i) (map fst fs)) ->
  exists pics, mapM cvImageFromImage is = Ok pics /\
  foldM (fun fs i => match pixels i with
    | [] => Err RuntimeError
    | _ => let* m := cvImageFromImage i in if String.eqb (uri i) "" then Err InvalidArgument else Ok (sset (uri i) m fs)
    end) fs is = Ok (fs ++ combine (map uri is) pics).
Proof.
  induction is as [|i is IH]; intros fs V ND NI; cbn [foldM map].
  - exists []. split; [reflexivity|]. rewrite app_nil_r. reflexivity.
  - destruct (V i (or_introl eq_refl)) as (NP & NU & pic & EC). destruct (pixels i) as [|x px] eqn:EP; [contradiction|].
    rewrite EC. cbn [bind]. destruct (String.eqb_spec (uri i) "") as [|_]; [contradiction|]. cbn [bind]. inversion ND as [|? ? N1 N2]; subst.
    assert (F : sset (uri i) pic fs = fs ++ [(uri i, pic)]).
    { apply dset_fresh; [apply str_eqb_spec|]. apply NI. left. reflexivity. }
    rewrite F. destruct (IH (fs ++ [(uri i, pic)])) as (pics & E1 & E2).
    + intros j J. apply V. right. exact J.
    + exact N2.
    + intros j J. rewrite map_app, in_app_iff. intros [C|[C|[]]]; [apply (NI j); [right|]; assumption|]. apply N1. cbn in C. rewrite C. apply in_map, J.
    + exists (pic :: pics). cbn [mapM]. rewrite EC. cbn [bind]. rewrite E1. split; [reflexivity|]. cbn [combine map].
      rewrite E2, <- app_assoc. reflexivity.
Qed.

Definition savable (i : image) : Prop := pixels i <> [] /\ uri i <> "" /\ exists pic, cvImageFromImage i = Ok pic.
Definition named (g : gmodel) : Prop :=
  forall k i, nth_error (images g) k = Some i -> uri i = png (Z.of_nat k) /\ savable i.

Lemma png_nonempty : forall n, png n <> "".
Proof. intros n. unfold png. destruct (DecimalString.NilZero.string_of_uint (Nat.to_uint (Z.to_nat n))); discriminate. Qed.

Lemma push_images : forall A (L : layout A) f t g v g' n, pushData L f t g v = Ok (g', n) -> images g' = images g.
Proof.
  intros A L f t g v g' n E. unfold pushData in E. destruct (f && (size v =? 0)); [discriminate E|]. unfold reallyAddToBuffer in E.
  destruct (buffers g); [discriminate E|]. cbn [bind] in E. injection E as <- _. reflexivity.
Qed.
Lemma addPrimitive_images : forall g m g', addPrimitiveMesh g m = Ok g' -> images g' = images g.
Proof.
  intros g m g' E. unfold addPrimitiveMesh in E. step E. destruct a as [g1 i]. step E. destruct a as [g2 v]. step E. destruct a as [g3 n]. injection E as <-. cbn [images].
  rewrite (push_images _ _ _ _ _ _ _ _ H1), (push_images _ _ _ _ _ _ _ _ H0), (push_images _ _ _ _ _ _ _ _ H). reflexivity.
Qed.

Lemma add_map_named : forall key t g mt g' mt', is_image t -> named g -> add_map key t (g, mt) = Ok (g', mt') -> named g'.
Proof.
  intros key t g mt g' mt' IM N E. unfold add_map in E. destruct (empty t) eqn:EE; [injection E as <- <-; exact N|].
  destruct (smem key (values mt)); [|discriminate E]. cbn [addTexture] in E. injection E as <- _. intros k i Q. cbn [images] in Q.
  assert (NE : data t <> []) by (intro C; apply empty_iff in C; congruence). destruct IM as (R & C & S & _).
  destruct (Nat.lt_ge_cases k (List.length (images g))) as [L|L].
  - rewrite nth_error_app1 in Q by exact L. apply N, Q.
  - rewrite nth_error_app2 in Q by exact L. destruct (k - List.length (images g))%nat as [|n] eqn:EK; [|destruct n; discriminate Q].
    injection Q as <-. cbn [uri]. replace k with (List.length (images g)) by lia. split; [reflexivity|].
    rewrite firstn_all2 by (unfold size in S; lia). split; [exact NE|]. split; [apply png_nonempty|].
    unfold cvImageFromImage. cbn [component pixels width height Z.eqb Pos.eqb negb andb]. rewrite S, Z.eqb_refl. eexists; reflexivity.
Qed.

Lemma add_named : forall g m g', storable m -> named g -> add_mesh g m = Ok g' -> named g'.
Proof.
  intros g m g' ST N E. unfold add_mesh in E. destruct ST as (_ & _ & _ & _ & _ & HT). destruct (tex m) as [[[uv color] rough]|].
  - destruct HT as (_ & IC & IR & _). unfold addTexturedPrimitiveMesh in E. step E. assert (N1 : named a) by (unfold named; rewrite (addPrimitive_images _ _ _ H); exact N).
    step E. destruct a0 as [g2 u]. assert (N2 : named g2) by (unfold named; rewrite (push_images _ _ _ _ _ _ _ _ H0); exact N1).
    step E. destruct a0 as [g3 mt3]. assert (N3 : named g3) by (eapply add_map_named; [exact IC| |eassumption]; exact N2).
    step E. destruct a0 as [g4 mt4]. assert (N4 : named g4) by (eapply add_map_named; [exact IR| |eassumption]; exact N3).
    injection E as <-. exact N4.
  - unfold named. rewrite (addPrimitive_images _ _ _ E). exact N.
Qed.

Lemma adds_named : forall ms g g', Forall storable ms -> named g -> foldM add_mesh g ms = Ok g' -> named g'.
Proof.
  induction ms as [|m ms IH]; intros g g' ST N E; cbn [foldM] in E; [injection E as <-; exact N|].
  inversion ST; subst. step E. eapply IH; [eassumption| |exact E]. eapply add_named; eassumption.
Qed.

Lemma named_distinct : forall g, named g -> NoDup (map uri (images g)).
Proof.
  intros g N. apply NoDup_nth_error. intros i j L E. rewrite map_length in L.
  destruct (nth_error (images g) i) as [x|] eqn:EI; [|apply nth_error_None in EI; lia].
  rewrite !nth_error_map, EI in E. cbn in E. destruct (nth_error (images g) j) as [y|] eqn:EJ; [|discriminate E]. cbn in E. injection E as E.
  rewrite (proj1 (N _ _ EI)), (proj1 (N _ _ EJ)) in E. apply png_inj, E.
Qed.

Lemma combine_get : forall (us : list string) (ps : list mat3b) k u p, NoDup us -> nth_error us k = Some u -> nth_error ps k = Some p ->
  sget u (combine us ps) = Some p.
Proof.
  induction us as [|x us IH]; intros [|y ps] [|k] u p ND E1 E2; try discriminate; cbn [nth_error combine dget] in *.
  - injection E1 as ->. injection E2 as ->. rewrite String.eqb_refl. reflexivity.
  - inversion ND as [|? ? N1 N2]; subst. destruct (String.eqb_spec u x) as [->|_]; [exfalso; apply N1; eapply nth_error_In; eassumption|]. eapply IH; eassumption.
Qed.

Lemma mapM_nth : forall A B (f : A -> res B) l r, mapM f l = Ok r -> List.length r = List.length l /\
  forall k x, nth_error l k = Some x -> exists y, nth_error r k = Some y /\ f x = Ok y.
Proof.
  intros A B f. induction l as [|a l IH]; intros r E; cbn [mapM] in E; [injection E as <-; split; [reflexivity|intros [|k] x Q; discriminate Q]|].
  step E. step E. injection E as <-. destruct (IH _ eq_refl) as (L & K). split; [cbn; congruence|]. intros [|k] x Q; cbn [nth_error] in *; [injection Q as <-; eauto|apply K, Q].
Qed.

Lemma save_all : forall g, NoDup (map uri (images g)) -> Forall savable (images g) ->
  exists fs, saveImages g = Ok fs /\ map fst fs = map uri (images g) /\
    forall i, In i (images g) -> exists pic, cvImageFromImage i = Ok pic /\ sget (uri i) fs = Some pic.
Proof.
  intros g ND SV. destruct (save_fold (images g) []) as (pics & E1 & E2).
  - intros i I. apply (proj1 (Forall_forall _ _) SV i I).
  - exact ND.
  - intros i _ [].
  - destruct (mapM_nth _ _ _ _ _ E1) as (L & K). exists (combine (map uri (images g)) pics). split; [exact E2|]. split.
    + assert (X : List.length pics = List.length (map uri (images g))) by (rewrite map_length; exact L). revert X. generalize (map uri (images g)) as us. clear.
      intros us. revert pics. induction us as [|u us IH]; intros [|p ps] X; cbn in *; try discriminate X; [reflexivity|]. rewrite IH by congruence. reflexivity.
    + intros i I. destruct (In_nth_error _ _ I) as (k & EK). destruct (K _ _ EK) as (pic & P1 & P2). exists pic. split; [exact P2|].
      eapply combine_get; [exact ND| |exact P1]. rewrite nth_error_map, EK. reflexivity.
Qed.

Lemma extractTexture_image : forall g id t, extractTexture g id = Ok t -> exists i, In i (images g) /\ cvImageFromImage i = Ok t.
Proof.
  intros g id t E. unfold extractTexture in E. destruct ((id <? 0) || (size (textures g) <=? id)); [discriminate E|]. step E.
  destruct (size (images g) <=? source a); [discriminate E|]. step E. exists a0. split; [|exact E].
  unfold at_ in H0. destruct (source a <? 0); [discriminate H0|]. destruct (nth_error (images g) (Z.to_nat (source a))) eqn:Q; [|discriminate H0]. injection H0 as ->. eapply nth_error_In; exact Q.
Qed.
Lemma extract_map_image : forall g key mt t, extract_map g key mt = Ok t -> data t <> [] -> exists i, In i (images g) /\ cvImageFromImage i = Ok t.
Proof.
  intros g key mt t E NE. unfold extract_map in E. destruct (sget key (values mt)); [step E; eapply extractTexture_image; eassumption|].
  injection E as <-. contradiction.
Qed.
