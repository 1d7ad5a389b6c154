(** The meshes of the model that was loaded. *)
From Coq Require Import List Bool ZArith QArith Ascii String Sorted Lia.
From Verif.Base Require Import Py.
From Verif.Mesh Require Model.
From Verif.Gltf Require Model Spec Proofs.
From Verif.Doc Require Import Model Facts.
From Verif.Doc Require Import Spec.
From Verif.Trip Require Import Model Spec Floats Building Adding.
Import ListNotations.
Local Open Scope Z_scope.

Ltac gfields := cbn [Gltf.Model.buffers Gltf.Model.views Gltf.Model.accessors Gltf.Model.meshes Gltf.Model.nodes Gltf.Model.scenes Gltf.Model.defaultScene Gltf.Model.materials Gltf.Model.images Gltf.Model.textures Gltf.Model.samplers].
Lemma map_ext_Forall : forall A B C (h : A -> B) (u : A -> C) (v : B -> C) l, Forall (fun x => v (h x) = u x) l -> map v (map h l) = map u l.
Proof. intros A B C h u v l F. rewrite map_map. induction F as [|x l X F IH]; [reflexivity|]. cbn [map]. rewrite X, IH. reflexivity. Qed.
Lemma impl : forall A (P R : A -> Prop) l, Forall P l -> (forall x, P x -> R x) -> Forall R l.
Proof. intros A P R l F H. eapply Forall_impl; [exact H|exact F]. Qed.

Section After.
  Variables (f f32 : Q -> Q) (bin : string).

  Lemma seen_after : forall a n x g, building a n x g ->
    seen (after_model f f32 bin (map im_data (images g)) g) =
    Gltf.Model.GModel (map bu_data (buffers g)) (map view_of (views g)) (map accessor_of (accessors g))
      (map (fun e => map primitive_of (me_primitives e)) (meshes g)) (map no_mesh (nodes g)) (map sc_nodes (scenes g)) (default_scene g)
      (map (fun mt => material_of (after_material f mt)) (materials g)) (map image_of (images g)) (map texture_of (textures g)) (map (fun _ => tt) (samplers g)).
  Proof.
    intros a n x g B. destruct B as [? ? ? ? B_A B_V B_M B_N B_T B_I B_S B_MA B_R]. destruct B_R as (_ & _ & _ & _ & _ & _ & _ & _ & _ & R10).
    unfold seen, after_model. fields. f_equal.
    - apply map_ext_Forall. apply Forall_forall. reflexivity.
    - apply map_ext_Forall. eapply impl; [exact B_V|]. intros v (o & m & st & ta & -> & O & M & ST & TA). destruct ST as [<-|[<-|[]]], TA as [<-|[<-|[]]]; reflexivity.
    - apply map_ext_Forall. eapply impl; [exact B_A|]. intros v (vi & co & m & ty & lo & hi & -> & _). reflexivity.
    - apply map_ext_Forall. eapply impl; [exact B_M|]. intros e (p & -> & l & mt & i & -> & A & MT & I). cbn [after_mesh me_primitives map]. unfold after_primitive, primitive_of.
      cbn [pr_attributes pr_material pr_indices pr_mode pr_targets pr_extras]. rewrite !Z.max_r by lia. reflexivity.
    - apply map_ext_Forall. apply Forall_forall. reflexivity.
    - apply map_ext_Forall. apply Forall_forall. reflexivity.
    - destruct R10 as [-> | ->]; reflexivity.
    - rewrite map_map. reflexivity.
    - rewrite map_map. clear. induction (images g) as [|i l IH]; [reflexivity|]. cbn [map combine fst snd]. rewrite IH. reflexivity.
    - apply map_ext_Forall. eapply impl; [exact B_T|]. intros te (k & -> & K). reflexivity.
    - apply map_ext_Forall. apply Forall_forall. reflexivity.
  Qed.

  Lemma get_seen : forall k mt, sget k (Gltf.Model.values (material_of mt)) = match get k (ma_values mt) with Some p => Some (param_of p) | None => None end.
  Proof.
    intros k mt. cbn [material_of Gltf.Model.values]. induction (ma_values mt) as [|[y p] l IH]; [reflexivity|]. cbn [map fst snd dget get]. rewrite String.eqb_sym.
    destruct (String.eqb y k); [reflexivity|exact IH].
  Qed.
  Lemma get_after : forall k l, get k (after_parameters f l) = match get k l with Some p => Some (after_parameter f p) | None => None end.
  Proof.
    intros k l. induction l as [|[y p] l IH]; [reflexivity|]. unfold after_parameters in *. cbn [map fst snd get]. destruct (String.eqb y k); [reflexivity|exact IH].
  Qed.
  Lemma texture_after : forall key mt, a_texture mt key -> sget key (Gltf.Model.values (material_of (after_material f mt))) = sget key (Gltf.Model.values (material_of mt)).
  Proof.
    intros key mt A. rewrite !get_seen. cbn [after_material ma_values]. rewrite get_after. destruct A as [->|(id & ->)]; [reflexivity|]. do 2 f_equal.
    unfold texture_parameter, after_parameter. cbn [map]. unfold after_entry. cbn [fst snd]. change (String.eqb "index" "index") with true. cbv iota. rewrite trunc_int. reflexivity.
  Qed.

  (** Other materials that list the same textures. *)
  Lemma extract_other : forall h mts k t p, Gltf.Model.extract_mesh h k = Ok t -> Gltf.Model.getPrimitiveMesh h k = Ok p ->
    let h' := Gltf.Model.GModel (Gltf.Model.buffers h) (Gltf.Model.views h) (Gltf.Model.accessors h) (Gltf.Model.meshes h) (Gltf.Model.nodes h) (Gltf.Model.scenes h)
      (Gltf.Model.defaultScene h) mts (Gltf.Model.images h) (Gltf.Model.textures h) (Gltf.Model.samplers h) in
    (exists mt', at_ mts (Gltf.Model.p_material p) = Ok mt' /\
       (Gltf.Model.tex t <> None -> forall key, In key ["baseColorTexture"; "metallicRoughnessTexture"]%string -> sget key (Gltf.Model.values mt') = sget key (Gltf.Model.values (Gltf.Model.mat t)))) ->
    len mts = len (Gltf.Model.materials h) ->
    exists t', Gltf.Model.extract_mesh h' k = Ok t' /\ Gltf.Model.geo t' = Gltf.Model.geo t /\ Gltf.Model.tex t' = Gltf.Model.tex t.
  Proof.
    intros h mts k t p E P h' (mt' & AT & SG) L. assert (P' : Gltf.Model.getPrimitiveMesh h' k = Ok p) by exact P.
    unfold Gltf.Model.extract_mesh in *. rewrite P in E. rewrite P'. cbn [bind] in E |- *. destruct (Gltf.Model.extractPrimitiveMesh h k) as [[m0 mt]|] eqn:EP; [|discriminate E]. cbn [bind] in E.
    apply (Gltf.Proofs.extract_geo h k p m0 mt P) in EP. destruct EP as [EG EM].
    assert (EP' : Gltf.Model.extractPrimitiveMesh h' k = Ok (m0, mt')).
    { apply (Gltf.Proofs.extract_geo h' k p m0 mt' P'). split; [exact EG|]. unfold Gltf.Model.material_at in *. cbn [h' Gltf.Model.materials]. rewrite L. destruct (_ || _)%bool; [discriminate EM|]. exact AT. }
    rewrite EP'. cbn [bind]. destruct (sget "TEXCOORD_0"%string (Gltf.Model.attributes p)) as [u|].
    - change (Gltf.Model.getVector Gltf.Model.vec2_layout h' u) with (Gltf.Model.getVector Gltf.Model.vec2_layout h u). destruct (Gltf.Model.getVector Gltf.Model.vec2_layout h u) as [uv|]; [|discriminate E]. cbn [bind] in *.
      destruct (Gltf.Model.extract_map h "baseColorTexture"%string mt) as [c|] eqn:E1; [|discriminate E]. cbn [bind] in E. destruct (Gltf.Model.extract_map h "metallicRoughnessTexture"%string mt) as [r|] eqn:E2; [|discriminate E]. cbn [bind] in E.
      injection E as <-. cbn [Gltf.Model.tex Gltf.Model.mat Gltf.Model.geo] in *. specialize (SG ltac:(discriminate)).
      assert (E1' : Gltf.Model.extract_map h' "baseColorTexture"%string mt' = Ok c) by (unfold Gltf.Model.extract_map in *; rewrite SG by (cbn; tauto); exact E1).
      assert (E2' : Gltf.Model.extract_map h' "metallicRoughnessTexture"%string mt' = Ok r) by (unfold Gltf.Model.extract_map in *; rewrite SG by (cbn; tauto); exact E2).
      rewrite E1', E2'. cbn [bind]. eexists. split; [reflexivity|split; reflexivity].
    - injection E as <-. eexists. split; [reflexivity|split; reflexivity].
  Qed.

  Lemma mapM_build : forall A B (R : A -> B -> Prop) (F : nat -> res B) ts s, (forall k t, nth_error ts k = Some t -> exists t', F (s + k)%nat = Ok t' /\ R t t') ->
    exists ts', mapM F (seq s (List.length ts)) = Ok ts' /\ Forall2 R ts ts'.
  Proof.
    intros A B R F ts. induction ts as [|t ts IH]; intros s H; [exists []; split; [reflexivity|constructor]|]. destruct (H 0%nat t eq_refl) as (t' & E & RT). rewrite Nat.add_0_r in E.
    destruct (IH (S s)) as (ts' & E' & RT'). { intros k u K. destruct (H (S k) u K) as (u' & U & RU). exists u'. split; [|exact RU]. rewrite <- U. f_equal. lia. }
    exists (t' :: ts'). cbn [List.length seq mapM]. rewrite E, E'. split; [reflexivity|constructor; assumption].
  Qed.
  Lemma Forall2_nth : forall A B (R : A -> B -> Prop) l l' k x, Forall2 R l l' -> nth_error l k = Some x -> exists y, nth_error l' k = Some y /\ R x y.
  Proof. intros A B R l l' k x F. revert k. induction F as [|a b l l' X F IH]; intros [|k] E; try discriminate E; [injection E as <-; exists b; split; [reflexivity|exact X]|apply IH, E]. Qed.
  Lemma Forall2_len : forall A B (R : A -> B -> Prop) l l', Forall2 R l l' -> List.length l = List.length l'.
  Proof. intros A B R l l' F. induction F; cbn [List.length]; [reflexivity|f_equal; assumption]. Qed.
  Lemma mats_nth : forall N (ps : list (list Gltf.Model.primitive)) (s : nat), map (map Gltf.Model.p_material) ps = map (fun k => [Z.of_nat k]) (seq s N) ->
    forall k p, nth_error (List.concat ps) k = Some p -> Gltf.Model.p_material p = Z.of_nat (s + k).
  Proof.
    induction N as [|N IH]; intros ps s E k p K; destruct ps as [|q ps]; try discriminate E; [destruct k; discriminate K|]. cbn [map seq] in E. injection E as E1 E2.
    destruct q as [|y [|z q]]; try discriminate E1. injection E1 as E1. cbn [List.concat app] in K. destruct k as [|k]; [injection K as <-; rewrite Nat.add_0_r; exact E1|].
    cbn [nth_error] in K. rewrite (IH ps (S s) E2 k p K). f_equal. lia.
  Qed.

  Lemma meshes_after : forall a n x g ts ms', building a n x g -> Gltf.Model.primitive_meshes (seen g) = Ok ms' ->
    Forall2 Gltf.Spec.same_content (map seen_mesh ts) ms' -> Forall2 became ts (materials g) -> mats g = map (fun k => [Z.of_nat k]) (seq 0 (List.length ts)) ->
    exists ts', primitive_meshes (after_model f f32 bin (map im_data (images g)) g) = Ok ts' /\ Forall2 (same_content f) ts ts'.
  Proof.
    intros a n x g ts ms' B PM F W MM. set (g' := after_model f f32 bin (map im_data (images g)) g). assert (SA := seen_after a n x g B). fold g' in SA.
    unfold Gltf.Model.primitive_meshes in PM. destruct (Gltf.Proofs.mapM_nth _ _ _ _ _ PM) as [LM NM]. rewrite seq_length in LM. assert (LF := Forall2_len _ _ _ _ _ F). rewrite map_length in LF.
    unfold primitive_meshes. rewrite SA. unfold Gltf.Model.primitives at 1. gfields. change (List.concat (map (fun e => map primitive_of (me_primitives e)) (meshes g))) with (Gltf.Model.primitives (seen g)). rewrite <- LM, <- LF.
    apply mapM_build. intros k t K. cbn [Nat.add].
    assert (KL : (k < List.length ts)%nat) by (apply nth_error_Some; congruence).
    assert (SK : nth_error (seq 0 (List.length (Gltf.Model.primitives (seen g)))) k = Some k).
    { rewrite (nth_error_nth' _ 0%nat) by (rewrite seq_length; lia). rewrite seq_nth by lia. reflexivity. }
    destruct (NM _ _ SK) as (m' & NM1 & NM2). assert (K' : nth_error (map seen_mesh ts) k = Some (seen_mesh t)) by (rewrite nth_error_map, K; reflexivity).
    destruct (Forall2_nth _ _ _ _ _ _ _ F K') as (m2 & Y1 & (SC1 & SC2 & SC3 & SC4)). assert (m2 = m') by congruence. subst m2. cbn [seen_mesh Gltf.Model.geo Gltf.Model.tex] in SC1, SC2.
    destruct (Forall2_nth _ _ _ _ _ _ _ W K) as (mt & MT & (RN & TX)).
    assert (PE : exists p, Gltf.Model.getPrimitiveMesh (seen g) k = Ok p).
    { unfold Gltf.Model.extract_mesh in NM2. destruct (Gltf.Model.getPrimitiveMesh (seen g) k) as [p|]; [exists p; reflexivity|discriminate NM2]. }
    destruct PE as (p & PE). assert (PK := proj1 (Gltf.Proofs.getPrimitive_Ok _ _ _) PE).
    assert (PMT : Gltf.Model.p_material p = Z.of_nat k).
    { change k with (0 + k)%nat at 1. eapply mats_nth; [|exact PK]. rewrite <- MM. cbn [seen Gltf.Model.meshes]. unfold mats. rewrite map_map. apply map_ext. intros e. rewrite map_map. reflexivity. }
    assert (AT : forall A (l : list A) y, nth_error l k = Some y -> at_ l (Z.of_nat k) = Ok y).
    { intros A l y Y. apply Gltf.Proofs.at_Ok. split; [|rewrite Nat2Z.id; exact Y]. assert ((k < List.length l)%nat) by (apply nth_error_Some; congruence). unfold Mesh.Model.size. lia. }
    assert (MAT : Gltf.Model.mat m' = material_of mt).
    { unfold Gltf.Model.extract_mesh in NM2. rewrite PE in NM2. cbn [bind] in NM2. destruct (Gltf.Model.extractPrimitiveMesh (seen g) k) as [[m0 mt0]|] eqn:EP; [|discriminate NM2]. cbn [bind] in NM2.
      apply (Gltf.Proofs.extract_geo _ k p m0 mt0 PE) in EP. destruct EP as [_ EM]. unfold Gltf.Model.material_at in EM. destruct (_ || _)%bool; [discriminate EM|]. rewrite PMT in EM. cbn [seen Gltf.Model.materials] in EM.
      rewrite (AT _ (map material_of (materials g)) (material_of mt)) in EM by (rewrite nth_error_map, MT; reflexivity). injection EM as <-.
      destruct (sget "TEXCOORD_0"%string (Gltf.Model.attributes p)) as [u|]; [|injection NM2 as <-; reflexivity].
      destruct (Gltf.Model.getVector _ _ u); [|discriminate NM2]. cbn [bind] in NM2. destruct (Gltf.Model.extract_map _ "baseColorTexture"%string _); [|discriminate NM2]. cbn [bind] in NM2.
      destruct (Gltf.Model.extract_map _ "metallicRoughnessTexture"%string _); [|discriminate NM2]. injection NM2 as <-. reflexivity. }
    destruct (extract_other (seen g) (map (fun mt => material_of (after_material f mt)) (materials g)) k m' p NM2 PE) as (t' & X1 & X2 & X3).
    { exists (material_of (after_material f mt)). split; [rewrite PMT; apply AT; rewrite nth_error_map, MT; reflexivity|]. intros T key KEY. rewrite MAT. apply texture_after. rewrite SC2 in T. destruct (TX T) as [T1 T2]. destruct KEY as [<-|[<-|[]]]; assumption. }
    { cbn [seen Gltf.Model.materials]. rewrite !len_map. reflexivity. }
    unfold extract_mesh. rewrite SA. unfold seen in X1. cbn [Gltf.Model.buffers Gltf.Model.views Gltf.Model.accessors Gltf.Model.meshes Gltf.Model.nodes Gltf.Model.scenes Gltf.Model.defaultScene Gltf.Model.materials Gltf.Model.images Gltf.Model.textures Gltf.Model.samplers] in X1. rewrite X1. cbn [bind].
    assert (PE' : Gltf.Model.getPrimitiveMesh (Gltf.Model.GModel (map bu_data (buffers g)) (map view_of (views g)) (map accessor_of (accessors g))
      (map (fun e => map primitive_of (me_primitives e)) (meshes g)) (map no_mesh (nodes g)) (map sc_nodes (scenes g)) (default_scene g)
      (map (fun mt => material_of (after_material f mt)) (materials g)) (map image_of (images g)) (map texture_of (textures g)) (map (fun _ => tt) (samplers g))) k = Ok p) by exact PE.
    rewrite PE'. cbn [bind]. rewrite PMT. unfold g', after_model. fields. rewrite (AT _ _ (after_material f mt)) by (rewrite nth_error_map, MT; reflexivity). cbn [bind].
    eexists. split; [reflexivity|]. split; [cbn [geo]; congruence|]. split; [cbn [tex]; congruence|]. exists mt. split; [exact RN|reflexivity].
  Qed.
End After.
