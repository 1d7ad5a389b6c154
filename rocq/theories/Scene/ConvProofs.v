(** Lemmas for the scene properties: conversion. *)
From Coq Require Import Reals Lra Lia List Bool String Ascii ZArith.
From Verif.Voxel Require Import Model Spec Props.
From Verif.Base Require Import Py PyFacts Vec Xml Fs FsFacts.
From Verif.Geom Require Import Model Proofs.
From Verif.Box Require Import Model Spec Proofs Props.
From Verif.Symm Require Import Model Spec.
From Verif.Sample Require Import Model Spec Props.
From Verif.Scene Require Import Model Spec Proofs XmlProofs.
Import ListNotations.
Local Open Scope string_scope.
Local Open Scope list_scope.
Local Open Scope R_scope.

Section Convert.
  Context {M : Type}.
  Variable w : world M.

  Lemma corners_fun : forall T t a b c a' b' c', has_corners T t a b c -> has_corners T t a' b' c' -> a' = a /\ b' = b /\ c' = c.
  Proof.
    intros T [m [[i j] k]] a b c a' b' c' (p & q & r & P & Q & R & -> & -> & ->) (p' & q' & r' & P' & Q' & R' & -> & -> & ->).
    rewrite P in P'. rewrite Q in Q'. rewrite R in R'. injection P' as <-. injection Q' as <-. injection R' as <-. auto.
  Qed.

  Lemma samples_ok : forall draws ms, ms <> [] -> Forall sound ms -> uniform draws -> all_triangles ms <> [] ->
    exists l, model_sampler draws 625 ms = Ok (6%nat, l) /\ sampled ms (map fst l) /\ l <> [] /\
      forall s, In s l -> inside (from_point_cloud (flat_map s_vertices ms)) (fst s).
  Proof.
    intros draws ms NE S U NT. destruct (C43_samples draws pose_id ms 625 NE S U) as (gs & E & F).
    exists (List.concat gs). rewrite C43_same_samplers by assumption. rewrite E. split; [destruct (all_triangles ms); [congruence|reflexivity]|]. split; [|split].
    - exists (map (map fst) gs). split; [rewrite concat_map; reflexivity|]. clear E. induction F as [|t g ts gs ((a & b & c & x & HC & TA & NS) & G) F IH]; [constructor|].
      assert (X := F). cbn [map]. constructor; [|destruct ts; [inversion F; subst; constructor|apply IH; discriminate]]. exists a, b, c, x. rewrite map_length. repeat (split; [assumption|]).
      apply Forall_forall. intros p P. apply in_map_iff in P. destruct P as (s & <- & P). rewrite Forall_forall in G. specialize (G s P). destruct t as [m [[i j] k]].
      destruct G as (a' & b' & c' & ca & cb & cc & u & v & z & HC' & _ & _ & _ & U1 & U2 & U3 & U4 & U5 & _).
      destruct (corners_fun _ _ _ _ _ _ _ _ HC HC') as (-> & -> & ->). exists u, v, z. auto 6.
    - inversion F as [Q|t g ts gs' ((a & b & c & x & _ & _ & (NS & _)) & _) F' Q]; subst; [congruence|]. destruct g; [cbn in NS; lia|discriminate].
    - intros s I. assert (K := C43_in_box draws pose_id ms 625 _ s NE S U E I). rewrite transform_all_from_map in K.
      rewrite (map_ext _ (fun p => p)) in K; [rewrite map_id in K; exact K|]. intros []. apply vec_eq; cbn; ring.
  Qed.

  Lemma voxelizer_ok : forall draws m ms, primitive_meshes w m = Ok ms -> ms <> [] -> Forall sound ms -> uniform draws -> all_triangles ms <> [] ->
    exists g b points, voxelizer_run w draws m = Ok g /\ bounds g = Ok b /\ sampled ms points /\ grid_of g points /\
      (forall p, In p points -> inside b p /\ inside (from_point_cloud (flat_map s_vertices ms)) p) /\
      (forall u, (forall p, In p points -> inside u p) -> inside u (min_corner b) /\ forall axis, (axis < 3)%nat -> coord axis (max_corner b) <= coord axis (max_corner u) + 1 / 10).
  Proof.
    intros draws m ms P NE S U NT. destruct (samples_ok draws ms NE S U NT) as (l & E & SA & NL & IB). unfold voxelizer_run. rewrite P. cbn [bind]. rewrite E. cbn [bind].
    set (pts := map fst l). assert (NP : pts <> []) by (unfold pts; destruct l; [congruence|discriminate]).
    destruct (C61_voxelizer_covers (1 / 10) pts ltac:(lra) NP) as (g & G & C1 & C2 & _).
    assert (G' := G). unfold voxelize in G'.
    destruct (C23_exact_cover (1 / 10) (min_corner (from_point_cloud pts)) pts ltac:(lra) NP) as (g' & EG & _ & IV & _ & b & B & NB & BI).
    { intros p I. apply (proj1 (from_point_cloud_tight pts NP) p I). }
    rewrite G' in EG. injection EG as <-. exists g, b, pts. split; [exact G|]. split; [exact B|]. split; [exact SA|]. split; [split; assumption|]. split.
    - intros p I. split; [apply BI, I|]. unfold pts in I. apply in_map_iff in I. destruct I as (s & <- & I). apply IB, I.
    - intros u UI. destruct (mk_grid_ok (1 / 10) (min_corner (from_point_cloud pts)) pts ltac:(lra) NP) as (g'' & EG & W & CC & CS & _); [intros p I; apply (proj1 (from_point_cloud_tight pts NP) p I)|].
      rewrite G' in EG. injection EG as <-. assert (BT := C23_bounds_tight g b W B). destruct (from_point_cloud_tight pts NP) as (_ & TT).
      assert (LO : forall axis, (axis < 3)%nat -> coord axis (min_corner u) <= coord axis (min_corner b) <= coord axis (max_corner u)).
      { intros axis A. destruct (BT axis A) as ((v & Iv & Ev) & _). destruct (TT axis A) as ((q & Iq & Eq) & _). rewrite <- CC in Eq.
        destruct (C2 v Iv) as (p & Ip & Cp).
        assert (GV := wf_in _ W v Iv). destruct GV as (Gx & Gy & Gz).
        assert (UP := UI p Ip). assert (UQ := UI q Iq). destruct UP as ((U1 & U2 & U3) & (U4 & U5 & U6)), UQ as ((V1 & V2 & V3) & (V4 & V5 & V6)), Cp as ((P1 & P1') & (P2 & P2') & (P3 & P3')).
        assert (SZ : voxel_size g = 1 / 10) by exact CS. rewrite SZ in Ev. destruct Gx as (Gx & _), Gy as (Gy & _). apply IZR_le in Gx, Gy, Gz. cbn in Gx, Gy, Gz.
        destruct axis as [|[|[|axis]]]; [| | |lia]; cbn [coord] in *; rewrite Ev; split; lra. }
      split; [split; (split; [|split]); [apply (LO 0%nat)|apply (LO 1%nat)|apply (LO 2%nat)|apply (LO 0%nat)|apply (LO 1%nat)|apply (LO 2%nat)]; lia|].
      intros axis A. destruct (BT axis A) as (_ & (v & Iv & Ev)). destruct (C2 v Iv) as (p & Ip & Cp). assert (UP := UI p Ip).
      destruct UP as (_ & (U4 & U5 & U6)), Cp as ((P1 & P1') & (P2 & P2') & (P3 & P3')). assert (SZ : voxel_size g = 1 / 10) by exact CS. rewrite SZ in Ev.
      destruct axis as [|[|[|axis]]]; [| | |lia]; cbn [coord] in *; rewrite Ev; lra.
  Qed.

  Lemma typed_again : forall (o : pobject M) T, typed o ->
    mk_object (o_id o) (o_type o) (o_bounds o) (o_voxels o) (o_meshes o) T (o_category o) (Some (o_symmetry o)) (o_score o) (o_evaluated o) =
    Ok (PObject (o_id o) (o_type o) (o_bounds o) (o_voxels o) (o_meshes o) T (o_category o) (o_symmetry o) (o_score o) (o_evaluated o)).
  Proof.
    intros [i ty b v m p c s x e] T C. cbn [o_id o_type o_bounds o_voxels o_meshes o_category o_symmetry o_score o_evaluated] in *. unfold typed in C. cbn [o_type o_voxels o_meshes] in C.
    unfold mk_object. cbn [object_symmetry bind]. destruct C as [(-> & -> & ->)|[(-> & ->)|(-> & ->)]]; reflexivity.
  Qed.

  Lemma element_ok : forall draws source target o, convertible w source target o -> uniform draws ->
    exists o', convert_element w draws target o = Ok o' /\ converted w target o o'.
  Proof.
    intros draws source target o (TY & C) U. unfold convert_element.
    destruct C as [(-> & -> & NM & g & b & G & B)|(-> & NV & m & ms & E & P & NE & NV' & C)].
    - rewrite TY. cbn [allowed existsb fst snd String.eqb Ascii.eqb Bool.eqb andb orb negb]. rewrite G, B. cbn [bind mk_object object_symmetry String.eqb Ascii.eqb Bool.eqb].
      eexists. split; [reflexivity|]. split; [repeat (split; [reflexivity|]); reflexivity|]. split; [reflexivity|]. split; [reflexivity|]. left. split; [reflexivity|]. split; [reflexivity|].
      exists b. split; [|reflexivity]. unfold true_box. rewrite G, NM. destruct (o_bounds o); exact B.
    - destruct C as [->|(-> & S & NT)].
      + rewrite TY. cbn [allowed existsb fst snd String.eqb Ascii.eqb Bool.eqb andb orb negb]. rewrite E. unfold model_bounds. rewrite P. cbn [bind mk_object object_symmetry String.eqb Ascii.eqb Bool.eqb].
        eexists. split; [reflexivity|]. split; [repeat (split; [reflexivity|]); reflexivity|]. split; [reflexivity|]. split; [reflexivity|]. left. split; [reflexivity|]. split; [reflexivity|].
        exists (from_meshes (map s_vertices ms)). split; [|reflexivity]. unfold true_box. rewrite NV, E.
        assert (MB : model_box w m (from_meshes (map s_vertices ms))); [|destruct (o_bounds o); exact MB].
        exists ms. split; [exact P|]. split; [exact NE|]. split; [exact NV'|]. apply C19_meshes_tight; [destruct ms; [congruence|discriminate]|]. apply Forall_map, NV'.
      + rewrite TY. cbn [allowed existsb fst snd String.eqb Ascii.eqb Bool.eqb andb orb negb]. rewrite E.
        destruct (voxelizer_ok draws m ms P NE S U NT) as (g & b & pts & G & B & SA & GO & _). rewrite G. cbn [bind]. rewrite B. cbn [bind mk_object object_symmetry String.eqb Ascii.eqb Bool.eqb].
        eexists. split; [reflexivity|]. split; [repeat (split; [reflexivity|]); reflexivity|]. split; [reflexivity|]. split; [reflexivity|]. right. split; [reflexivity|].
        exists m, ms, pts, g, b. repeat (split; [assumption|]). split; [reflexivity|]. split; [exact B|reflexivity].
  Qed.

  Lemma all_ok : forall draws source target os k acc, Forall (convertible w source target) os -> (forall k, uniform (draws k)) ->
    NoDup (map o_id os) -> (forall o, In o os -> sget (o_id o) acc = None) ->
    exists l, convert_all w draws k target os acc = Ok (acc ++ l) /\ Forall2 (fun o kv => fst kv = o_id o /\ converted w target o (snd kv)) os l.
  Proof.
    intros draws source target. induction os as [|o os IH]; intros k acc C U N F.
    - exists []. rewrite app_nil_r. split; [reflexivity|constructor].
    - inversion C; subst. inversion N; subst. destruct (element_ok (draws k) source target o H1 (U k)) as (o' & E & CO). cbn [convert_all]. rewrite E. cbn [bind].
      assert (I : o_id o' = o_id o) by apply CO. rewrite I.
      assert (FR : sset (o_id o) o' acc = acc ++ [(o_id o, o')]).
      { apply dset_fresh; [exact str_eqb_spec|]. intro K. destruct (dget String.eqb (o_id o) acc) eqn:D; [|apply dget_None in D; [contradiction|exact str_eqb_spec]].
        assert (Z := F o (or_introl eq_refl)). congruence. }
      rewrite FR. destruct (IH (S k) (acc ++ [(o_id o, o')]) H2 U H4) as (l & L & R).
      { intros x X. rewrite <- FR. rewrite dget_dset_other; [apply F; right; exact X|exact str_eqb_spec|]. intro Q. apply H3. rewrite Q. apply in_map, X. }
      exists ((o_id o, o') :: l). rewrite L. split; [rewrite <- app_assoc; reflexivity|]. constructor; [split; [reflexivity|exact CO]|exact R].
  Qed.
End Convert.
