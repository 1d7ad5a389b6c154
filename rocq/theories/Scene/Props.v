(** C47-C50 and C75: saving and loading scenes, reading scene XML, moving and
    converting scenes, voxel grid files. *)
From Coq Require Import Reals Lra Lia List Bool String Ascii ZArith.
From Verif.Voxel Require Import Model Spec Props.
From Verif.Base Require Import Py PyFacts Vec Xml Fs FsFacts.
From Verif.Geom Require Import Model Proofs.
From Verif.Box Require Import Model Spec Proofs Props.
From Verif.Symm Require Import Model Spec Props.
From Verif.Sample Require Import Model Spec Props.
From Verif.Gltf Require Model.
From Verif.Glb Require Model Toy Props.
From Verif.Glb Require Import Spec.
From Verif.Scene Require Import Model Spec Proofs SaveProofs XmlProofs LoadProofs ConvProofs World.
From Verif.Scene Require Toy.
Import ListNotations.
Local Open Scope string_scope.
Local Open Scope list_scope.
Local Open Scope R_scope.

(** * C47 *)
Section C47.
  Context {M : Type}.
  Variables (w : world M) (tmp : list string) (saveable : M -> Prop) (kept : M -> M -> Prop).

  (** A scene saved to a new folder is loaded again; the folder has the documented files
      and nothing else on the disk changes. *)
  Theorem C47_roundtrip : formats_ok w tmp saveable kept -> forall sc p name s,
    good_scene w saveable sc -> name <> "." -> name <> ".." -> tree s -> sane s -> isdir_at s tmp = true ->
    free s (resolve s p ++ [name]) -> (sc_type sc = "meshes" -> exists l, p = Abs l /\ names l) ->
    exists s' sc', scene_save w sc p name s = (s', Ok tt) /\ new_folder s s' (resolve s p ++ [name]) (scene_files sc name) /\
      scene_load w p name s' = (s', Ok sc') /\ same_scene w kept sc sc'.
  Proof. intro F. apply (scene_roundtrip w tmp saveable kept F). Qed.

  (** Saving where there is something already, or under a file, changes nothing.  The
      error is an OSError (the documentation says RuntimeError). *)
  Theorem C47_never_overwrites : forall sc p name s, tree s -> ~ free s (resolve s (join p (Rel [name]))) ->
    scene_save w sc p name s = (s, Err OSError).
  Proof.
    intros sc p name s (TF & _) N. unfold scene_save. apply ibind_err. apply makedirs_exists; [exact N|]. intros l D. apply not_true_iff_false. intro F. apply TF in F. destruct F as (_ & _ & F). congruence.
  Qed.

  (** The files at and below [l] may differ. *)
  Definition only_below (l : list string) (s s' : fs bytes) : Prop :=
    cwd s' = cwd s /\ forall x, above l x = false -> dget loc_eqb x (files s') = dget loc_eqb x (files s).
  Lemma write_below : forall l s dir n b, resolve s dir = l -> n <> "." -> n <> ".." -> only_below l s (fst (write (join dir (Rel [n])) b s)).
  Proof.
    intros l s dir n b R N1 N2. unfold write. rewrite resolve_join, R by assumption. unfold write_at. destruct (l ++ [n]) as [|y k] eqn:E; [destruct l; discriminate E|]. rewrite <- E.
    destruct (_ && _)%bool; cbn [fst]; [|split; reflexivity]. split; [reflexivity|]. intros x A. cbn [files]. apply (dget_dset_other _ loc_eqb_spec). intros <-. rewrite above_app in A. discriminate A.
  Qed.
  Lemma below_trans : forall l s s1 s2, only_below l s s1 -> only_below l s1 s2 -> only_below l s s2.
  Proof. intros l s s1 s2 (C1 & F1) (C2 & F2). split; [congruence|]. intros x A. rewrite F2, F1 by exact A. reflexivity. Qed.
  Lemma object_below : forall l dir o s, o_type o <> "meshes" -> resolve s dir = l -> only_below l s (fst (object_save w dir o s)).
  Proof.
    intros l dir o s NM R. unfold object_save, ibind, ilift. destruct (object_to_xml w o) as [e|]; [|split; reflexivity].
    apply String.eqb_neq in NM. rewrite NM. destruct (String.eqb (o_type o) "voxels"); [|split; reflexivity]. destruct (o_voxels o) as [g|]; [|split; reflexivity].
    unfold save_grid. destruct (ext_name (o_id o) "."%char "h5" ltac:(discriminate)) as (X1 & X2). assert (K := write_below l s dir (o_id o ++ ".h5") (h5_write w g) R X1 X2).
    destruct (write (join dir (Rel [(o_id o ++ ".h5")%string])) (h5_write w g) s) as [s1 [[]|]]; exact K.
  Qed.
  Lemma objects_below : forall l dir os s, Forall (fun o => o_type o <> "meshes") os -> resolve s dir = l -> only_below l s (fst (save_all w dir os s)).
  Proof.
    intros l dir. induction os as [|o os IH]; intros s F R; [split; reflexivity|]. inversion F; subst. cbn [save_all]. unfold ibind.
    assert (K := object_below _ dir o s H1 eq_refl). destruct (object_save w dir o s) as [s1 [e|]]; [|exact K]. cbn [fst] in K.
    assert (R1 : resolve s1 dir = resolve s dir) by (apply resolve_cwd, K). specialize (IH s1 H2 R1). destruct (save_all w dir os s1) as [s2 [es|]]; cbn [fst iret] in *; eapply below_trans; eassumption.
  Qed.

  (** Whatever happens, and whatever the objects are: no file that was there before is
      changed or removed.  (Objects with meshes are left out, because [save_as_glb] is
      not known for models that cannot be saved.) *)
  Theorem C47_keeps_files : forall sc p name s s' r, tree s -> Forall (fun kv => o_type (snd kv) <> "meshes") (items (sc_elements sc)) ->
    scene_save w sc p name s = (s', r) -> forall l b, dget loc_eqb l (files s) = Some b -> dget loc_eqb l (files s') = Some b.
  Proof.
    intros sc p name s s' r TR NM E l b G. set (dir := join p (Rel [name])) in *. set (L := resolve s dir).
    destruct (makedirs dir s) as [s1 r1] eqn:MK. assert (MK' := MK). unfold makedirs in MK'. fold L in MK'.
    destruct (isdir_at s L || existsb (isfile_at s) (prefixes L))%bool eqn:Q.
    { injection MK' as <- <-. unfold scene_save in E. fold dir in E. unfold ibind at 1 in E. rewrite MK in E. injection E as <- _. exact G. }
    apply orb_false_iff in Q. destruct Q as (Q1 & Q2).
    assert (FR : free s L).
    { split; [exact Q1|]. intros l' A. destruct l' as [|x l']; [apply not_true_iff_false; intro K; apply TR in K; destruct K as (K & _); congruence|].
      apply not_true_iff_false. intro K. apply not_true_iff_false in Q2. apply Q2. apply existsb_exists. exists (x :: l'). split; [apply prefixes_spec; split; [discriminate|exact A]|exact K]. }
    assert (B : only_below L s s').
    { injection MK' as <- <-. set (s1 := Fs _ _ _) in *. assert (B1 : only_below L s s1) by (split; reflexivity). assert (R1 : resolve s1 dir = L) by (apply resolve_cwd; reflexivity).
      unfold scene_save in E. fold dir in E. unfold ibind at 1 in E. rewrite MK in E. unfold ibind at 1, ilift at 1 in E. destruct (sgetE "version" _) as [v1|]; [|injection E as <- _; exact B1].
      unfold ibind at 1, ilift at 1 in E. destruct (sgetE "categories_id" _) as [v2|]; [|injection E as <- _; exact B1].
      unfold ibind at 1, ilift at 1 in E. destruct (sgetE "categories_url" _) as [v3|]; [|injection E as <- _; exact B1].
      unfold dict_save in E. destruct (is_object_dict (sc_elements sc)); [|injection E as <- _; exact B1]. unfold ibind in E.
      assert (K : only_below L s1 (fst (save_all w dir (map snd (items (sc_elements sc))) s1))) by (apply objects_below; [apply Forall_map, NM|exact R1]).
      destruct (save_all w dir (map snd (items (sc_elements sc))) s1) as [s2 [es|]]; cbn [fst] in K; [|injection E as <- _; exact (below_trans L s s1 s2 B1 K)]. unfold iret in E.
      destruct (ext_name name "."%char "xml" ltac:(discriminate)) as (X1 & X2).
      assert (W := write_below L s2 dir (name ++ ".xml") (xml_write w (Elem "scene" None [Elem "version" v1 []; Elem "categories" None [Elem "id" v2 []; Elem "url" v3 []]; leaf "project_type" (sc_type sc); Elem "elements" None es]))
        ltac:(rewrite (resolve_cwd s1 s2 dir (proj1 K)); exact R1) X1 X2).
      rewrite E in W. cbn [fst] in W. eapply below_trans; [exact B1|]. eapply below_trans; eassumption. }
    destruct (above L l) eqn:A.
    - apply above_spec in A. destruct A as (c & ->). destruct (nothing_below s L TR FR c) as (_ & K). unfold isfile_at, dmem in K. rewrite G in K. discriminate K.
    - rewrite (proj2 B) by exact A. exact G.
  Qed.

  (** Loading changes nothing, whatever happens. *)
  Theorem C47_load_pure : forall p name s, fst (scene_load w p name s) = s.
  Proof. exact (scene_load_pure w). Qed.

  Lemma made_new_folder : forall (s : fs bytes) L, tree s -> free s L -> new_folder s (made s L) L [].
  Proof.
    intros s L TR FR. split; [reflexivity|]. split; [reflexivity|]. split; [|apply made_dir]. intros l A. apply above_spec in A. destruct A as (c & ->).
    destruct (nothing_below s L TR FR c) as (_ & K). change (isfile_at (made s L) (L ++ c)) with (isfile_at s (L ++ c)). rewrite K. split; [discriminate|]. intros (? & [] & _).
  Qed.

  (** Without one of the three settings saving fails, and an empty folder stays, so the
      next attempt fails too. *)
  Theorem C47_missing_setting : forall sc p name s k, tree s -> free s (resolve s (join p (Rel [name]))) ->
    In k ["version"; "categories_id"; "categories_url"] -> sget k (sc_settings sc) = None ->
    exists s', scene_save w sc p name s = (s', Err KeyError) /\ new_folder s s' (resolve s (join p (Rel [name]))) [] /\
      forall sc', scene_save w sc' p name s' = (s', Err OSError).
  Proof.
    intros sc p name s k TR FR K N. set (dir := join p (Rel [name])) in *. set (L := resolve s dir) in *. exists (made s L).
    split; [|split; [apply made_new_folder; assumption|]].
    - unfold scene_save. fold dir. rewrite (ibind_ok _ _ _ _ _ _ _ _ (makedirs_ok _ s dir FR)). fold L. unfold ibind, ilift, dgetE.
      destruct K as [<-|[<-|[<-|[]]]]; rewrite N; [reflexivity| |]; destruct (dget String.eqb "version" (sc_settings sc)); try reflexivity. destruct (dget String.eqb "categories_id" (sc_settings sc)); reflexivity.
    - intro sc'. unfold scene_save. fold dir. apply ibind_err. unfold makedirs. assert (RM : resolve (made s L) dir = L) by (unfold L; apply resolve_cwd; reflexivity). rewrite RM.
      replace (isdir_at (made s L) L) with true; [reflexivity|]. symmetry. apply made_dir. right. apply above_refl.
  Qed.

  (** When several objects have the same id, only the last one is in the loaded scene. *)
  Theorem C47_last_id_wins : forall ty e dir s s' d, dict_load w ty e dir s = (s', Ok d) ->
    s' = s /\ elements_at w ty (fun f => dget loc_eqb (resolve s dir ++ [f]) (files s)) e d.
  Proof.
    intros ty e dir s s' d E. assert (P := dict_load_pure w ty e dir s). rewrite E in P. cbn [fst] in P. subst s'. split; [reflexivity|]. apply dict_load_at, E.
  Qed.
End C47.

(** * C48 *)
Section C48.
  Context {M : Type}.
  Variable w : world M.

  Definition xml_place (p : path) (name : string) (s : fs bytes) : list string := resolve s (join p (Rel [name])) ++ [(name ++ ".xml")%string].
  Definition the_file (p : path) (name : string) (s : fs bytes) (f : string) : option bytes := dget loc_eqb (resolve s (join p (Rel [name])) ++ [f]) (files s).

  Lemma load_reads : forall p name s, read (join (join p (Rel [name])) (Rel [(name ++ ".xml")%string])) s =
    (s, match dget loc_eqb (xml_place p name s) (files s) with Some b => Ok b | None => Err IOError end).
  Proof.
    intros p name s. destruct (ext_name name "."%char "xml" ltac:(discriminate)) as (X1 & X2). unfold read. rewrite resolve_join by assumption. reflexivity.
  Qed.

  (** What is loaded is what the file says; everything else is an error. *)
  Theorem C48_loaded : forall p name s s' sc, scene_load w p name s = (s', Ok sc) ->
    s' = s /\ exists b root, dget loc_eqb (xml_place p name s) (files s) = Some b /\ xml_parse w b = Some root /\ scene_at w (the_file p name s) root sc.
  Proof.
    intros p name s s' sc E. assert (P := scene_load_pure w p name s). rewrite E in P. cbn [fst] in P. subst s'. split; [reflexivity|]. unfold scene_load in E.
    unfold ibind at 1 in E. rewrite load_reads in E. destruct (dget loc_eqb (xml_place p name s) (files s)) as [b|] eqn:B; [|discriminate E]. destruct (xml_parse w b) as [root|] eqn:X; [|discriminate E].
    exists b, root. split; [reflexivity|]. split; [exact X|]. destruct (String.eqb_spec (tag root) "scene") as [T|T]; cbn [negb] in E; [|discriminate E].
    destruct (header_iff (children root) [] None) as (H1 & H2 & H3 & H4 & H5). destruct (fold_left header_child (children root) ([], None)) as [st [ty|]] eqn:FL; [|discriminate E]. cbn [fst snd] in *.
    apply ibind_inv in E. destruct E as (s1 & d & D & E). assert (P := load_elements_pure w ty (join p (Rel [name])) (children root) None s). rewrite D in P. cbn [fst] in P. subst s1.
    apply load_elements_iff in D. destruct D as (A & F). destruct d as [d|]; [|discriminate E]. unfold ilift, mk_scene in E.
    destruct (str_in ty _) eqn:TY; [|discriminate E]. injection E as <-. apply str_in_In in TY. split; [exact T|]. cbn [sc_type sc_elements sc_settings]. split; [|split; [exact TY|split; [|split]]].
    - destruct H1 as [(e & L & Q)|(_ & Q)]; [exists e; split; [exact L|congruence]|discriminate Q].
    - apply Forall_forall. intros e I TE. rewrite Forall_forall in A. destruct (A e I TE) as (d' & D'). exists d'. apply dict_load_at, D'.
    - destruct F as [(e & L & d' & D' & Q)|(_ & Q)]; [|discriminate Q]. injection Q as <-. exists e. split; [exact L|apply dict_load_at, D'].
    - cbv zeta. split; [exact H2|]. split; [exact H3|]. split; [exact H4|exact H5].
  Qed.
  Theorem C48_accepted : forall p name s b root sc, dget loc_eqb (xml_place p name s) (files s) = Some b -> xml_parse w b = Some root ->
    scene_at w (the_file p name s) root sc -> exists sc', scene_load w p name s = (s, Ok sc') /\ scene_at w (the_file p name s) root sc'.
  Proof.
    intros p name s b root sc B X (T & PT & TY & A & SE & _). assert (E : exists sc', scene_load w p name s = (s, Ok sc')).
    { unfold scene_load. unfold ibind at 1. rewrite load_reads, B, X, T. cbn [String.eqb Ascii.eqb Bool.eqb negb].
      destruct (header_iff (children root) [] None) as (H1 & _). destruct (fold_left header_child (children root) ([], None)) as [st ty]. cbn [snd] in H1.
      assert (ET : ty = Some (sc_type sc)). { destruct PT as (e & L & Q). destruct H1 as [(e' & L' & Q')|(N & _)]; [|destruct (last_no _ _ _ L N)]. rewrite (last_unique _ _ _ _ L' L) in Q'. congruence. }
      subst ty. assert (LD : exists d, load_elements w (sc_type sc) (join p (Rel [name])) (children root) None s = (s, Ok (Some d))).
      { destruct SE as (e & L & D). destruct (dict_load_ok w (sc_type sc) e (join p (Rel [name])) s _ D) as (d & D'). exists d. apply load_elements_iff. split.
        - apply Forall_forall. intros e' I TE. rewrite Forall_forall in A. destruct (A e' I TE) as (d' & D2). apply (dict_load_ok w _ _ _ _ _ D2).
        - left. exists e. split; [exact L|]. exists d. auto. }
      destruct LD as (d & LD). rewrite (ibind_ok _ _ _ _ _ _ _ _ LD). unfold ilift, mk_scene. replace (str_in (sc_type sc) _) with true by (symmetry; apply str_in_In, TY). eauto. }
    destruct E as (sc' & E). exists sc'. split; [exact E|]. destruct (C48_loaded _ _ _ _ _ E) as (_ & b' & root' & B' & X' & S). congruence.
  Qed.

  (** The errors for files and headers. *)
  Theorem C48_no_file : forall p name s, dget loc_eqb (xml_place p name s) (files s) = None -> scene_load w p name s = (s, Err IOError).
  Proof. intros p name s N. unfold scene_load, ibind. rewrite load_reads, N. reflexivity. Qed.
  Theorem C48_header : forall p name s b root, dget loc_eqb (xml_place p name s) (files s) = Some b -> xml_parse w b = Some root ->
    (tag root <> "scene" -> scene_load w p name s = (s, Err ValueError)) /\
    (field "project_type" (fun e t => text e = t) None (children root) None -> scene_load w p name s = (s, Err ValueError)) /\
    (forall ty, tag root = "scene" -> says (fun e t => text e = Some t) "project_type" (children root) ty -> ~ In ty ["bounding_box"; "voxels"; "meshes"] ->
       exists e, scene_load w p name s = (s, Err e)).
  Proof.
    intros p name s b root B X. unfold scene_load. unfold ibind at 1 3 5. rewrite load_reads, B, X. destruct (header_iff (children root) [] None) as (H1 & _).
    split; [|split].
    - intro T. apply String.eqb_neq in T. rewrite T. reflexivity.
    - intro F. destruct (negb _); [reflexivity|]. destruct (fold_left header_child (children root) ([], None)) as [st [ty|]]; [|reflexivity]. cbn [snd] in H1.
      destruct H1 as [(e & L & Q)|(_ & Q)]; [|discriminate Q]. destruct F as [(e' & L' & Q')|(N & _)]; [|destruct (last_no _ _ _ L N)]. rewrite (last_unique _ _ _ _ L' L) in Q'. congruence.
    - intros ty T (e & L & Q) NI. assert (P := scene_load_pure w p name s). assert (K := C48_loaded p name s). unfold scene_load in P, K. unfold ibind at 1 in P. unfold ibind at 1 in K. rewrite load_reads, B, X in P, K.
      destruct (_ : fs bytes * res (pscene M)) as [s' [sc|err]] eqn:E; cbn [fst] in P; subst s'; [|eauto].
      destruct (K s sc eq_refl) as (_ & b' & root' & B' & X' & S). exfalso. destruct S as (_ & (e' & L' & Q') & TY & _). apply NI.
      assert (root' = root) by congruence. subst root'. rewrite (last_unique _ _ _ _ L' L) in Q'. congruence.
  Qed.
  (** No <elements>: an unbound variable. *)
  Theorem C48_no_elements : forall p name s b root ty, dget loc_eqb (xml_place p name s) (files s) = Some b -> xml_parse w b = Some root -> tag root = "scene" ->
    says (fun e t => text e = Some t) "project_type" (children root) ty -> no_elem "elements" (children root) -> scene_load w p name s = (s, Err UnboundLocalError).
  Proof.
    intros p name s b root ty B X T (e & L & Q) N. unfold scene_load. unfold ibind at 1. rewrite load_reads, B, X, T. cbn [String.eqb Ascii.eqb Bool.eqb negb].
    destruct (header_iff (children root) [] None) as (H1 & _). destruct (fold_left header_child (children root) ([], None)) as [st ty']. cbn [snd] in H1.
    destruct H1 as [(e' & L' & Q')|(N' & _)]; [|destruct (last_no _ _ _ L N')]. rewrite (last_unique _ _ _ _ L' L) in Q'. rewrite Q in Q'. subst ty'.
    assert (LD : load_elements w ty (join p (Rel [name])) (children root) None s = (s, Ok None)).
    { apply load_elements_iff. split; [|right; auto]. apply Forall_forall. intros x I TX. unfold no_elem in N. rewrite Forall_forall in N. destruct (N x I TX). }
    rewrite (ibind_ok _ _ _ _ _ _ _ _ LD). reflexivity.
  Qed.

  (** One element: read exactly when it has an id, bounds, and readable children. *)
  Theorem C48_element : forall ty e dir s o, object_load w ty e dir s = (s, Ok o) <-> object_at w ty (fun f => dget loc_eqb (resolve s dir ++ [f]) (files s)) e o.
  Proof. exact (object_load_iff w). Qed.
  Theorem C48_element_errors : forall ty e dir s,
    (tag e <> "element" -> object_load w ty e dir s = (s, Err ValueError)) /\
    (tag e = "element" -> Forall (readable_child w) (children e) ->
     (no_elem "id" (children e) -> object_load w ty e dir s = (s, Err UnboundLocalError)) /\
     (forall x, last_elem "id" (children e) x -> text x = None -> object_load w ty e dir s = (s, Err ValueError)) /\
     (forall x i, last_elem "id" (children e) x -> text x = Some i -> no_elem "bounds" (children e) -> object_load w ty e dir s = (s, Err UnboundLocalError))).
  Proof.
    intros ty e dir s. assert (K : forall x, parse_xml w e = Err x -> object_load w ty e dir s = (s, Err x)) by (intros x E; unfold object_load, ibind, ilift; rewrite E; reflexivity). split.
    - intro T. apply K. unfold parse_xml. apply String.eqb_neq in T. rewrite T. reflexivity.
    - intros T R. destruct (parse_errors w e T R) as (A & B & C). split; [intro N; apply K, A, N|]. split; [intros x L N; apply K, (B x L N)|]. intros x i L N NB. apply K, (C x i L N NB).
  Qed.

  (** Boxes, rotations and poses are read exactly when they are as described. *)
  Theorem C48_geometry : forall e,
    (forall b, box_from_xml w e = Ok b <-> box_element w "box3d" e b) /\
    (forall r, rot_from_xml w e = Ok r <-> rot_element w e r) /\
    (forall p, pose_from_xml w e = Ok p <-> pose_element w e p).
  Proof. intro e. split; [apply box_iff|]. split; [apply rot_iff|apply pose_iff]. Qed.
End C48.

(** * C49 *)
Section C49.
  Context {M : Type}.
  Variable w : world M.

  (** The constructor: one of three types; geometry of another type is dropped. *)
  Theorem C49_constructor : forall i ty b v m T c sy x e,
    (In ty ["bounding_box"; "voxels"; "meshes"] -> exists o : pobject M, mk_object i ty b v m T c sy x e = Ok o /\ typed o /\
       o_id o = i /\ o_type o = ty /\ o_bounds o = b /\ o_pose o = T /\ o_category o = c /\ o_score o = x /\ o_evaluated o = e /\
       o_symmetry o = (match sy with Some s => s | None => Symmetry none none none end) /\
       (ty = "voxels" -> o_voxels o = v) /\ (ty = "meshes" -> o_meshes o = m)) /\
    (~ In ty ["bounding_box"; "voxels"; "meshes"] -> mk_object (M := M) i ty b v m T c sy x e = Err ValueError).
  Proof.
    intros i ty b v m T c sy x e. assert (SY : object_symmetry sy = Ok (match sy with Some s => s | None => Symmetry none none none end)) by (destruct sy; reflexivity).
    unfold mk_object. rewrite SY. cbn [bind]. split.
    - intros [<-|[<-|[<-|[]]]]; cbn [String.eqb Ascii.eqb Bool.eqb]; (eexists; split; [reflexivity|]); unfold typed; cbn [o_id o_type o_bounds o_voxels o_meshes o_pose o_category o_symmetry o_score o_evaluated];
        (split; [auto|]); do 8 (split; [reflexivity|]); split; intro Q; first [discriminate Q|reflexivity].
    - intro N. destruct (String.eqb_spec ty "bounding_box") as [->|_]; [destruct N; cbn; auto|]. destruct (String.eqb_spec ty "voxels") as [->|_]; [destruct N; cbn; auto|].
      destruct (String.eqb_spec ty "meshes") as [->|_]; [destruct N; cbn; auto|]. reflexivity.
  Qed.

  (** [o'] is [o] moved by [T]. *)
  Definition moved (T : pose) (o o' : pobject M) : Prop :=
    o_id o' = o_id o /\ o_type o' = o_type o /\ o_bounds o' = o_bounds o /\ o_voxels o' = o_voxels o /\ o_meshes o' = o_meshes o /\
    o_category o' = o_category o /\ o_symmetry o' = o_symmetry o /\ o_score o' = o_score o /\ o_evaluated o' = o_evaluated o /\
    forall p, transform_from (o_pose o') p = transform_from T (transform_from (o_pose o) p).
  Lemma pose_eq : forall p q, (forall v, transform_from p v = transform_from q v) -> p = q.
  Proof.
    intros [[a b c d e f g h i] [x y z]] [[a' b' c' d' e' f' g' h' i'] [x' y' z']] H. assert (H0 := H (V 0 0 0)). assert (H1 := H (V 1 0 0)). assert (H2 := H (V 0 1 0)). assert (H3 := H (V 0 0 1)).
    unfold transform_from in *. cbn in H0, H1, H2, H3. injection H0 as A1 A2 A3. injection H1 as B1 B2 B3. injection H2 as C1 C2 C3. injection H3 as D1 D2 D3. f_equal; [apply mat_eq; cbn; lra|apply vec_eq; cbn; lra].
  Qed.

  Lemma object_moves : forall T (o : pobject M), typed o ->
    object_transform T o = Ok (PObject (o_id o) (o_type o) (o_bounds o) (o_voxels o) (o_meshes o) (compose T (o_pose o)) (o_category o) (o_symmetry o) (o_score o) (o_evaluated o)).
  Proof. intros T o C. unfold object_transform. apply typed_again, C. Qed.
  Lemma moved_eq : forall T (o o' : pobject M), moved T o o' <->
    o' = PObject (o_id o) (o_type o) (o_bounds o) (o_voxels o) (o_meshes o) (compose T (o_pose o)) (o_category o) (o_symmetry o) (o_score o) (o_evaluated o).
  Proof.
    intros T o o'. split.
    - destruct o' as [a1 a2 a3 a4 a5 a6 a7 a8 a9 a10], o as [b1 b2 b3 b4 b5 b6 b7 b8 b9 b10]. unfold moved. cbn [o_id o_type o_bounds o_voxels o_meshes o_pose o_category o_symmetry o_score o_evaluated]. intros (-> & -> & -> & -> & -> & -> & -> & -> & -> & P). f_equal.
      apply pose_eq. intro v. rewrite P, transform_from_compose. reflexivity.
    - intros ->. unfold moved. cbn [o_id o_type o_bounds o_voxels o_meshes o_pose o_category o_symmetry o_score o_evaluated]. repeat (split; [reflexivity|]). intro p. apply transform_from_compose.
  Qed.
  Definition move1 (T : pose) (o : pobject M) : pobject M := PObject (o_id o) (o_type o) (o_bounds o) (o_voxels o) (o_meshes o) (compose T (o_pose o)) (o_category o) (o_symmetry o) (o_score o) (o_evaluated o).
  Lemma items_move : forall T l, Forall (fun kv => typed (snd kv)) l ->
    mapM (fun kv => let* o := object_transform T (snd kv) in Ok (fst kv, o)) l = Ok (map (fun kv : string * pobject M => (fst kv, move1 T (snd kv))) l).
  Proof.
    intros T. induction l as [|kv l IH]; intro F; [reflexivity|]. inversion F; subst. cbn [mapM map]. rewrite object_moves by assumption. cbn [bind]. rewrite (IH H2). reflexivity.
  Qed.
  Lemma scene_moves : forall T (sc : pscene M), In (sc_type sc) ["bounding_box"; "voxels"; "meshes"] -> Forall (fun kv => typed (snd kv)) (items (sc_elements sc)) ->
    scene_transform T sc = Ok (PScene (sc_type sc) default_settings (ODict false (map (fun kv => (fst kv, move1 T (snd kv))) (items (sc_elements sc))))).
  Proof. intros T sc TY F. unfold scene_transform. rewrite items_move by exact F. cbn [bind]. unfold mk_scene. replace (str_in (sc_type sc) _) with true by (symmetry; apply str_in_In, TY). reflexivity. Qed.

  (** Every object is moved, under its key; the settings become the default ones and
      the objects a plain dict. *)
  Theorem C49_moves : forall T (sc : pscene M), In (sc_type sc) ["bounding_box"; "voxels"; "meshes"] -> Forall (fun kv => typed (snd kv)) (items (sc_elements sc)) ->
    exists sc', scene_transform T sc = Ok sc' /\ sc_type sc' = sc_type sc /\
      Forall2 (fun kv kv' => fst kv' = fst kv /\ moved T (snd kv) (snd kv')) (items (sc_elements sc)) (items (sc_elements sc')) /\
      sc_settings sc' = [("version", Some "2.0"); ("categories_id", Some "fb_categories_v1_0"); ("categories_url", Some "https://sumochallenge.org/en/categories-1_0.json")] /\
      is_object_dict (sc_elements sc') = false.
  Proof.
    intros T sc TY F. eexists. split; [apply scene_moves; assumption|]. split; [reflexivity|]. split; [|split; reflexivity]. cbn [sc_elements items]. clear F.
    induction (items (sc_elements sc)) as [|kv l IH]; constructor; [|exact IH]. split; [reflexivity|]. apply moved_eq. reflexivity.
  Qed.

  (** Moving by T and then by U is moving by U after T; moving by the identity only
      loses settings and dictionary type. *)
  Theorem C49_twice : forall T U (sc sc1 sc2 : pscene M), In (sc_type sc) ["bounding_box"; "voxels"; "meshes"] -> Forall (fun kv => typed (snd kv)) (items (sc_elements sc)) ->
    scene_transform T sc = Ok sc1 -> scene_transform U sc1 = Ok sc2 -> forall UT, (forall p, transform_from UT p = transform_from U (transform_from T p)) -> scene_transform UT sc = Ok sc2.
  Proof.
    intros T U sc sc1 sc2 TY F E1 E2 UT H. assert (UT = compose U T) by (apply pose_eq; intro v; rewrite H, transform_from_compose; reflexivity). subst UT.
    rewrite scene_moves in E1 by assumption. injection E1 as <-. rewrite scene_moves in E2; [|exact TY|].
    - injection E2 as <-. rewrite scene_moves by assumption. do 3 f_equal. cbn [sc_elements items]. rewrite map_map. apply map_ext. intros [k o]. unfold move1. cbn. rewrite compose_assoc. reflexivity.
    - cbn [sc_elements items]. apply Forall_map. cbn [snd]. eapply Forall_impl; [|exact F]. intros [k o] C. exact C.
  Qed.
  Theorem C49_identity : forall (sc sc' : pscene M), In (sc_type sc) ["bounding_box"; "voxels"; "meshes"] -> Forall (fun kv => typed (snd kv)) (items (sc_elements sc)) ->
    scene_transform pose_id sc = Ok sc' -> items (sc_elements sc') = items (sc_elements sc).
  Proof.
    intros sc sc' TY F E. rewrite scene_moves in E by assumption. injection E as <-. cbn [sc_elements items]. rewrite <- map_id. apply map_ext. intros [k []]. unfold move1. cbn. rewrite compose_id_l. reflexivity.
  Qed.

  (** A moved scene cannot be saved: there is an empty folder and an AttributeError. *)
  Theorem C49_unsaveable : forall T (sc sc' : pscene M) p name s, scene_transform T sc = Ok sc' -> tree s -> free s (resolve s (join p (Rel [name]))) ->
    exists s', scene_save w sc' p name s = (s', Err AttributeError) /\ new_folder s s' (resolve s (join p (Rel [name]))) [].
  Proof.
    intros T sc sc' p name s E TR FR. set (dir := join p (Rel [name])) in *. exists (made s (resolve s dir)). split; [|apply made_new_folder; assumption].
    assert (K : is_object_dict (sc_elements sc') = false /\ sc_settings sc' = default_settings).
    { unfold scene_transform in E. destruct (mapM _ _) as [l|]; [|discriminate E]. cbn [bind] in E. unfold mk_scene in E. destruct (str_in _ _); [|discriminate E]. injection E as <-. auto. }
    unfold scene_save. fold dir. rewrite (ibind_ok _ _ _ _ _ _ _ _ (makedirs_ok _ s dir FR)). destruct K as (K & ->). unfold ibind, ilift, dict_save. rewrite K. reflexivity.
  Qed.
End C49.

(** * C50 *)
Section C50.
  Context {M : Type}.
  Variable w : world M.

  (** Only these conversions are made. *)
  Theorem C50_pairs : forall draws (sc : pscene M) target,
    ~ In (sc_type sc, target) [("meshes", "voxels"); ("meshes", "bounding_box"); ("voxels", "bounding_box")] ->
    convert w draws sc target = Err ValueError.
  Proof.
    intros draws sc target N. unfold convert. replace (allowed (sc_type sc) target) with false; [reflexivity|]. symmetry. apply not_true_iff_false. intro A. apply N.
    unfold allowed in A. apply existsb_exists in A. destruct A as ([a b] & I & E). apply andb_true_iff in E. destruct E as (E1 & E2). apply String.eqb_eq in E1, E2. cbn [fst snd] in E1, E2. subst a b. exact I.
  Qed.

  (** They succeed for objects that have their geometry: same ids and annotations, exact
      bounds. *)
  Theorem C50_converts : forall draws (sc : pscene M) target,
    In (sc_type sc, target) [("meshes", "voxels"); ("meshes", "bounding_box"); ("voxels", "bounding_box")] ->
    Forall (fun kv => convertible w (sc_type sc) target (snd kv)) (items (sc_elements sc)) ->
    NoDup (map (fun kv => o_id (snd kv)) (items (sc_elements sc))) -> (forall k, uniform (draws k)) ->
    exists sc', convert w draws sc target = Ok sc' /\ sc_type sc' = target /\ sc_settings sc' = sc_settings sc /\ is_object_dict (sc_elements sc') = true /\
      Forall2 (fun kv kv' => fst kv' = o_id (snd kv) /\ converted w target (snd kv) (snd kv')) (items (sc_elements sc)) (items (sc_elements sc')).
  Proof.
    intros draws sc target I F N U. unfold convert. assert (A : allowed (sc_type sc) target = true).
    { unfold allowed. apply existsb_exists. exists (sc_type sc, target). split; [exact I|]. cbn [fst snd]. rewrite !String.eqb_refl. reflexivity. }
    rewrite A. cbn [negb]. destruct (all_ok w draws (sc_type sc) target (map snd (items (sc_elements sc))) 0 [] ltac:(apply Forall_map, F) U ltac:(rewrite map_map; exact N) ltac:(reflexivity)) as (l & L & R).
    rewrite L. cbn [bind app]. unfold mk_scene. replace (str_in target _) with true; [|symmetry; apply str_in_In; destruct I as [E|[E|[E|[]]]]; injection E as _ <-; cbn; auto].
    eexists. split; [reflexivity|]. repeat (split; [reflexivity|]). cbn [sc_elements items]. clear - R. revert l R. induction (items (sc_elements sc)) as [|kv its IH]; intros l R; inversion R; subst; constructor; [assumption|]. apply IH. assumption.
  Qed.

  (** An object that lacks its geometry, or is of another type than the scene says, makes
      the conversion fail: whatever succeeds comes from the objects' own types. *)
  Theorem C50_own_type : forall draws (o o' : pobject M) target, convert_element w draws target o = Ok o' ->
    In (o_type o, target) [("meshes", "voxels"); ("meshes", "bounding_box"); ("voxels", "bounding_box")] /\
    same_annotations o o' /\ o_type o' = target /\ o_meshes o' = None /\ (o_type o = "meshes" -> o_meshes o <> None) /\ (o_type o = "voxels" -> o_voxels o <> None).
  Proof.
    intros draws o o' target E. unfold convert_element in E. destruct (allowed (o_type o) target) eqn:A; cbn [negb] in E; [|discriminate E].
    unfold allowed in A. apply existsb_exists in A. destruct A as ([a b] & I & Q). apply andb_true_iff in Q. destruct Q as (Q1 & Q2). apply String.eqb_eq in Q1, Q2. cbn [fst snd] in Q1, Q2. subst a b.
    split; [exact I|]. assert (I' := I). destruct I' as [Q|[Q|[Q|[]]]]; injection Q as Q1 Q2; rewrite <- Q1, <- Q2 in *; cbn [String.eqb Ascii.eqb Bool.eqb] in E.
    - destruct (o_meshes o) as [m|]; [|discriminate E]. destruct (voxelizer_run w draws m) as [g|]; [|discriminate E]. cbn [bind] in E. destruct (bounds g) as [b|]; [|discriminate E].
      cbn in E. injection E as <-. split; [repeat (split; [reflexivity|]); reflexivity|]. repeat (split; [reflexivity|]). split; intro; [discriminate|congruence].
    - destruct (o_meshes o) as [m|]; [|discriminate E]. destruct (model_bounds w m) as [b|]; [|discriminate E]. cbn in E. injection E as <-.
      split; [repeat (split; [reflexivity|]); reflexivity|]. repeat (split; [reflexivity|]). split; intro; [discriminate|congruence].
    - destruct (o_voxels o) as [g|]; [|discriminate E]. destruct (bounds g) as [b|]; [|discriminate E]. cbn in E. injection E as <-.
      split; [repeat (split; [reflexivity|]); reflexivity|]. repeat (split; [reflexivity|]). split; intro; [congruence|discriminate].
  Qed.

  (** By way of voxels: the box contains all sampled points, and on each axis it goes
      at most one voxel beyond the box of the mesh, and only at the upper end. *)
  Theorem C50_by_voxels : forall draws draws' (o o1 o2 o3 : pobject M), convertible w "meshes" "voxels" o -> uniform draws ->
    convert_element w draws "voxels" o = Ok o1 -> convert_element w draws' "bounding_box" o1 = Ok o2 -> convert_element w draws' "bounding_box" o = Ok o3 ->
    exists b c m ms points, o_bounds o2 = Some b /\ o_bounds o1 = Some b /\ o_bounds o3 = Some c /\ o_meshes o = Some m /\ primitive_meshes w m = Ok ms /\ sampled ms points /\
      (forall p, In p points -> inside b p /\ inside c p) /\
      (forall axis, (axis < 3)%nat -> coord axis (min_corner c) <= coord axis (min_corner b) /\ coord axis (max_corner b) <= coord axis (max_corner c) + 1 / 10).
  Proof.
    intros draws draws' o o1 o2 o3 (TY & C) U E1 E2 E3. destruct C as [(Q & _)|(_ & NV & m & ms & E & P & NE & NV' & C)]; [discriminate Q|]. destruct C as [Q|(_ & S & NT)]; [discriminate Q|].
    destruct (voxelizer_ok w draws m ms P NE S U NT) as (g & b & pts & G & B & SA & GO & IN & TI).
    unfold convert_element in E1. rewrite TY in E1. cbn [allowed existsb fst snd String.eqb Ascii.eqb Bool.eqb andb orb negb] in E1. rewrite E, G in E1. cbn [bind] in E1. rewrite B in E1. cbn in E1. injection E1 as <-.
    unfold convert_element in E2. cbn [o_type allowed existsb fst snd String.eqb Ascii.eqb Bool.eqb andb orb negb o_voxels] in E2. rewrite B in E2. cbn in E2. injection E2 as <-.
    unfold convert_element in E3. rewrite TY in E3. cbn [allowed existsb fst snd String.eqb Ascii.eqb Bool.eqb andb orb negb] in E3. rewrite E in E3. unfold model_bounds in E3. rewrite P in E3. cbn in E3. injection E3 as <-.
    assert (EB : from_meshes (map s_vertices ms) = from_point_cloud (flat_map s_vertices ms)).
    { apply (tight_unique _ _ (flat_map s_vertices ms)).
      - rewrite flat_map_concat_map. apply C19_meshes_tight; [destruct ms; [congruence|discriminate]|apply Forall_map, NV'].
      - apply from_point_cloud_tight. destruct ms as [|x ms]; [congruence|]. inversion NV'; subst. cbn [flat_map]. intro Q. apply app_eq_nil in Q. destruct Q. contradiction. }
    exists b, (from_meshes (map s_vertices ms)), m, ms, pts. repeat (split; [first [reflexivity|assumption]|]). rewrite EB. split; [exact IN|].
    destruct (TI (from_point_cloud (flat_map s_vertices ms)) (fun p I => proj2 (IN p I))) as (T1 & T2). intros axis A. split; [|apply T2, A].
    destruct T1 as ((A1 & A2 & A3) & _). destruct axis as [|[|[|]]]; [exact A1|exact A2|exact A3|lia].
  Qed.

  (** A model without meshes: no box around anything, and no voxels. *)
  Theorem C50_empty_model : forall draws (o : pobject M) m, o_type o = "meshes" -> o_meshes o = Some m -> primitive_meshes w m = Ok [] ->
    convert_element w draws "voxels" o = Err TypeError /\
    exists o', convert_element w draws "bounding_box" o = Ok o' /\ exists b, o_bounds o' = Some b /\ min_corner b = vzero /\ max_corner b = vzero.
  Proof.
    intros draws o m T E P. unfold convert_element. rewrite T. cbn [allowed existsb fst snd String.eqb Ascii.eqb Bool.eqb andb orb negb]. rewrite E. unfold voxelizer_run, model_bounds. rewrite P. cbn [bind]. split.
    - unfold model_sampler. cbn. reflexivity.
    - cbn. eexists. split; [reflexivity|]. eexists. split; [reflexivity|]. cbn [min_corner max_corner from_meshes]. split; apply vec_eq; cbn; try reflexivity; unfold Rmin, Rmax; destruct (Rle_dec 0 0); reflexivity.
  Qed.
End C50.

(** * C47, continued: what is lost *)
Section Lost.
  Context {M : Type}.
  Variables (w : world M) (tmp : list string) (saveable : M -> Prop) (kept : M -> M -> Prop).
  Hypothesis formats : formats_ok w tmp saveable kept.

  Definition with_id (i : string) (o : pobject M) : pobject M :=
    PObject i (o_type o) (o_bounds o) (o_voxels o) (o_meshes o) (o_pose o) (o_category o) (o_symmetry o) (o_score o) (o_evaluated o).
  Definition with_category (c : option string) (o : pobject M) : pobject M :=
    PObject (o_id o) (o_type o) (o_bounds o) (o_voxels o) (o_meshes o) (o_pose o) c (o_symmetry o) (o_score o) (o_evaluated o).

  (** An object with an empty id is saved, but cannot be loaded. *)
  Theorem C47_empty_id : forall ty o, good_object w saveable ty o ->
    exists e, object_to_xml w (with_id "" o) = Ok e /\ plain_tree e /\ forall dir s, object_load w ty (reread e) dir s = (s, Err ValueError).
  Proof.
    intros ty o G. destruct (object_xml w tmp saveable kept formats ty o G) as (b & e & TB & E & FE & TE & b' & p' & BB & PP & PX).
    unfold object_to_xml in E. destruct (saved_bounds w o) as [sb|] eqn:SB; [|discriminate E]. cbn [bind] in E. injection E as <-.
    unfold object_to_xml. change (saved_bounds w (with_id "" o)) with (saved_bounds w o). rewrite SB. cbn [bind]. eexists. split; [reflexivity|].
    inversion FE as [? ? ? N1 N2 N3 FC]; subst. inversion FC as [|? ? F1 F2]; subst. unfold with_id. cbn [o_id o_category o_pose o_symmetry o_score o_evaluated].
    match type of F2 with Forall fine ?l => set (rest := l) in * end. split.
    - constructor; [cbv; auto|exact I|]. constructor; [constructor; [cbv; auto|reflexivity|constructor]|]. apply Forall_forall. intros x X. rewrite Forall_forall in F2. apply fine_plain, F2, X.
    - intros dir s. assert (RR : map reread rest = rest). { rewrite <- (map_id rest) at 2. apply map_ext_in. intros x X. rewrite Forall_forall in F2. apply fine_plain, F2, X. }
      cbn [reread no_empty map leaf]. rewrite RR. apply parse_iff in PX. destruct PX as ((_ & RC & _) & _). cbn [children] in RC. inversion RC as [|? ? R1 R2]; subst.
      destruct (C48_element_errors w ty (Elem "element" None (Elem "id" None [] :: rest)) dir s) as (_ & EE). destruct EE as (_ & EE & _); [reflexivity| |].
      + constructor; [|exact R2]. split; [discriminate|]. split; discriminate.
      + apply (EE (Elem "id" None [])); [|reflexivity]. exists [], rest. split; [reflexivity|]. split; [reflexivity|].
        unfold rest. repeat (apply Forall_cons; [discriminate|]). constructor.
  Qed.

  (** An empty category is loaded as None. *)
  Theorem C47_empty_category : forall ty o, good_object w saveable ty o ->
    exists e, object_to_xml w (with_category (Some "") o) = Ok e /\ plain_tree e /\
      forall dir s s' o', object_load w ty (reread e) dir s = (s', Ok o') -> o_category o' = None.
  Proof.
    intros ty o G. assert (G' : good_object w saveable ty (with_category None o)).
    { destruct G as (A1 & A2 & A3 & A4 & A5 & A6 & A7 & _ & _ & A10). repeat (split; [assumption|]). split; [exact I|]. split; [discriminate|exact A10]. }
    destruct (object_xml w tmp saveable kept formats ty _ G') as (b & e & TB & E & FE & TE & b' & p' & BB & PP & PX).
    unfold object_to_xml in *. change (saved_bounds w (with_category None o)) with (saved_bounds w o) in E. change (saved_bounds w (with_category (Some "") o)) with (saved_bounds w o).
    destruct (saved_bounds w o) as [sb|]; [|discriminate E]. cbn [bind] in *. eexists. split; [reflexivity|]. injection E as <-. unfold with_category in *. cbn [o_id o_category o_pose o_symmetry o_score o_evaluated] in *.
    inversion FE as [? ? ? N1 N2 N3 FC]; subst. inversion FC as [|? ? F1 F2]; subst. inversion F2 as [|? ? F3 F4]; subst. destruct (fine_plain _ F1) as (P1 & Q1).
    assert (P4 : forall l, Forall fine l -> Forall plain_tree l /\ map reread l = l).
    { clear. induction 1 as [|x l X F (I1 & I2)]; [split; constructor|]. destruct (fine_plain x X) as (A & B). split; [constructor; assumption|]. cbn [map]. rewrite B, I2. reflexivity. }
    destruct (P4 _ F4) as (P5 & Q5). split.
    - constructor; [cbv; auto|exact I|]. apply Forall_cons; [exact P1|]. apply Forall_cons; [constructor; [cbv; auto|reflexivity|constructor]|exact P5].
    - intros dir s s' o' L. cbn [reread no_empty] in L. unfold map at 1 in L. fold (map reread) in L. unfold object_load in L.
      match type of Q5 with map reread ?l = _ => set (rest := l) in * end. cbn [map reread no_empty] in L. 
      replace (Elem "element" None _) with (Elem "element" None (leaf "id" (o_id o) :: Elem "category" None [] :: rest)) in L.
      + unfold ibind at 1 in L. unfold ilift at 1 in L. rewrite PX in L. cbn [q_pose q_category q_symmetry q_score q_evaluated] in L. unfold mk_object in L. cbn [object_symmetry bind] in L.
        destruct (String.eqb ty "bounding_box"); [injection L as _ <-; reflexivity|]. destruct (String.eqb ty "voxels"); [|destruct (String.eqb ty "meshes"); [|discriminate L]].
        * apply ibind_inv in L. destruct L as (s1 & g & _ & L). injection L as _ <-. reflexivity.
        * apply ibind_inv in L. destruct L as (s1 & g & _ & L). apply ibind_inv in L. destruct L as (s2 & m & _ & L). injection L as _ <-. reflexivity.
      + f_equal. f_equal; [symmetry; exact Q1|]. f_equal. symmetry. exact Q5.
  Qed.
End Lost.

(** The models of Glb/Model.v meet the contract for models. *)
Theorem C47_gltf_models : forall write_json loads dumps parse encode decode guess_type tmp mkdtemp (w : world Gltf.Model.gmodel),
  json_ok write_json loads dumps parse -> png_ok encode decode ->
  (forall s, isdir_at s tmp = true -> sane s -> fresh s (mkdtemp s) /\ removelast (mkdtemp s) = tmp /\ ~ In "."%char (list_ascii_of_string (last (mkdtemp s) ""))) ->
  save_as_glb w = (fun g p s => Glb.Model.save_as_glb write_json loads dumps encode guess_type (mkdtemp s) g p s) ->
  decode_glb w = (fun b => let* g := Glb.Model.load_binary parse decode b in Gltf.Model.setURIs g ".png") ->
  numbers_ok w -> xml_ok w -> h5_ok w ->
  formats_ok w tmp (gltf_saveable dumps encode) gltf_kept.
Proof.
  intros write_json loads dumps parse encode decode guess_type tmp mkdtemp w J P T S D N X H. split; [exact N|]. split; [exact X|]. split; [exact H|].
  eapply gltf_glb_ok; eassumption.
Qed.

(** Mesh scenes are not saved at a relative path: the model is not written and an empty
    folder stays.  (The files of [small] and the formats of the toy are those of C68.) *)
Theorem C47_relative_refuted : exists g, Gltf.Model.add_mesh Gltf.Model.empty_model Gltf.Props.red_tri = Ok g /\
  forall (w : world Gltf.Model.gmodel) o e, save_as_glb w = Glb.Props.toy_save ["tmp"; "t"] ->
    o_id o = "i" -> o_type o = "meshes" -> o_meshes o = Some g -> object_to_xml w o = Ok e ->
    exists s', scene_save w (PScene "meshes" default_settings (ODict true [("i", o)])) (Rel []) "n" Glb.Props.small = (s', Err IOError) /\
      new_folder Glb.Props.small s' ["w"; "n"] [].
Proof.
  eexists. split; [vm_compute; reflexivity|]. intros w o e S I T G E.
  assert (TR : tree Glb.Props.small).
  { split.
    - intros l F. unfold isfile_at, dmem in F. cbn [dget files Glb.Props.small] in F. destruct (loc_eqb l ["w"; "keep"]) eqn:Q; [|discriminate F]. apply loc_eqb_spec in Q. subst l. split; [discriminate|]. split; reflexivity.
    - intros [|a l] D; [reflexivity|]. cbn [isdir_at dirs Glb.Props.small existsb] in D. rewrite orb_false_r in D. apply orb_true_iff in D. destruct D as [D|D]; apply loc_eqb_spec in D; rewrite D; reflexivity. }
  assert (FR : free Glb.Props.small ["w"; "n"]).
  { split; [reflexivity|]. intros l A. apply above_spec in A. destruct A as (c & C). destruct l as [|a [|b [|x l]]]; [reflexivity| | |discriminate C]; cbn in C; injection C; intros; subst; reflexivity. }
  exists (made Glb.Props.small ["w"; "n"]). split; [|apply made_new_folder; assumption].
  unfold scene_save. cbn [join app]. assert (MK : makedirs (Rel ["n"]) Glb.Props.small = (made Glb.Props.small ["w"; "n"], Ok tt)) by (apply (makedirs_ok _ Glb.Props.small (Rel ["n"])); exact FR).
  rewrite (ibind_ok _ _ _ _ _ _ _ _ MK). unfold ibind at 1, ilift at 1. cbn [sc_settings]. change (sgetE "version" default_settings) with (Ok (Some "2.0")). unfold ibind at 1, ilift at 1.
  change (sgetE "categories_id" default_settings) with (Ok (Some "fb_categories_v1_0")). unfold ibind at 1, ilift at 1. change (sgetE "categories_url" default_settings) with (Ok (Some "https://sumochallenge.org/en/categories-1_0.json")).
  apply ibind_err. unfold dict_save. cbn [is_object_dict sc_elements items map snd]. apply ibind_err. cbn [save_all]. apply ibind_err. unfold object_save. rewrite E. unfold ibind at 1, ilift at 1.
  apply ibind_err. rewrite T, G, I, S. vm_compute. reflexivity.
Qed.

(** * C48, continued *)
Section C48b.
  Context {M : Type}.
  Variable w : world M.
  (** Text that is no XML gives ParseError, a SyntaxError (documented: ValueError). *)
  Theorem C48_bad_xml : forall p name s b, dget loc_eqb (xml_place p name s) (files s) = Some b -> xml_parse w b = None ->
    scene_load w p name s = (s, Err SyntaxError).
  Proof. intros p name s b B X. unfold scene_load, ibind. rewrite load_reads, B, X. reflexivity. Qed.

  (** A column with one number is accepted, so what is read need not be a rotation. *)
  Theorem C48_not_a_rotation : forall t x, fromstring w t = [x] ->
    exists r, rot_from_xml w (Elem "rotation" None [leaf "c1" t; leaf "c2" t; leaf "c3" t]) = Ok r /\ ~ rotation r.
  Proof.
    intros t x F. eexists. split; [unfold rot_from_xml; cbn [tag String.eqb Ascii.eqb Bool.eqb negb children foldM]; unfold rot_child, column; cbn [text leaf]; rewrite F; reflexivity|].
    intros (O & _). unfold mmul, mtr, mid in O. cbn in O. injection O. intros. nra.
  Qed.
End C48b.

(** * C75 *)
Section C75.
  Context {M : Type}.
  Variable w : world M.

  (** A grid is written to exactly the given file and read back unchanged. *)
  Theorem C75_roundtrip : h5_ok w -> forall g p s, small_grid g ->
    resolve s p <> [] -> isdir_at s (removelast (resolve s p)) = true -> isdir_at s (resolve s p) = false ->
    exists s', save_grid w g p s = (s', Ok tt) /\ same_but (resolve s p) s s' /\ load_grid w p s' = (s', Ok g).
  Proof.
    intros H g p s SG NE D1 D2. set (l := resolve s p) in *. exists (put s l (h5_write w g)). assert (RP : forall b, resolve (put s l b) p = l) by (intro b; unfold l; apply resolve_cwd; reflexivity).
    split; [|split].
    - unfold save_grid, write. fold l. rewrite write_at_ok by assumption. reflexivity.
    - split; [reflexivity|]. split; [|reflexivity]. intros l' N. apply get_put_other. congruence.
    - unfold load_grid, read, read_at. rewrite RP, get_put_same, H by exact SG. reflexivity.
  Qed.

  (** Two grids in different files do not disturb each other. *)
  Theorem C75_two_files : h5_ok w -> forall g g' p p' s s1 s2, small_grid g -> resolve s p <> resolve s p' ->
    save_grid w g p s = (s1, Ok tt) -> save_grid w g' p' s1 = (s2, Ok tt) -> load_grid w p s2 = (s2, Ok g).
  Proof.
    intros H g g' p p' s s1 s2 SG NE E1 E2. unfold save_grid, write, write_at in E1. destruct (resolve s p) as [|x k] eqn:R; [discriminate E1|]. destruct (_ && _)%bool; [|discriminate E1]. injection E1 as <-.
    set (s1 := Fs _ _ _) in *. assert (R' : resolve s1 p' = resolve s p') by (apply resolve_cwd; reflexivity).
    unfold save_grid, write, write_at in E2. rewrite R' in E2. destruct (resolve s p') as [|x' k'] eqn:Q; [discriminate E2|]. destruct (_ && _)%bool; [|discriminate E2]. injection E2 as <-. set (s2 := Fs _ _ _).
    unfold load_grid, read, read_at. assert (R2 : resolve s2 p = x :: k) by (rewrite <- R; apply resolve_cwd; reflexivity). rewrite R2. unfold s2. cbn [files].
    rewrite (dget_dset_other _ loc_eqb_spec) by congruence. unfold s1. cbn [files]. rewrite (dget_dset_same _ loc_eqb_spec). rewrite H by exact SG. reflexivity.
  Qed.

  (** No file, or no h5 file, or no place to write to: an unbound variable, where IOError
      is documented. *)
  Theorem C75_errors : forall p s,
    ((forall b, dget loc_eqb (resolve s p) (files s) = Some b -> h5_read w b = None) -> load_grid w p s = (s, Err UnboundLocalError)) /\
    (forall g, resolve s p = [] \/ isdir_at s (removelast (resolve s p)) = false \/ isdir_at s (resolve s p) = true -> save_grid w g p s = (s, Err UnboundLocalError)).
  Proof.
    intros p s. split.
    - intro N. unfold load_grid, read, read_at. destruct (dget loc_eqb (resolve s p) (files s)) as [b|]; [rewrite (N b eq_refl)|]; reflexivity.
    - intros g C. unfold save_grid, write, write_at. destruct (resolve s p) as [|x l]; [reflexivity|]. destruct C as [C|[C|C]]; [discriminate C| |]; rewrite C; [|rewrite andb_false_r]; reflexivity.
  Qed.
End C75.

(** ".h5" is not added to the name, though this is documented. *)
Theorem C75_suffix_refuted : exists g s', save_grid Toy.world g (Abs ["v"]) (Fs [] [] []) = (s', Ok tt) /\
  isfile_at s' ["v"] = true /\ isfile_at s' ["v.h5"] = false.
Proof. exists (Grid 1 vzero [] 0 0). eexists. split; [reflexivity|]. split; reflexivity. Qed.

(** * Examples *)

Lemma float_int : forall z, (Z.abs z < 2 ^ 53)%Z -> is_float (IZR z).
Proof. intros z Z. exists z, 0%Z. split; [exact Z|]. split; [lia|]. cbn. ring. Qed.

(** A scene with a chair and a table, saved into an empty folder and loaded again. *)
Definition chair : pobject bytes := PObject "chair-1" "bounding_box" (Some (Box (V 0 0 0) (V 1 1 2))) None None (Pose mid (V 3 0 1)) (Some "chair") (Symmetry none twoFold none) (1 / 2) true.
Definition table : pobject bytes := PObject "table" "bounding_box" (Some (Box (V 0 0 0) (V 2 1 1))) None None pose_id None (Symmetry none none none) (-1) false.
Definition two_scene : pscene bytes := PScene "bounding_box" default_settings (ODict true [("chair-1", chair); ("table", table)]).
Definition empty_disk : fs bytes := Fs [] [["tmp"]] ["tmp"].
Example C47_example : exists s' sc', scene_save Toy.world two_scene (Rel ["out"]) "living room" empty_disk = (s', Ok tt) /\
  scene_load Toy.world (Rel ["out"]) "living room" s' = (s', Ok sc') /\ map fst (items (sc_elements sc')) = ["chair-1"; "table"] /\
  exists o, sget "chair-1" (items (sc_elements sc')) = Some o /\ o_score o = 1 / 2 /\ o_category o = Some "chair".
Proof.
  destruct (C47_roundtrip Toy.world ["tmp"] (fun _ => True) eq (Toy.ok ["tmp"]) two_scene (Rel ["out"]) "living room" empty_disk) as (s' & sc' & S & _ & L & _ & _ & _ & _ & F).
  - split; [cbn; auto|]. split; [|split; [reflexivity|split]].
    + intros k [<-|[<-|[<-|[]]]]; eexists; (split; [reflexivity|]); (split; [reflexivity|discriminate]).
    + assert (D0 : documented none none none) by (eexists; split; [constructor|apply Permutation.Permutation_refl]).
      assert (D1 : documented none twoFold none) by (exists [twoFold; none; none]; split; [constructor|apply Permutation.perm_swap]).
      apply Forall_cons; [|apply Forall_cons; [|constructor]]; cbn [snd];
        (split; [reflexivity|]; split; [left; split; [reflexivity|]; split; [reflexivity|]; split; [reflexivity|]; eexists; split; [reflexivity|]; cbv -[Rle IZR]; lra|]).
      * split; [exact D1|]. split; [reflexivity|]. split; [discriminate|]. split; [intros I; cbn in I; intuition discriminate|]. split; [discriminate|]. split; [reflexivity|]. split; [discriminate|].
        exists 1%Z, (-1)%Z. split; [reflexivity|]. split; [lia|]. change (1 / 2 = 1 * powerRZ 2 (-1)). unfold powerRZ. rewrite Pos2Nat.inj_1, pow_1. lra.
      * split; [exact D0|]. split; [reflexivity|]. split; [discriminate|]. split; [intros I; cbn in I; intuition discriminate|]. split; [discriminate|]. split; [exact I|]. split; [discriminate|]. apply float_int. reflexivity.
    + repeat constructor; cbn; intuition discriminate.
  - discriminate.
  - discriminate.
  - split; [intros l F; discriminate F|]. intros [|a l] D; [reflexivity|]. cbn [isdir_at dirs empty_disk existsb] in D. rewrite orb_false_r in D. apply loc_eqb_spec in D. rewrite D. reflexivity.
  - split; [repeat constructor; discriminate|reflexivity].
  - reflexivity.
  - split; reflexivity.
  - discriminate.
  - exists s', sc'. split; [exact S|]. split; [exact L|]. destruct (items (sc_elements sc')) as [|[k1 o1] [|[k2 o2] [|]]]; inversion F as [|? ? ? ? (A1 & B1) F']; subst; inversion F' as [|? ? ? ? (A2 & B2) F'']; subst; inversion F''.
    cbn [fst snd] in *. subst k1 k2. split; [reflexivity|]. exists o1. split; [reflexivity|]. destruct B1 as (_ & _ & B1 & _ & B2' & _). split; assumption.
Qed.

(** The chair moved. *)
Example C49_example : exists o, object_transform (Pose mid (V 1 1 1)) chair = Ok o /\ pt (o_pose o) = V 4 1 2 /\ o_category o = Some "chair".
Proof. eexists. split; [reflexivity|]. split; [|reflexivity]. cbn. apply vec_eq; cbn; ring. Qed.

(** Settings are lost by moving. *)
Theorem C49_settings_refuted : exists (sc sc' : pscene bytes), scene_transform pose_id sc = Ok sc' /\ sget "version" (sc_settings sc) = Some (Some "3.0") /\ sget "version" (sc_settings sc') = Some (Some "2.0").
Proof. exists (PScene "meshes" [("version", Some "3.0")] (ODict true [])). eexists. split; [reflexivity|]. split; reflexivity. Qed.

(** An object with one triangle, converted to voxels. *)
Definition tri_world : world bytes :=
  World (array2string Toy.world) (fromstring Toy.world) (str_float Toy.world) (float_of Toy.world) (fun _ => Ok [leg_tri])
        (save_as_glb Toy.world) (decode_glb Toy.world) (h5_write Toy.world) (h5_read Toy.world) (xml_write Toy.world) (xml_parse Toy.world).
Definition tri_object : pobject bytes := PObject "t" "meshes" None None (Some []) pose_id (Some "leg") (Symmetry none none none) 1 true.
Example C50_example : convertible tri_world "meshes" "voxels" tri_object /\
  exists sc', convert tri_world (fun _ k => (1 / 2, 1 / INR (k + 2))) (PScene "meshes" default_settings (ODict true [("t", tri_object)])) "voxels" = Ok sc' /\
    map fst (items (sc_elements sc')) = ["t"].
Proof.
  assert (C : convertible tri_world "meshes" "voxels" tri_object).
  { split; [reflexivity|]. right. split; [reflexivity|]. split; [reflexivity|]. exists [], [leg_tri]. split; [reflexivity|]. split; [reflexivity|]. split; [discriminate|]. split; [repeat constructor; discriminate|]. right.
    split; [reflexivity|]. split; [|discriminate]. constructor; [|constructor]. apply (C43_six). }
  split; [exact C|]. destruct (C50_converts tri_world (fun _ k => (1 / 2, 1 / INR (k + 2))) (PScene "meshes" default_settings (ODict true [("t", tri_object)])) "voxels") as (sc' & E & _ & _ & _ & F).
  - cbn; auto.
  - constructor; [exact C|constructor].
  - repeat constructor. intros [].
  - intro k. apply C43_draws.
  - exists sc'. split; [exact E|]. inversion F as [|? kv ? l (A & _) F']; subst. inversion F'; subst. cbn [map]. rewrite A. reflexivity.
Qed.

Print Assumptions C47_roundtrip.
Print Assumptions C47_never_overwrites.
Print Assumptions C47_keeps_files.
Print Assumptions C47_load_pure.
Print Assumptions C47_missing_setting.
Print Assumptions C47_last_id_wins.
Print Assumptions C48_loaded.
Print Assumptions C48_accepted.
Print Assumptions C48_no_file.
Print Assumptions C48_header.
Print Assumptions C48_no_elements.
Print Assumptions C48_element.
Print Assumptions C48_element_errors.
Print Assumptions C48_geometry.
Print Assumptions C49_constructor.
Print Assumptions C49_moves.
Print Assumptions C49_twice.
Print Assumptions C49_identity.
Print Assumptions C49_unsaveable.
Print Assumptions C50_pairs.
Print Assumptions C50_converts.
Print Assumptions C50_own_type.
Print Assumptions C50_by_voxels.
Print Assumptions C50_empty_model.
Print Assumptions C47_empty_id.
Print Assumptions C47_empty_category.
Print Assumptions C47_gltf_models.
Print Assumptions C47_relative_refuted.
Print Assumptions C48_bad_xml.
Print Assumptions C48_not_a_rotation.
Print Assumptions C75_roundtrip.
Print Assumptions C75_two_files.
Print Assumptions C75_errors.
Print Assumptions C75_suffix_refuted.
Print Assumptions C49_settings_refuted.
