(** Lemmas for the scene properties: saving and loading. *)
From Coq Require Import Reals Lra Lia List Bool String Ascii ZArith.
From Verif.Base Require Import Py PyFacts Vec Xml Fs FsFacts.
From Verif.Geom Require Import Model.
From Verif.Box Require Import Model Spec.
From Verif.Voxel Require Import Model.
From Verif.Symm Require Import Model Spec.
From Verif.Sample Require Import Model.
From Verif.Glb Require Import Spec.
From Verif.Scene Require Import Model Spec Proofs.
Import ListNotations.
Local Open Scope string_scope.
Local Open Scope list_scope.

Lemma ibind_ok : forall A B C (a : io A B) (f : B -> io A C) s s' x, a s = (s', Ok x) -> ibind a f s = f x s'.
Proof. intros A B C a f s s' x E. unfold ibind. rewrite E. reflexivity. Qed.
Lemma ibind_err : forall A B C (a : io A B) (f : B -> io A C) s s' e, a s = (s', Err e) -> ibind a f s = (s', Err e).
Proof. intros A B C a f s s' x E. unfold ibind. rewrite E. reflexivity. Qed.

Lemma resolve_abs : forall (s : fs bytes) l, names l -> resolve s (Abs l) = l.
Proof. intros s l N. cbn [resolve]. rewrite walk_names by exact N. reflexivity. Qed.

Section Saving.
  Context {M : Type}.
  Variables (w : world M) (tmp : list string) (saveable : M -> Prop) (kept : M -> M -> Prop).
  Hypothesis formats : formats_ok w tmp saveable kept.

  Definition places (ty : string) (L : list string) (i : string) : list (list string) :=
    if String.eqb ty "meshes" then [L ++ [(i ++ ".glb")%string]]
    else if String.eqb ty "voxels" then [L ++ [(i ++ ".h5")%string]] else [].
  Definition touched (ls : list (list string)) (s s' : fs bytes) : Prop :=
    cwd s' = cwd s /\ (forall l, isdir_at s' l = isdir_at s l) /\
    (forall l, ~ In l ls -> dget loc_eqb l (files s') = dget loc_eqb l (files s)) /\
    (forall l, In l ls -> isfile_at s' l = true).
  (** The folder is there, with no folders in it. *)
  Definition ready (ty : string) (dir : path) (L : list string) (s : fs bytes) : Prop :=
    resolve s dir = L /\ (ty = "meshes" -> dir = Abs L /\ names L) /\ sane s /\ isdir_at s tmp = true /\
    isdir_at s L = true /\ forall f, isdir_at s (L ++ [f]) = false.

  Lemma ready_touched : forall ty dir L ls s s', ready ty dir L s -> touched ls s s' -> ready ty dir L s'.
  Proof.
    intros ty dir L ls s s' (R & A & (N & D) & T & I & F) (C & DI & _). unfold ready, sane.
    split; [rewrite <- R; destruct dir; cbn [resolve]; rewrite ?C; reflexivity|]. split; [exact A|].
    rewrite C, !DI. split; [split; assumption|]. split; [exact T|]. split; [exact I|]. intro f. rewrite DI. apply F.
  Qed.
  Lemma resolve_cwd : forall (s s' : fs bytes) p, cwd s' = cwd s -> resolve s' p = resolve s p.
  Proof. intros s s' [l|l] C; cbn [resolve]; [reflexivity|rewrite C; reflexivity]. Qed.

  Lemma written : forall (s : fs bytes) l b, touched [l] s (put s l b) /\ dget loc_eqb l (files (put s l b)) = Some b.
  Proof.
    intros s l b. split; [|apply get_put_same]. split; [reflexivity|]. split; [reflexivity|]. split.
    - intros l' N. apply get_put_other. intro E. apply N. left. exact E.
    - intros l' [<-|[]]. unfold isfile_at, dmem. rewrite get_put_same. reflexivity.
  Qed.

  Lemma object_saves : forall ty o dir L s, good_object w saveable ty o -> ready ty dir L s ->
    exists s' e, object_save w dir o s = (s', Ok e) /\ fine e /\ tag e = "element" /\ touched (places ty L (o_id o)) s s' /\
      forall s'', cwd s'' = cwd s -> (forall l, In l (places ty L (o_id o)) -> dget loc_eqb l (files s'') = dget loc_eqb l (files s')) ->
        exists o', object_load w ty e dir s'' = (s'', Ok o') /\ same_object w kept o o'.
  Proof.
    intros ty o dir L s G RD. destruct (object_xml w tmp saveable kept formats ty o G) as (b & e & TB & E & FE & TE & b' & p' & BB & PP & PX).
    destruct formats as (_ & _ & H5 & GL). destruct G as (T & GE & _ & _ & _ & _ & OD & _). destruct RD as (R & A & SA & TM & DL & DF).
    assert (SV : forall s, object_save w dir o s = ibind (if String.eqb (o_type o) "meshes" then
                match o_meshes o with Some m => save_as_glb w m (join dir (Rel [(o_id o ++ ".glb")%string])) | None => ilift (Err AttributeError) end
              else if String.eqb (o_type o) "voxels" then
                match o_voxels o with Some g => save_grid w g (join dir (Rel [(o_id o ++ ".h5")%string])) | None => ilift (Err AttributeError) end
              else iret tt) (fun _ => iret e) s) by (intro s0; unfold object_save; rewrite E; reflexivity).
    assert (LD : forall s, object_load w ty e dir s =
      (if String.eqb ty "bounding_box" then
         ilift (Ok (PObject (o_id o) "bounding_box" (Some b') None None p' (o_category o) (o_symmetry o) (o_score o) (o_evaluated o)))
       else if String.eqb ty "voxels" then
         (do* g := load_grid w (join dir (Rel [(o_id o ++ ".h5")%string])) in
          ilift (Ok (PObject (o_id o) "voxels" (Some b') (Some g) None p' (o_category o) (o_symmetry o) (o_score o) (o_evaluated o))))
       else if String.eqb ty "meshes" then
         (do* data := read (join dir (Rel [(o_id o ++ ".glb")%string])) in
          do* m := ilift (decode_glb w data) in
          ilift (Ok (PObject (o_id o) "meshes" (Some b') None (Some m) p' (o_category o) (o_symmetry o) (o_score o) (o_evaluated o))))
       else ilift (Err ValueError)) s) by (intro s0; unfold object_load; rewrite PX; reflexivity).
    assert (SAME : forall vo me, vo = o_voxels o -> match o_meshes o, me with Some m, Some m' => kept m m' | None, None => True | _, _ => False end ->
      same_object w kept o (PObject (o_id o) ty (Some b') vo me p' (o_category o) (o_symmetry o) (o_score o) (o_evaluated o))).
    { intros vo me V K. unfold same_object. cbn [o_id o_type o_category o_symmetry o_score o_evaluated o_pose o_voxels o_meshes o_bounds]. rewrite T, V.
      repeat (split; [first [reflexivity|assumption]|]). exists b, b'. repeat split; assumption || apply BB. }
    destruct GE as [(-> & NV & NM & bb & B & N)|[(-> & NM & g & EG & SG & bb & B)|(-> & NV & m & EM & SM & bb & B)]].
    - exists s, e. rewrite T in SV. cbn [String.eqb Ascii.eqb Bool.eqb] in SV. split; [rewrite SV; reflexivity|]. split; [exact FE|]. split; [exact TE|].
      split; [repeat split; intros ? []|]. intros s'' C _. eexists. rewrite LD. split; [reflexivity|]. apply SAME; [symmetry; exact NV|]. rewrite NM. exact I.
    - set (l := L ++ [(o_id o ++ ".h5")%string]). destruct (ext_name (o_id o) "."%char "h5" ltac:(discriminate)) as (N1 & N2).
      assert (RL : forall s' : fs bytes, cwd s' = cwd s -> resolve s' (join dir (Rel [(o_id o ++ ".h5")%string])) = l).
      { intros s' C. rewrite resolve_join by assumption. rewrite (resolve_cwd s s' dir C), R. reflexivity. }
      exists (put s l (h5_write w g)), e. destruct (written s l (h5_write w g)) as (TO & GE). split; [|split; [exact FE|split; [exact TE|split; [exact TO|]]]].
      + rewrite SV, T, EG. cbn [String.eqb Ascii.eqb Bool.eqb]. erewrite ibind_ok; [reflexivity|]. unfold save_grid, write. rewrite RL by reflexivity.
        rewrite write_at_ok; [reflexivity|unfold l; destruct L; discriminate|unfold l; rewrite removelast_snoc; exact DL|apply DF].
      + intros s'' C FI. eexists. rewrite LD. cbn [String.eqb Ascii.eqb Bool.eqb]. split.
        * erewrite ibind_ok; [reflexivity|]. unfold load_grid, read, read_at. rewrite RL by exact C. rewrite (FI l) by (left; reflexivity). rewrite GE. rewrite H5 by exact SG. reflexivity.
        * apply SAME; [symmetry; exact EG|]. rewrite NM. exact I.
    - set (l := L ++ [(o_id o ++ ".glb")%string]). destruct (ext_name (o_id o) "."%char "glb" ltac:(discriminate)) as (N1 & N2). destruct (A eq_refl) as (-> & NL).
      assert (NN : names l) by (apply Forall_app; split; [exact NL|]; repeat constructor; assumption).
      destruct (GL m l s (o_id o) SM SA TM) as (s' & data & m' & SAV & (C1 & C2 & C3) & CO & DE & K).
      { split; [unfold l; destruct L; discriminate|]. split; [exact NN|]. split; [unfold l; rewrite removelast_snoc; exact DL|apply DF]. }
      { unfold l. rewrite last_last. split; [reflexivity|apply OD, eq_refl]. }
      exists s', e. split; [|split; [exact FE|split; [exact TE|split]]].
      + rewrite SV, T, EM. cbn [String.eqb Ascii.eqb Bool.eqb]. erewrite ibind_ok; [reflexivity|exact SAV].
      + split; [exact C1|]. split; [exact C3|]. split; [|intros l' [<-|[]]; unfold isfile_at, dmem; fold l; rewrite CO; reflexivity].
        intros l' NI. apply C2. intro Q. apply NI. left. symmetry. exact Q.
      + intros s'' C FI. eexists. rewrite LD. cbn [String.eqb Ascii.eqb Bool.eqb]. split.
        * erewrite ibind_ok; [erewrite ibind_ok; [reflexivity|]|].
          -- unfold ilift. rewrite DE. reflexivity.
          -- unfold read, read_at. cbn [join]. rewrite resolve_abs by exact NN. fold l. rewrite (FI l) by (left; reflexivity). rewrite CO. reflexivity.
        * apply SAME; [symmetry; exact NV|]. rewrite EM. exact K.
  Qed.

  Lemma places_inj : forall ty L i j l, In l (places ty L i) -> In l (places ty L j) -> i = j.
  Proof.
    intros ty L i j l. unfold places. destruct (String.eqb ty "meshes"); [|destruct (String.eqb ty "voxels"); [|intros []]];
      (intros [<-|[]] [E|[]]; apply app_inj_tail in E; destruct E as (_ & E); symmetry; exact (append_inj _ _ _ E)).
  Qed.

  Lemma objects_save : forall ty dir L os s, Forall (good_object w saveable ty) os -> NoDup (map o_id os) -> ready ty dir L s ->
    exists s' es, save_all w dir os s = (s', Ok es) /\ Forall fine es /\ touched (flat_map (fun o => places ty L (o_id o)) os) s s' /\
      forall s'' acc, cwd s'' = cwd s -> (forall o l, In o os -> In l (places ty L (o_id o)) -> dget loc_eqb l (files s'') = dget loc_eqb l (files s')) ->
        NoDup (dkeys acc ++ map o_id os) ->
        exists new, load_all w ty dir es acc s'' = (s'', Ok (acc ++ new)) /\
          Forall2 (fun o kv' => fst kv' = o_id o /\ same_object w kept o (snd kv')) os new.
  Proof.
    intros ty dir L. induction os as [|o os IH]; intros s G ND RD.
    { exists s, []. split; [reflexivity|]. split; [constructor|]. split; [repeat split; intros ? []|]. intros s'' acc _ _ _. exists []. split; [cbn [load_all]; rewrite app_nil_r; reflexivity|constructor]. }
    inversion G as [|? ? G1 G2]; subst. cbn [map] in ND. inversion ND as [|? ? N1 N2]; subst.
    destruct (object_saves ty o dir L s G1 RD) as (s1 & e & E & FE & TE & TO & LD).
    destruct (IH s1 G2 N2 (ready_touched _ _ _ _ _ _ RD TO)) as (s2 & es & E2 & FS & TO2 & LD2).
    assert (DIS : forall l, In l (places ty L (o_id o)) -> ~ In l (flat_map (fun o => places ty L (o_id o)) os)).
    { intros l I1 I2. apply in_flat_map in I2. destruct I2 as (o2 & O2 & I2). apply N1. rewrite (places_inj _ _ _ _ _ I1 I2). apply in_map, O2. }
    exists s2, (e :: es). split; [cbn [save_all]; rewrite (ibind_ok _ _ _ _ _ _ _ _ E), (ibind_ok _ _ _ _ _ _ _ _ E2); reflexivity|].
    split; [constructor; assumption|]. destruct TO as (C1 & D1 & F1 & P1), TO2 as (C2 & D2 & F2 & P2). split.
    - split; [congruence|]. split; [intro l; rewrite D2; apply D1|]. cbn [flat_map]. split.
      + intros l NI. rewrite F2, F1; [reflexivity| |]; intro I; apply NI; apply in_or_app; auto.
      + intros l I. apply in_app_or in I. destruct I as [I|I]; [|apply P2, I]. unfold isfile_at, dmem. rewrite F2 by (apply DIS, I). exact (P1 l I).
    - intros s'' acc CW AG NK. destruct (LD s'' CW) as (o' & L1 & SO).
      { intros l I. rewrite (AG o l (or_introl eq_refl) I). apply F2, DIS, I. }
      assert (IO : o_id o' = o_id o) by apply SO.
      assert (NIK : ~ In (o_id o) (dkeys acc)). { intro I. cbn [map] in NK. apply NoDup_remove_2 in NK. apply NK, in_or_app. left. exact I. }
      destruct (LD2 s'' (acc ++ [(o_id o, o')])) as (new & L2 & F); [congruence| | |].
      { intros o2 l I1 I2. apply (AG o2 l (or_intror I1) I2). }
      { unfold dkeys. rewrite map_app, <- app_assoc. exact NK. }
      exists ((o_id o, o') :: new). split; [|constructor; [split; [reflexivity|exact SO]|exact F]].
      cbn [load_all]. rewrite TE. cbn [String.eqb Ascii.eqb Bool.eqb]. rewrite (ibind_ok _ _ _ _ _ _ _ _ L1). rewrite IO, (dset_fresh _ str_eqb_spec) by exact NIK.
      rewrite L2, <- app_assoc. reflexivity.
  Qed.

  Lemma nothing_below : forall (s : fs bytes) L, tree s -> free s L -> forall c, isdir_at s (L ++ c) = false /\ isfile_at s (L ++ c) = false.
  Proof.
    intros s L T (D & F). assert (DD : forall c, isdir_at s (L ++ c) = false).
    { induction c as [|x c IH] using rev_ind; [rewrite app_nil_r; exact D|]. rewrite app_assoc. apply (tree_below _ s (L ++ c) x T IH). }
    intro c. split; [apply DD|]. destruct c as [|x c] using rev_ind; [rewrite app_nil_r; apply F, above_refl|]. rewrite app_assoc. apply (tree_below _ s (L ++ c) x T), DD.
  Qed.

  Lemma place_shape : forall (sc : pscene M) name L l,
    In l (flat_map (fun o => places (sc_type sc) L (o_id o)) (map snd (items (sc_elements sc)))) \/ l = L ++ [(name ++ ".xml")%string] <->
    exists n, In n (scene_files sc name) /\ l = L ++ [n].
  Proof.
    intros sc name L l. unfold scene_files, places. rewrite in_flat_map. split.
    - intros [(o & O & I)|E]; [|exists (name ++ ".xml")%string; split; [left; reflexivity|exact E]]. apply in_map_iff in O. destruct O as (kv & <- & O).
      destruct (String.eqb (sc_type sc) "meshes"); [|destruct (String.eqb (sc_type sc) "voxels"); [|destruct I]];
        (destruct I as [<-|[]]; eexists; split; [right; apply in_map_iff; exists kv; split; [reflexivity|exact O]|reflexivity]).
    - intros (n & [<-|I] & E); [right; exact E|left].
      destruct (String.eqb (sc_type sc) "meshes"); [|destruct (String.eqb (sc_type sc) "voxels"); [|destruct I]];
        (apply in_map_iff in I; destruct I as (kv & <- & I); exists (snd kv); split; [apply in_map, I|left; symmetry; exact E]).
  Qed.

  Lemma scene_roundtrip : forall sc p name s,
    good_scene w saveable sc -> name <> "." -> name <> ".." -> tree s -> sane s -> isdir_at s tmp = true ->
    free s (resolve s p ++ [name]) -> (sc_type sc = "meshes" -> exists l, p = Abs l /\ names l) ->
    exists s' sc', scene_save w sc p name s = (s', Ok tt) /\ new_folder s s' (resolve s p ++ [name]) (scene_files sc name) /\
      scene_load w p name s' = (s', Ok sc') /\ same_scene w kept sc sc'.
  Proof.
    intros sc p name s (TY & ST & OD & GO & ND) NM1 NM2 TR SA TM FR AB. set (dir := join p (Rel [name])). set (L := resolve s p ++ [name]) in *. set (ty := sc_type sc) in *.
    assert (RD : resolve s dir = L) by (apply resolve_join; assumption).
    assert (MK : makedirs dir s = (made s L, Ok tt)). { rewrite (makedirs_ok _ s dir), RD; [reflexivity|]. rewrite RD. exact FR. }
    assert (NB := nothing_below s L TR FR).
    assert (DI : forall l, isdir_at (made s L) l = true <-> isdir_at s l = true \/ above l L = true) by apply made_dir.
    assert (DF : forall f, isdir_at (made s L) (L ++ [f]) = false).
    { intro f. apply not_true_iff_false. rewrite DI, above_longer, (proj1 (NB [f])). intros [E|E]; discriminate E. }
    assert (RY : ready ty dir L (made s L)).
    { split; [exact RD|]. split.
      - intro E. destruct (AB E) as (l & -> & NL). assert (EL : L = l ++ [name]) by (unfold L; rewrite resolve_abs by exact NL; reflexivity).
        rewrite EL. split; [reflexivity|]. apply Forall_app. split; [exact NL|]. repeat constructor; assumption.
      - split; [split; [apply SA|]; apply DI; left; apply SA|]. split; [apply DI; left; exact TM|]. split; [apply DI; right; apply above_refl|exact DF]. }
    set (os := map snd (items (sc_elements sc))).
    assert (GO' : Forall (good_object w saveable ty) os). { apply Forall_forall. intros o O. apply in_map_iff in O. destruct O as (kv & <- & O). rewrite Forall_forall in GO. apply GO, O. }
    assert (ND' : NoDup (map o_id os)) by (unfold os; rewrite map_map; exact ND).
    destruct (objects_save ty dir L os (made s L) GO' ND' RY) as (s1 & es & E1 & FE & TO & LD).
    assert (RY1 := ready_touched _ _ _ _ _ _ RY TO).
    destruct (ST "version") as (v1 & V1 & P1 & N1); [cbn; auto|]. destruct (ST "categories_id") as (v2 & V2 & P2 & N2); [cbn; auto|]. destruct (ST "categories_url") as (v3 & V3 & P3 & N3); [cbn; auto|].
    assert (GE : forall k v, sget k (sc_settings sc) = Some v -> sgetE k (sc_settings sc) = Ok v) by (intros k v E; unfold dgetE; rewrite E; reflexivity).
    set (t := Elem "scene" None [Elem "version" v1 []; Elem "categories" None [Elem "id" v2 []; Elem "url" v3 []]; leaf "project_type" ty; Elem "elements" None es]).
    assert (FT : fine t).
    { constructor; [cbv; auto|exact I|discriminate|]. apply Forall_cons; [constructor; [cbv; auto|exact P1|exact N1|constructor]|].
      apply Forall_cons; [constructor; [cbv; auto|exact I|discriminate|]; apply Forall_cons; [constructor; [cbv; auto|exact P2|exact N2|constructor]|]; apply Forall_cons; [constructor; [cbv; auto|exact P3|exact N3|constructor]|constructor]|].
      apply Forall_cons; [apply leaf_fine; [cbv; auto| |]; destruct TY as [<-|[<-|[<-|[]]]]; (reflexivity || discriminate)|]. apply Forall_cons; [|constructor]. constructor; [cbv; auto|exact I|discriminate|exact FE]. }
    set (l := L ++ [(name ++ ".xml")%string]). destruct (ext_name name "."%char "xml" ltac:(discriminate)) as (X1 & X2).
    assert (RL : forall s' : fs bytes, cwd s' = cwd s -> resolve s' (join dir (Rel [(name ++ ".xml")%string])) = l).
    { intros s' C. rewrite resolve_join by assumption. rewrite (resolve_cwd s s' dir C), RD. reflexivity. }
    assert (CW : cwd s1 = cwd s) by apply TO.
    set (s2 := put s1 l (xml_write w t)). destruct (written s1 l (xml_write w t)) as ((C2 & D2 & F2 & P2') & G2). fold s2 in C2, D2, F2, P2', G2.
    assert (NX : forall o l', In o os -> In l' (places ty L (o_id o)) -> l' <> l).
    { intros o l' _ I E. subst l'. unfold places, l in I. destruct (String.eqb ty "meshes"); [|destruct (String.eqb ty "voxels"); [|destruct I]];
        (destruct I as [I|[]]; apply app_inj_tail in I; destruct I as (_ & I); revert I; apply ext_neq; discriminate). }
    destruct (LD s2 []) as (new & L2 & F); [change (cwd s2 = cwd s); congruence| |exact ND'|].
    { intros o l' O I. apply F2. intros [E|[]]. symmetry in E. revert E. apply (NX o); assumption. }
    exists s2, (PScene ty [("version", v1); ("categories_id", v2); ("categories_url", v3)] (ODict true new)).
    assert (SAVE : scene_save w sc p name s = (s2, Ok tt)).
    { unfold scene_save. fold dir. rewrite (ibind_ok _ _ _ _ _ _ _ _ MK). unfold ilift at 1. rewrite (GE _ _ V1). unfold ibind at 1. unfold ilift at 1. rewrite (GE _ _ V2).
      unfold ibind at 1. unfold ilift at 1. rewrite (GE _ _ V3). unfold ibind at 1.
      assert (ED : dict_save w dir (sc_elements sc) (made s L) = (s1, Ok (Elem "elements" None es))). { unfold dict_save. rewrite OD. fold os. rewrite (ibind_ok _ _ _ _ _ _ _ _ E1). reflexivity. }
      rewrite (ibind_ok _ _ _ _ _ _ _ _ ED). fold t. unfold write. rewrite RL by exact CW. apply write_at_ok; [unfold l; destruct L; discriminate| |].
      - unfold l. rewrite removelast_snoc. apply RY1.
      - apply RY1. }
    split; [exact SAVE|]. split; [|split].
    - destruct TO as (C1 & D1 & F1 & PL1). split; [change (cwd s2 = cwd s); congruence|]. split; [|split].
      + intros l' A. rewrite F2, F1; [reflexivity| |].
        * intro I. destruct (proj1 (place_shape sc name L l') (or_introl I)) as (n & _ & ->). rewrite above_app in A. discriminate A.
        * intros [E|[]]. subst l'. unfold l in A. rewrite above_app in A. discriminate A.
      + intros l' A. rewrite <- place_shape. fold ty os. split.
        * intro IF. destruct (loc_eqb l' l) eqn:Q; [right; apply loc_eqb_spec, Q|left].
          assert (NQ : ~ In l' [l]). { intros [E|[]]. subst l'. rewrite loc_eqb_refl in Q. discriminate Q. }
          unfold isfile_at, dmem in IF. rewrite F2 in IF by exact NQ.
          destruct (in_dec (list_eq_dec string_dec) l' (flat_map (fun o => places ty L (o_id o)) os)) as [I|NI]; [exact I|]. rewrite F1 in IF by exact NI. cbn [files made] in IF.
          apply above_spec in A. destruct A as (c & ->). assert (K := proj2 (NB c)). unfold isfile_at, dmem in K. rewrite K in IF. discriminate IF.
        * intros [I|E]; [|subst l'; apply P2'; left; reflexivity]. unfold isfile_at, dmem. rewrite F2; [exact (PL1 l' I)|].
          intros [E|[]]. apply in_flat_map in I. destruct I as (o & O & I). symmetry in E. revert E. apply (NX o); assumption.
      + intro l'. rewrite D2, D1. apply DI.
    - unfold scene_load. fold dir. assert (RE : read (join dir (Rel [(name ++ ".xml")%string])) s2 = (s2, Ok (xml_write w t))).
      { unfold read, read_at. rewrite RL by congruence. rewrite G2. reflexivity. }
      rewrite (ibind_ok _ _ _ _ _ _ _ _ RE). destruct (fine_plain t FT) as (PT & RT). destruct formats as (_ & XO & _). rewrite (XO t PT), RT.
      unfold t. cbn [tag String.eqb Ascii.eqb Bool.eqb negb children fold_left header_child category_child fst snd text leaf dset].
      assert (LE : load_elements w ty dir [Elem "version" v1 []; Elem "categories" None [Elem "id" v2 []; Elem "url" v3 []]; leaf "project_type" ty; Elem "elements" None es] None s2 = (s2, Ok (Some (ODict true new)))).
      { cbn [load_elements tag leaf String.eqb Ascii.eqb Bool.eqb]. unfold dict_load. cbn [children]. unfold ibind. rewrite L2. reflexivity. }
      unfold leaf in LE. rewrite (ibind_ok _ _ _ _ _ _ _ _ LE). unfold ilift, mk_scene. replace (str_in ty _) with true; [reflexivity|]. symmetry. apply str_in_In, TY.
    - split; [reflexivity|]. cbn [sc_settings sc_elements items is_object_dict]. split; [|split; [|split; [reflexivity|]]].
      + intros k [<-|[<-|[<-|[]]]]; symmetry; assumption.
      + intros k NK. apply (dget_None _ str_eqb_spec). exact NK.
      + unfold os in F. clear - F. revert new F. induction (items (sc_elements sc)) as [|kv its IH]; intros new F; inversion F; subst; constructor; [assumption|]. apply IH. assumption.
  Qed.
End Saving.
