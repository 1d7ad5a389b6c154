(** Lemmas for the scene properties: what is loaded. *)
From Coq Require Import Reals Lra Lia List Bool String Ascii ZArith.
From Verif.Base Require Import Py PyFacts Vec Xml Fs FsFacts.
From Verif.Geom Require Import Model.
From Verif.Box Require Import Model Spec.
From Verif.Voxel Require Import Model.
From Verif.Symm Require Import Model Spec Props.
From Verif.Sample Require Import Model.
From Verif.Scene Require Import Model Spec Proofs SaveProofs XmlProofs.
Import ListNotations.
Local Open Scope string_scope.
Local Open Scope list_scope.

Section Load.
  Context {M : Type}.
  Variable w : world M.

  Definition in_folder (s : fs bytes) (dir : path) (f : string) : option bytes := dget loc_eqb (resolve s dir ++ [f]) (files s).

  Lemma ibind_inv : forall A B (a : io bytes A) (f : A -> io bytes B) s s' y, ibind a f s = (s', Ok y) <-> exists s1 x, a s = (s1, Ok x) /\ f x s1 = (s', Ok y).
  Proof.
    intros A B a f s s' y. unfold ibind. destruct (a s) as [s1 [x|e]]; split.
    - intro E. exists s1, x. auto.
    - intros (? & ? & E & F). injection E as <- <-. exact F.
    - discriminate.
    - intros (? & ? & E & _). discriminate E.
  Qed.

  (** Loading does not change the files. *)
  Lemma object_load_pure : forall ty e dir s, fst (object_load w ty e dir s) = s.
  Proof.
    intros ty e dir s. unfold object_load, ibind, ilift. destruct (parse_xml w e) as [[[i b] q]|]; [|reflexivity].
    destruct (String.eqb ty "bounding_box"); [reflexivity|]. destruct (String.eqb ty "voxels"); [|destruct (String.eqb ty "meshes"); [|reflexivity]].
    - unfold load_grid, read. destruct (read_at s _) as [d|]; [|reflexivity]. destruct (h5_read w d); reflexivity.
    - unfold read. destruct (read_at s _) as [d|]; [|reflexivity]. destruct (decode_glb w d); reflexivity.
  Qed.
  Lemma load_all_pure : forall ty dir es acc s, fst (load_all w ty dir es acc s) = s.
  Proof.
    intros ty dir. induction es as [|e es IH]; intros acc s; [reflexivity|]. cbn [load_all]. destruct (String.eqb (tag e) "element"); [|apply IH].
    unfold ibind. assert (P := object_load_pure ty e dir s). destruct (object_load w ty e dir s) as [s1 [o|]]; cbn [fst] in P; subst s1; [apply IH|reflexivity].
  Qed.
  Lemma dict_load_pure : forall ty e dir s, fst (dict_load w ty e dir s) = s.
  Proof.
    intros ty e dir s. unfold dict_load, ibind. assert (P := load_all_pure ty dir (children e) [] s). destruct (load_all w ty dir (children e) [] s) as [s1 [o|]]; cbn [fst] in P; subst s1; reflexivity.
  Qed.
  Lemma load_elements_pure : forall ty dir es acc s, fst (load_elements w ty dir es acc s) = s.
  Proof.
    intros ty dir. induction es as [|e es IH]; intros acc s; [reflexivity|]. cbn [load_elements]. destruct (String.eqb (tag e) "elements"); [|apply IH].
    unfold ibind. assert (P := dict_load_pure ty e dir s). destruct (dict_load w ty e dir s) as [s1 [o|]]; cbn [fst] in P; subst s1; [apply IH|reflexivity].
  Qed.
  Lemma scene_load_pure : forall p name s, fst (scene_load w p name s) = s.
  Proof.
    intros p name s. unfold scene_load. set (dir := join p (Rel [name])). unfold ibind at 1. unfold read. destruct (read_at s _) as [d|]; [|reflexivity]. destruct (xml_parse w d) as [root|]; [|reflexivity].
    destruct (negb _); [reflexivity|]. destruct (fold_left _ _ _) as [st [ty|]]; [|reflexivity]. unfold ibind.
    assert (P := load_elements_pure ty dir (children root) None s). destruct (load_elements w ty dir (children root) None s) as [s1 [[d1|]|]]; cbn [fst] in P; subst s1; reflexivity.
  Qed.

  (** One object. *)
  Lemma object_load_iff : forall ty e dir s o, object_load w ty e dir s = (s, Ok o) <-> object_at w ty (in_folder s dir) e o.
  Proof.
    intros ty e dir s o. unfold object_load, object_at.
    assert (SY : forall sy, object_symmetry sy = Ok (match sy with Some s => s | None => Symmetry none none none end)) by (intros [|]; reflexivity).
    assert (RF : forall i x y, lastc (String x y) <> Some "."%char -> read_at s (resolve s (join dir (Rel [(i ++ String x y)%string]))) = match in_folder s dir (i ++ String x y)%string with Some d => Ok d | None => Err IOError end).
    { intros i x y N. destruct (ext_name i x y N). rewrite resolve_join by assumption. reflexivity. }
    split.
    - intro E. apply ibind_inv in E. destruct E as (s1 & [[i b] q] & P & E). unfold ilift in P. injection P as <- P. apply parse_iff in P. destruct P as (OE & QI & QB).
      destruct (String.eqb_spec ty "bounding_box") as [->|N1]; [|destruct (String.eqb_spec ty "voxels") as [->|N2]; [|destruct (String.eqb_spec ty "meshes") as [->|N3]]].
      + unfold ilift, mk_object in E. rewrite SY in E. injection E as <-. exists b, (q_symmetry q). split; [exact OE|]. repeat (split; [reflexivity|]). left. auto.
      + apply ibind_inv in E. destruct E as (s1 & g & G & E). unfold ilift, mk_object in E. rewrite SY in E. cbn [bind String.eqb Ascii.eqb Bool.eqb] in E. injection E as -> <-.
        unfold load_grid, read in G. rewrite RF in G by discriminate. destruct (in_folder s dir (i ++ ".h5")) as [d|] eqn:D; [|discriminate G]. destruct (h5_read w d) as [g'|] eqn:H; [|discriminate G]. injection G as ->.
        exists b, (q_symmetry q). split; [exact OE|]. repeat (split; [reflexivity|]). right. left. split; [reflexivity|]. split; [reflexivity|]. exists d, g. auto.
      + apply ibind_inv in E. destruct E as (s1 & d & D & E). unfold read in D. rewrite RF in D by discriminate. destruct (in_folder s dir (i ++ ".glb")) as [d'|] eqn:F; [|discriminate D]. injection D as <- ->.
        apply ibind_inv in E. destruct E as (s1 & m & G & E). unfold ilift, mk_object in E. rewrite SY in E. cbn [bind String.eqb Ascii.eqb Bool.eqb] in E. injection E as -> <-. unfold ilift in G. injection G as G.
        exists b, (q_symmetry q). split; [exact OE|]. repeat (split; [reflexivity|]). right. right. split; [reflexivity|]. split; [reflexivity|]. exists d, m. auto.
      + discriminate E.
    - intros (b & sy & OE & S & T & B & C). set (q := Parsed (Some (Some (o_id o))) (o_pose o) (o_category o) (Some b) sy (o_score o) (o_evaluated o)).
      assert (P : parse_xml w e = Ok (o_id o, b, q)) by (apply parse_iff; auto). unfold ibind at 1. unfold ilift at 1. rewrite P.
      destruct o as [i t bo vo me p c so x v]. cbn [o_id o_type o_bounds o_voxels o_meshes o_pose o_category o_symmetry o_score o_evaluated] in *. subst t bo so.
      destruct C as [(-> & -> & ->)|[(-> & -> & d & g & D & H & ->)|(-> & -> & d & m & D & H & ->)]]; cbn [String.eqb Ascii.eqb Bool.eqb].
      + unfold ilift, mk_object. rewrite SY. reflexivity.
      + unfold ibind, load_grid, read. rewrite RF by discriminate. rewrite D, H. unfold ilift, mk_object. rewrite SY. reflexivity.
      + unfold ibind, read. rewrite RF by discriminate. rewrite D. unfold ilift. rewrite H. unfold mk_object. rewrite SY. reflexivity.
  Qed.

  (** A dictionary of objects. *)
  Definition put_all (acc : list (string * pobject M)) (os : list (pobject M)) := fold_left (fun d o => sset (o_id o) o d) os acc.
  Lemma load_all_iff : forall ty dir es acc s l, load_all w ty dir es acc s = (s, Ok l) <->
    exists os, Forall2 (object_at w ty (in_folder s dir)) (filter (fun c => String.eqb (tag c) "element") es) os /\ l = put_all acc os.
  Proof.
    intros ty dir. induction es as [|e es IH]; intros acc s l; cbn [load_all filter].
    - split; [intro E; injection E as <-; exists []; split; [constructor|reflexivity]|]. intros (os & F & ->). inversion F. reflexivity.
    - destruct (String.eqb (tag e) "element"); [|apply IH]. split.
      + intro E. apply ibind_inv in E. destruct E as (s1 & o & O & E). assert (P := object_load_pure ty e dir s). rewrite O in P. cbn [fst] in P. subst s1. apply IH in E. destruct E as (os & F & ->).
        exists (o :: os). split; [constructor; [apply object_load_iff, O|exact F]|reflexivity].
      + intros (os & F & ->). inversion F as [|? o ? os' O F']; subst. apply object_load_iff in O. rewrite (ibind_ok _ _ _ _ _ _ _ _ O). apply IH. exists os'. split; [exact F'|reflexivity].
  Qed.

  Lemma put_all_dict : forall os, dict_of os (ODict true (put_all [] os)).
  Proof.
    intro os. split; [reflexivity|]. cbn [items].
    assert (ND : NoDup (dkeys (put_all [] os))).
    { unfold put_all. rewrite <- fold_left_rev_right. induction (rev os) as [|o l IH]; [constructor|]. cbn [fold_right]. apply NoDup_dset; [exact str_eqb_spec|exact IH]. }
    split; [exact ND|]. intros k o. assert (G : sget k (put_all [] os) = Some o <-> last_with_id os k o).
    { unfold put_all. clear ND. revert o. induction os as [|x os IH] using rev_ind; intro o.
      - cbn. split; [discriminate|]. intros (a & b & E & _). destruct a; discriminate E.
      - rewrite fold_left_app. cbn [fold_left]. destruct (string_dec (o_id x) k) as [E|N].
        + rewrite E, (dget_dset_same _ str_eqb_spec). split.
          * intro Q. injection Q as <-. exists os, []. auto.
          * intros (a & b & Q & I & F). destruct b as [|y b] using rev_ind; [apply app_inj_tail in Q; destruct Q as (_ & ->); reflexivity|]. clear IHb.
            rewrite app_comm_cons, app_assoc in Q. apply app_inj_tail in Q. destruct Q as (_ & <-). apply Forall_app in F. destruct F as (_ & F). inversion F; subst. contradiction.
        + rewrite (dget_dset_other _ str_eqb_spec) by exact N. rewrite IH. split.
          * intros (a & b & -> & I & F). exists a, (b ++ [x]). rewrite app_comm_cons, app_assoc. split; [reflexivity|]. split; [exact I|]. apply Forall_app. split; [exact F|]. constructor; [exact N|constructor].
          * intros (a & b & Q & I & F). destruct b as [|y b] using rev_ind; [apply app_inj_tail in Q; destruct Q as (_ & ->); contradiction|]. clear IHb.
            rewrite app_comm_cons, app_assoc in Q. apply app_inj_tail in Q. destruct Q as (-> & <-). apply Forall_app in F. destruct F as (F & _). exists a, b. auto. }
    rewrite <- G. split; intro I.
    - apply (dget_NoDup _ str_eqb_spec); [exact ND|exact I].
    - apply (dget_In _ str_eqb_spec), I.
  Qed.
  Lemma dict_load_at : forall ty e dir s d, dict_load w ty e dir s = (s, Ok d) -> elements_at w ty (in_folder s dir) e d.
  Proof.
    intros ty e dir s d E. unfold dict_load in E. apply ibind_inv in E. destruct E as (s1 & l & L & E). unfold iret in E. injection E as -> <-.
    apply load_all_iff in L. destruct L as (os & F & ->). exists os. split; [exact F|apply put_all_dict].
  Qed.
  Lemma dict_load_ok : forall ty e dir s d, elements_at w ty (in_folder s dir) e d -> exists d', dict_load w ty e dir s = (s, Ok d').
  Proof.
    intros ty e dir s d (os & F & _). exists (ODict true (put_all [] os)). unfold dict_load.
    rewrite (ibind_ok _ _ _ _ _ s s (put_all [] os)); [reflexivity|]. apply load_all_iff. exists os. auto.
  Qed.

  Definition somed (ty : string) (s : fs bytes) (dir : path) (e : xml) (o : option (odict M)) : Prop := exists d, dict_load w ty e dir s = (s, Ok d) /\ o = Some d.
  Lemma somed_fun : forall ty s dir c x y, somed ty s dir c x -> somed ty s dir c y -> x = y.
  Proof. intros ty s dir c x y (d & E & ->) (d' & E' & ->). congruence. Qed.
  Lemma load_elements_iff : forall ty dir es acc s r, load_elements w ty dir es acc s = (s, Ok r) <->
    Forall (fun e => tag e = "elements" -> exists d, dict_load w ty e dir s = (s, Ok d)) es /\ field "elements" (somed ty s dir) acc es r.
  Proof.
    intros ty dir. induction es as [|e es IH]; intros acc s r; cbn [load_elements].
    - rewrite field_nil. split; [intro E; injection E as <-; auto|]. intros (_ & ->). reflexivity.
    - destruct (String.eqb_spec (tag e) "elements") as [T|T].
      + split.
        * intro E. apply ibind_inv in E. destruct E as (s1 & d & D & E). assert (P := dict_load_pure ty e dir s). rewrite D in P. cbn [fst] in P. subst s1. apply IH in E. destruct E as (A & F).
          split; [constructor; [eauto|exact A]|]. apply (field_hit _ _ e es acc (Some d)); [intros; eapply somed_fun; eassumption|exact T|exists d; auto|exact F].
        * intros (A & F). inversion A as [|? ? D A']; subst. destruct (D T) as (d & E). rewrite (ibind_ok _ _ _ _ _ _ _ _ E). apply IH. split; [exact A'|].
          apply (field_hit _ _ e es acc (Some d)) in F; [exact F|intros; eapply somed_fun; eassumption|exact T|exists d; auto].
      + rewrite IH. rewrite field_miss by exact T. split; intros (A & F); (split; [|exact F]); [constructor; [intro; contradiction|exact A]|inversion A; assumption].
  Qed.

  (** The header. *)
  Definition texts (e : xml) (v : option (option string)) : Prop := v = Some (text e).
  Lemma texts_fun : forall c x y, texts c x -> texts c y -> x = y.
  Proof. unfold texts. congruence. Qed.
  Lemma category_iff : forall cs st, let st' := fold_left category_child cs st in
    field "id" texts (sget "categories_id" st) cs (sget "categories_id" st') /\ field "url" texts (sget "categories_url" st) cs (sget "categories_url" st') /\
    forall k, k <> "categories_id" -> k <> "categories_url" -> sget k st' = sget k st.
  Proof.
    induction cs as [|c cs IH]; intro st; cbn [fold_left].
    - rewrite !field_nil. auto.
    - destruct (IH (category_child st c)) as (A & B & C). unfold category_child in *. destruct (String.eqb_spec (tag c) "id") as [T|T]; [|destruct (String.eqb_spec (tag c) "url") as [T'|T']].
      + rewrite (dget_dset_same _ str_eqb_spec) in A. rewrite (dget_dset_other _ str_eqb_spec) in B by discriminate. split; [|split].
        * apply (field_hit _ _ c cs _ (Some (text c))); [intros; eapply texts_fun; eassumption|exact T|reflexivity|exact A].
        * apply field_miss; [rewrite T; discriminate|exact B].
        * intros k N1 N2. rewrite C by assumption. apply (dget_dset_other _ str_eqb_spec). congruence.
      + rewrite (dget_dset_same _ str_eqb_spec) in B. rewrite (dget_dset_other _ str_eqb_spec) in A by discriminate. split; [|split].
        * apply field_miss; [exact T|exact A].
        * apply (field_hit _ _ c cs _ (Some (text c))); [intros; eapply texts_fun; eassumption|exact T'|reflexivity|exact B].
        * intros k N1 N2. rewrite C by assumption. apply (dget_dset_other _ str_eqb_spec). congruence.
      + split; [apply field_miss; assumption|]. split; [apply field_miss; assumption|exact C].
  Qed.

  Lemma field_app : forall A t (h : xml -> A -> Prop) (FN : forall c x y, h c x -> h c y -> x = y) cs cs' d u v, field t h d cs u -> field t h u cs' v -> field t h d (cs ++ cs') v.
  Proof.
    intros A t h FN cs cs' d u v F G. destruct G as [(e & (a & b & -> & T & N) & H)|(N & ->)].
    - left. exists e. split; [|exact H]. exists (cs ++ a), b. rewrite app_assoc. auto.
    - destruct F as [(e & (a & b & -> & T & N') & H)|(N' & ->)].
      + left. exists e. split; [|exact H]. exists a, (b ++ cs'). rewrite <- app_assoc. split; [reflexivity|]. split; [exact T|]. apply Forall_app. auto.
      + right. split; [apply Forall_app; auto|reflexivity].
  Qed.

  Definition cats (cs : list xml) : list xml := List.concat (map children (filter (fun e => String.eqb (tag e) "categories") cs)).
  Lemma header_iff : forall cs st ty, let r := fold_left header_child cs (st, ty) in
    field "project_type" (fun e t => t = text e) ty cs (snd r) /\
    field "version" texts (sget "version" st) cs (sget "version" (fst r)) /\
    field "id" texts (sget "categories_id" st) (cats cs) (sget "categories_id" (fst r)) /\ field "url" texts (sget "categories_url" st) (cats cs) (sget "categories_url" (fst r)) /\
    forall k, ~ In k ["version"; "categories_id"; "categories_url"] -> sget k (fst r) = sget k st.
  Proof.
    induction cs as [|c cs IH]; intros st ty; cbn [fold_left].
    - unfold cats. cbn [filter map List.concat]. rewrite !field_nil. cbn [fst snd]. auto.
    - unfold header_child at 2 4 6 8 10. cbn [fst snd]. unfold cats. cbn [filter].
      destruct (String.eqb_spec (tag c) "categories") as [T|T]; [|destruct (String.eqb_spec (tag c) "project_type") as [T2|T2]; [|destruct (String.eqb_spec (tag c) "version") as [T3|T3]]].
      + destruct (IH (fold_left category_child (children c) st) ty) as (A & B & C & D & E). destruct (category_iff (children c) st) as (C1 & C2 & C3). cbv zeta.
        split; [apply field_miss; [rewrite T; discriminate|exact A]|]. split; [rewrite C3 in B by discriminate; apply field_miss; [rewrite T; discriminate|exact B]|].
        cbn [map List.concat]. split; [eapply field_app; [exact texts_fun|exact C1|exact C]|]. split; [eapply field_app; [exact texts_fun|exact C2|exact D]|].
        intros k N. rewrite E by exact N. apply C3; intro Q; apply N; rewrite Q; cbn; auto.
      + destruct (IH st (text c)) as (A & B & C & D & E). cbv zeta. split; [apply (field_hit _ _ c cs ty (text c)); [congruence|exact T2|reflexivity|exact A]|].
        split; [apply field_miss; [rewrite T2; discriminate|exact B]|]. auto.
      + destruct (IH (sset "version" (text c) st) ty) as (A & B & C & D & E). rewrite (dget_dset_same _ str_eqb_spec) in B. rewrite (dget_dset_other _ str_eqb_spec) in C, D by discriminate. cbv zeta.
        split; [apply field_miss; [rewrite T3; discriminate|exact A]|]. split; [apply (field_hit _ _ c cs _ (Some (text c))); [intros; eapply texts_fun; eassumption|exact T3|reflexivity|exact B]|].
        split; [exact C|]. split; [exact D|]. intros k N. rewrite E by exact N. apply (dget_dset_other _ str_eqb_spec). intro Q. apply N. rewrite <- Q. cbn. auto.
      + destruct (IH st ty) as (A & B & C & D & E). cbv zeta. split; [apply field_miss; assumption|]. split; [apply field_miss; assumption|]. auto.
  Qed.
End Load.
