(** Lemmas for the scene properties: XML, numbers and files. *)
From Coq Require Import Reals Lra Lia List Bool String Ascii ZArith.
From Verif.Base Require Import Py PyFacts Vec Xml Fs FsFacts.
From Verif.Geom Require Import Model.
From Verif.Box Require Import Model Spec Proofs Props.
From Verif.Voxel Require Import Model.
From Verif.Symm Require Import Model Spec Props.
From Verif.Sample Require Import Model.
From Verif.Glb Require Import Spec.
From Verif.Scene Require Import Model Spec.
Import ListNotations.
Local Open Scope string_scope.
Local Open Scope list_scope.
Local Open Scope R_scope.

(** * Strings *)
Lemma append_inj : forall c a b, (a ++ c)%string = (b ++ c)%string -> a = b.
Proof.
  assert (L : forall a c, list_ascii_of_string (a ++ c)%string = list_ascii_of_string a ++ list_ascii_of_string c).
  { induction a as [|x a IH]; intro c; [reflexivity|]. cbn. rewrite IH. reflexivity. }
  intros c a b E. apply (f_equal list_ascii_of_string) in E. rewrite !L in E. apply app_inv_tail in E.
  rewrite <- (string_of_list_ascii_of_string a), <- (string_of_list_ascii_of_string b), E. reflexivity.
Qed.
Fixpoint lastc (s : string) : option ascii :=
  match s with EmptyString => None | String c t => match lastc t with None => Some c | x => x end end.
Lemma lastc_app : forall a c t, lastc (a ++ String c t)%string = lastc (String c t).
Proof. induction a as [|x a IH]; intros c t; [reflexivity|]. cbn [lastc append]. rewrite IH. cbn [lastc]. destruct (lastc t); reflexivity. Qed.
Lemma ext_neq : forall a b c t c' t', lastc (String c t) <> lastc (String c' t') -> (a ++ String c t)%string <> (b ++ String c' t')%string.
Proof. intros a b c t c' t' N E. apply N. rewrite <- (lastc_app a c t), E. apply lastc_app. Qed.
Lemma ext_name : forall a c t, lastc (String c t) <> Some "."%char -> (a ++ String c t)%string <> "." /\ (a ++ String c t)%string <> "..".
Proof. intros a c t N. split; intro E; apply N; rewrite <- (lastc_app a c t), E; reflexivity. Qed.
Lemma list_ascii_app : forall a c, list_ascii_of_string (a ++ c)%string = list_ascii_of_string a ++ list_ascii_of_string c.
Proof. induction a as [|x a IH]; intro c; [reflexivity|]. cbn. rewrite IH. reflexivity. Qed.

(** * XML *)
Inductive fine : xml -> Prop :=
| fine_elem t s cs : xml_name t -> plain_text s -> s <> Some "" -> Forall fine cs -> fine (Elem t s cs).
Lemma fine_plain : forall e, fine e -> plain_tree e /\ reread e = e.
Proof.
  fix IH 1. intros [t s cs] F. inversion F as [? ? ? N P E C]; subst.
  assert (B : Forall plain_tree cs /\ map reread cs = cs).
  { clear F. induction cs as [|c cs IHc]; [split; [constructor|reflexivity]|]. inversion C as [|? ? Fc Fcs]; subst.
    destruct (IH c Fc) as (A & B), (IHc Fcs) as (A' & B'). split; [constructor; assumption|]. cbn [map]. rewrite B, B'. reflexivity. }
  destruct B as (B1 & B2). split; [constructor; assumption|]. cbn [reread]. rewrite B2. destruct s as [[|a s]|]; [congruence|reflexivity|reflexivity].
Qed.
Lemma leaf_fine : forall t s, xml_name t -> plain s -> s <> "" -> fine (leaf t s).
Proof. intros t s N P E. constructor; [exact N|exact P|congruence|constructor]. Qed.

(** * Boxes *)
Lemma near_box : forall b u v, normalized b -> near u (min_corner b) -> near v (max_corner b) -> box_near (mk_box u v) b.
Proof.
  assert (K : forall lo hi a c, lo <= hi -> close a lo -> close c hi -> close (Rmin a c) lo /\ close (Rmax a c) hi).
  { intros lo hi a c H. unfold close. intros A C. assert (P1 := Rmax_l 1 (Rabs lo)). assert (P2 := Rmax_l 1 (Rabs hi)).
    unfold Rmin, Rmax in *. repeat destruct (Rle_dec _ _); split; try assumption;
      unfold Rabs in *; repeat destruct (Rcase_abs _); lra. }
  intros b u v (X & Y & Z) (A & B & C) (A' & B' & C').
  destruct (K _ _ _ _ X A A'), (K _ _ _ _ Y B B'), (K _ _ _ _ Z C C'). split; repeat split; assumption.
Qed.

(** * Numbers and XML of poses and boxes *)
Section World.
  Context {M : Type}.
  Variable w : world M.
  Hypothesis numbers : numbers_ok w.

  Lemma three_leaf : forall t v, exists u, three w (leaf t (array2string w v)) = Ok u /\ near u v.
  Proof. intros t v. destruct (proj1 numbers v) as ([x y z] & E & N & _). exists (V x y z). split; [|exact N]. unfold three. cbn [text leaf]. rewrite E. reflexivity. Qed.
  Lemma column_leaf : forall t v, exists u, column w (leaf t (array2string w v)) = Ok u /\ near u v.
  Proof. intros t v. destruct (proj1 numbers v) as ([x y z] & E & N & _). exists (V x y z). split; [|exact N]. unfold column. cbn [text leaf]. rewrite E. reflexivity. Qed.
  Lemma number_fine : forall t v, xml_name t -> fine (leaf t (array2string w v)).
  Proof. intros t v N. destruct (proj1 numbers v) as (_ & _ & _ & P & E). apply leaf_fine; assumption. Qed.

  Lemma box_roundtrip : forall b, normalized b -> exists b', box_from_xml w (box_to_xml w b) = Ok b' /\ box_near b' b.
  Proof.
    intros b N. destruct (three_leaf "corner1" (min_corner b)) as (u & U & NU), (three_leaf "corner2" (max_corner b)) as (v & E & NV).
    exists (mk_box u v). split; [|apply near_box; assumption]. unfold box_from_xml, box_to_xml. cbn -[three leaf box_child].
    unfold box_child at 1. cbn -[three leaf box_child]. unfold leaf in *. cbn -[three box_child]. rewrite U. cbn -[three box_child]. unfold box_child. cbn -[three]. rewrite E. reflexivity.
  Qed.
  Lemma rot_roundtrip : forall r, exists r', rot_from_xml w (rot_to_xml w r) = Ok r' /\ forall j, (j < 3)%nat -> near (rot_column r' j) (rot_column r j).
  Proof.
    intro r. destruct (column_leaf "c1" (rot_column r 0)) as (u & U & NU), (column_leaf "c2" (rot_column r 1)) as (v & E & NV), (column_leaf "c3" (rot_column r 2)) as (x & X & NX).
    exists (FromColumns u v x). split.
    - unfold rot_from_xml, rot_to_xml. cbn -[column rot_column rot_child leaf]. unfold rot_child at 1. rewrite U. cbn -[column rot_column rot_child leaf].
      change (tag (leaf "c1" _)) with "c1". cbn -[column rot_column rot_child leaf].
      unfold rot_child at 1. rewrite E. change (tag (leaf "c2" _)) with "c2". cbn -[column rot_column rot_child leaf]. unfold rot_child. rewrite X. reflexivity.
    - intros [|[|[|j]]] J; [| | |lia]; cbn [rot_column FromColumns m00 m10 m20 m01 m11 m21 m02 m12 m22]; [destruct u|destruct v|destruct x]; assumption.
  Qed.
  Lemma pose_roundtrip : forall p, exists p', pose_from_xml w (pose_to_xml w p) = Ok p' /\ pose_near p' p.
  Proof.
    intro p. destruct (three_leaf "translation" (pt p)) as (u & U & NU), (rot_roundtrip (pR p)) as (r & R & NR).
    exists (Pose r u). split; [|split; assumption]. unfold pose_from_xml, pose_to_xml. cbn -[three pose_child rot_to_xml rot_from_xml leaf].
    unfold pose_child at 1. change (tag (leaf "translation" _)) with "translation". cbn -[three pose_child rot_to_xml rot_from_xml leaf]. rewrite U. cbn -[three pose_child rot_to_xml rot_from_xml].
    unfold pose_child. change (tag (rot_to_xml w (pR p))) with "rotation". cbn -[rot_to_xml rot_from_xml]. rewrite R. reflexivity.
  Qed.
  Ltac fine_tac := constructor; [cbv; auto|exact I|discriminate|].
  Lemma box_fine : forall b t, xml_name t -> fine (set_tag t (box_to_xml w b)).
  Proof. intros b t N. constructor; [exact N|exact I|discriminate|]. repeat apply Forall_cons; try apply Forall_nil; apply number_fine; cbv; auto. Qed.
  Lemma pose_fine : forall p, fine (pose_to_xml w p).
  Proof.
    intro p. fine_tac. apply Forall_cons; [apply number_fine; cbv; auto|]. apply Forall_cons; [|apply Forall_nil].
    fine_tac. repeat apply Forall_cons; try apply Forall_nil; apply number_fine; cbv; auto.
  Qed.
  Lemma symmetry_fine : forall s, fine (to_xml s).
  Proof.
    assert (T : forall t, plain (type_to_text t) /\ type_to_text t <> "") by (intros []; split; (reflexivity || discriminate)).
    intro s. fine_tac. repeat apply Forall_cons; try apply Forall_nil; (apply leaf_fine; [cbv; auto|apply T|apply T]).
  Qed.
End World.

(** * Objects *)
Section Objects.
  Context {M : Type}.
  Variables (w : world M) (tmp : list string) (saveable : M -> Prop) (kept : M -> M -> Prop).
  Hypothesis formats : formats_ok w tmp saveable kept.

  Lemma saved_bounds_ok : forall ty o, good_object w saveable ty o -> exists b, saved_bounds w o = Ok b /\ true_box w o b /\ normalized b.
  Proof.
    intros ty o (T & [(-> & NV & NM & b & B & N)|[(-> & NM & g & G & _ & b & B)|(-> & NV & m & E & _ & b & B)]] & _); unfold saved_bounds, true_box; rewrite T; cbn [String.eqb Ascii.eqb Bool.eqb].
    - exists b. rewrite B, NV, NM. auto.
    - exists b. rewrite G, NM. split; [exact B|]. split; [destruct (o_bounds o); exact B|].
      unfold bounds in B. destruct (voxel_centers g); [discriminate B|]. injection B as <-. apply mk_box_normalized.
    - exists b. rewrite E. unfold model_bounds. assert (B' := B). destruct B as (ms & P & NE & VS & TI). rewrite P. cbn [bind].
      assert (TF : tight (from_meshes (map s_vertices ms)) (List.concat (map s_vertices ms))).
      { apply C19_meshes_tight; [destruct ms; [congruence|discriminate]|]. apply Forall_forall. intros x X. apply in_map_iff in X. destruct X as (y & <- & Y).
        rewrite Forall_forall in VS. apply VS, Y. }
      split; [f_equal; eapply tight_unique; eassumption|]. split; [destruct (o_bounds o), (o_voxels o); exact B'|].
      destruct ms as [|x ms]; [congruence|]. inversion VS as [|? ? VX _]; subst. cbn [map List.concat] in TI. destruct (s_vertices x) as [|v vs]; [congruence|].
      destruct (proj1 TI v (or_introl eq_refl)) as (A & B). unfold normalized, vle in *. destruct A as (A1 & A2 & A3), B as (B1 & B2 & B3). repeat split; lra.
  Qed.

  (** What is read back of an object's element. *)
  Definition reads_as (o : pobject M) (b : box) (e : xml) : Prop :=
    tag e = "element" /\ exists b' p', box_near b' b /\ pose_near p' (o_pose o) /\
      parse_xml w e = Ok (o_id o, b', Parsed (Some (Some (o_id o))) p' (o_category o) (Some b') (Some (o_symmetry o)) (o_score o) (o_evaluated o)).

  Lemma object_xml : forall ty o, good_object w saveable ty o ->
    exists b e, true_box w o b /\ object_to_xml w o = Ok e /\ fine e /\ reads_as o b e.
  Proof.
    intros ty o G. destruct (saved_bounds_ok ty o G) as (b & SB & TB & NB). exists b.
    destruct formats as (NU & _). destruct G as (T & _ & D & PI & NI & _ & _ & PC & NC & FS).
    destruct (box_roundtrip w NU b NB) as (b' & RB & BB), (pose_roundtrip w NU (o_pose o)) as (p' & RP & PP). destruct (proj2 NU (o_score o) FS) as (F & FP & FE).
    unfold object_to_xml. rewrite SB. cbn [bind]. eexists. split; [exact TB|]. split; [reflexivity|]. split.
    - constructor; [cbv; auto|exact I|discriminate|]. apply Forall_cons; [apply leaf_fine; [cbv; auto|assumption|assumption]|].
      apply Forall_cons; [constructor; [cbv; auto|exact PC|exact NC|constructor]|].
      apply Forall_cons; [apply box_fine; [exact NU|cbv; auto]|]. apply Forall_cons; [apply pose_fine, NU|]. apply Forall_cons; [apply symmetry_fine|].
      apply Forall_cons; [apply leaf_fine; [cbv; auto|assumption|assumption]|]. apply Forall_cons; [|constructor].
      apply leaf_fine; [cbv; auto| |]; destruct (o_evaluated o); (reflexivity || discriminate).
    - split; [reflexivity|]. exists b', p'. split; [exact BB|]. split; [exact PP|]. unfold parse_xml. cbn [tag String.eqb Ascii.eqb Bool.eqb negb children foldM].
      assert (S : from_xml (to_xml (o_symmetry o)) = Ok (Some (o_symmetry o))).
      { apply (C25_roundtrip (Some (x_symmetry (o_symmetry o))) (Some (y_symmetry (o_symmetry o))) (Some (z_symmetry (o_symmetry o)))).
        rewrite (proj1 (C25_accepted _ _ _) D). destruct (o_symmetry o); reflexivity. }
      assert (K1 : parse_child w parse_start (leaf "id" (o_id o)) = Ok (Parsed (Some (Some (o_id o))) pose_id (Some "unknown") None (Some (Symmetry none none none)) (-1) true)) by reflexivity.
      rewrite K1. cbn [bind].
      assert (K2 : forall q c, parse_child w q (Elem "category" c []) = Ok (Parsed (q_id q) (q_pose q) c (q_bounds q) (q_symmetry q) (q_score q) (q_evaluated q))) by (intros []; reflexivity).
      rewrite K2. cbn [bind q_id q_pose q_bounds q_symmetry q_score q_evaluated].
      assert (K3 : forall q, parse_child w q (set_tag "bounds" (box_to_xml w b)) = Ok (Parsed (q_id q) (q_pose q) (q_category q) (Some b') (q_symmetry q) (q_score q) (q_evaluated q))).
      { intros []. unfold parse_child. change (tag (set_tag "bounds" (box_to_xml w b))) with "bounds". cbn [String.eqb Ascii.eqb Bool.eqb].
        change (set_tag "box3d" (set_tag "bounds" (box_to_xml w b))) with (box_to_xml w b). rewrite RB. reflexivity. }
      rewrite K3. cbn [bind q_id q_pose q_category q_bounds q_symmetry q_score q_evaluated].
      assert (K4 : forall q, parse_child w q (pose_to_xml w (o_pose o)) = Ok (Parsed (q_id q) p' (q_category q) (q_bounds q) (q_symmetry q) (q_score q) (q_evaluated q))).
      { intros []. unfold parse_child. change (tag (pose_to_xml w (o_pose o))) with "pose". cbn [String.eqb Ascii.eqb Bool.eqb]. rewrite RP. reflexivity. }
      rewrite K4. cbn [bind q_id q_pose q_category q_bounds q_symmetry q_score q_evaluated].
      assert (K5 : forall q, parse_child w q (to_xml (o_symmetry o)) = Ok (Parsed (q_id q) (q_pose q) (q_category q) (q_bounds q) (Some (o_symmetry o)) (q_score q) (q_evaluated q))).
      { intros []. unfold parse_child. change (tag (to_xml (o_symmetry o))) with "symmetry". cbn [String.eqb Ascii.eqb Bool.eqb]. rewrite S. reflexivity. }
      rewrite K5. cbn [bind q_id q_pose q_category q_bounds q_symmetry q_score q_evaluated].
      assert (K6 : forall q, parse_child w q (leaf "detectionScore" (str_float w (o_score o))) = Ok (Parsed (q_id q) (q_pose q) (q_category q) (q_bounds q) (q_symmetry q) (o_score o) (q_evaluated q))).
      { intros []. unfold parse_child. cbn [tag leaf String.eqb Ascii.eqb Bool.eqb text]. rewrite F. reflexivity. }
      rewrite K6. cbn [bind q_id q_pose q_category q_bounds q_symmetry q_score q_evaluated].
      destruct (o_evaluated o); reflexivity.
  Qed.
End Objects.

(** * Files *)
Lemma prefixes_spec : forall l l', In l' (prefixes l) <-> l' <> [] /\ above l' l = true.
Proof.
  induction l as [|x l IH]; intro l'; cbn [prefixes In].
  - split; [intros []|]. intros (N & A). destruct l'; [congruence|discriminate A].
  - rewrite in_map_iff. split.
    + intros [<-|(y & <- & Y)]; [split; [discriminate|]; cbn [above]; rewrite String.eqb_refl; reflexivity|]. apply IH in Y. destruct Y as (_ & Y).
      split; [discriminate|]. cbn [above]. rewrite String.eqb_refl. exact Y.
    + intros (N & A). destruct l' as [|y l']; [congruence|]. cbn [above] in A. apply andb_true_iff in A. destruct A as (A & B). apply String.eqb_eq in A. subst y.
      destruct l' as [|z l']; [left; reflexivity|]. right. exists (z :: l'). split; [reflexivity|]. apply IH. split; [discriminate|exact B].
Qed.

Lemma walk_app : forall l k a, walk a (l ++ k) = walk (walk a l) k.
Proof. induction l as [|x l IH]; intros k a; [reflexivity|]. cbn [app walk]. apply IH. Qed.
Lemma resolve_join : forall A (s : fs A) p n, n <> "." -> n <> ".." -> resolve s (join p (Rel [n])) = resolve s p ++ [n].
Proof.
  intros A s p n N1 N2. apply String.eqb_neq in N1, N2. destruct p as [l|l]; cbn [join resolve]; rewrite walk_app; cbn [walk]; rewrite N1, N2; reflexivity.
Qed.

Lemma removelast_snoc : forall A (l : list A) x, removelast (l ++ [x]) = l.
Proof. intros. rewrite removelast_app by discriminate. apply app_nil_r. Qed.

(** The state after makedirs. *)
Definition made {A} (s : fs A) (l : list string) : fs A := Fs (files s) (filter (fun d => negb (isdir_at s d)) (prefixes l) ++ dirs s) (cwd s).
Lemma makedirs_ok : forall A (s : fs A) p, free s (resolve s p) -> makedirs p s = (made s (resolve s p), Ok tt).
Proof.
  intros A s p (D & F). unfold makedirs. rewrite D. replace (existsb _ _) with false; [reflexivity|]. symmetry. apply not_true_iff_false. intro E.
  apply existsb_exists in E. destruct E as (l' & I & E). apply prefixes_spec in I. rewrite F in E by apply I. discriminate E.
Qed.
Lemma makedirs_exists : forall A (s : fs A) p, ~ free s (resolve s p) -> (forall l, isdir_at s l = true -> isfile_at s l = false) -> makedirs p s = (s, Err OSError).
Proof.
  intros A s p N W. unfold makedirs. destruct (isdir_at s (resolve s p)) eqn:D; [reflexivity|]. destruct (existsb (isfile_at s) (prefixes (resolve s p))) eqn:E; [reflexivity|].
  exfalso. apply N. split; [exact D|]. intros l' A'. destruct l' as [|x l']; [apply W; reflexivity|].
  apply not_true_iff_false. intro F. apply not_true_iff_false in E. apply E. apply existsb_exists. exists (x :: l'). split; [apply prefixes_spec; split; [discriminate|exact A']|exact F].
Qed.
Lemma made_dir : forall A (s : fs A) l l', isdir_at (made s l) l' = true <-> isdir_at s l' = true \/ above l' l = true.
Proof.
  intros A s l [|x l']; [cbn; tauto|]. assert (E : isdir_at (made s l) (x :: l') = existsb (loc_eqb (x :: l')) (filter (fun d => negb (isdir_at s d)) (prefixes l) ++ dirs s)) by reflexivity.
  rewrite E, existsb_app, orb_true_iff. change (existsb (loc_eqb (x :: l')) (dirs s)) with (isdir_at s (x :: l')). split.
  - intros [H|H]; [|left; exact H]. apply existsb_exists in H. destruct H as (d & I & Q). apply loc_eqb_spec in Q. subst d. apply filter_In in I. destruct I as (I & _). apply prefixes_spec in I. right. apply I.
  - intros [H|H]; [right; exact H|]. destruct (isdir_at s (x :: l')) eqn:D; [right; reflexivity|left]. apply existsb_exists. exists (x :: l'). split; [|apply loc_eqb_refl].
    apply filter_In. split; [apply prefixes_spec; split; [discriminate|exact H]|rewrite D; reflexivity].
Qed.
Lemma above_longer : forall l x, above (l ++ [x]) l = false.
Proof.
  intros l x. apply not_true_iff_false. intro E. apply above_spec in E. destruct E as (c & C). apply (f_equal (@List.length string)) in C. rewrite !app_length in C. cbn in C. lia.
Qed.
Lemma tree_below : forall A (s : fs A) l x, tree s -> isdir_at s l = false -> isdir_at s (l ++ [x]) = false /\ isfile_at s (l ++ [x]) = false.
Proof.
  intros A s l x (TF & TD) D. split; apply not_true_iff_false; intro E.
  - apply TD in E. rewrite removelast_snoc in E. congruence.
  - apply TF in E. destruct E as (_ & E & _). rewrite removelast_snoc in E. congruence.
Qed.
