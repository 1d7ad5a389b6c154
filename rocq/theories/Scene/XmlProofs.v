(** Lemmas for the scene properties: reading XML. *)
From Coq Require Import Reals Lra Lia List Bool String Ascii ZArith.
From Verif.Base Require Import Py PyFacts Vec Xml Fs FsFacts.
From Verif.Geom Require Import Model.
From Verif.Box Require Import Model Spec Proofs.
From Verif.Voxel Require Import Model.
From Verif.Symm Require Import Model Spec Props.
From Verif.Scene Require Import Model Spec.
Import ListNotations.
Local Open Scope string_scope.
Local Open Scope list_scope.

Lemma last_cons : forall t c cs e, last_elem t (c :: cs) e <-> last_elem t cs e \/ (tag c = t /\ e = c /\ no_elem t cs).
Proof.
  intros t c cs e. split.
  - intros (a & b & E & T & F). destruct a as [|x a]; cbn [app] in E; injection E as -> ->; [right; repeat split; assumption|left; exists a, b; auto].
  - intros [(a & b & -> & T & F)|(T & -> & N)]; [exists (c :: a), b; auto|exists [], cs; auto].
Qed.
Lemma no_cons : forall t c cs, no_elem t (c :: cs) <-> tag c <> t /\ no_elem t cs.
Proof. intros. unfold no_elem. split; [intro H; inversion H; auto|intros (A & B); constructor; assumption]. Qed.
Lemma last_or_no : forall t cs, (exists e, last_elem t cs e) \/ no_elem t cs.
Proof.
  induction cs as [|c cs [(e & E)|N]]; [right; constructor|left; exists e; apply last_cons; auto|].
  destruct (string_dec (tag c) t) as [E|E]; [left; exists c; apply last_cons; auto|right; apply no_cons; auto].
Qed.
Lemma last_no : forall t cs e, last_elem t cs e -> no_elem t cs -> False.
Proof. intros t cs e (a & b & -> & T & _) N. apply Forall_elt in N. contradiction. Qed.
Lemma last_tag : forall t cs e, last_elem t cs e -> tag e = t /\ In e cs.
Proof. intros t cs e (a & b & -> & T & _). split; [exact T|apply in_elt]. Qed.
Lemma last_unique : forall t cs e e', last_elem t cs e -> last_elem t cs e' -> e = e'.
Proof.
  induction cs as [|c cs IH]; intros e e' A B; [destruct A as ([|] & ? & A & _); discriminate A|]. apply last_cons in A, B.
  destruct A as [A|(TA & -> & NA)], B as [B|(TB & -> & NB)]; [apply IH; assumption|destruct (last_no _ _ _ A NB)|destruct (last_no _ _ _ B NA)|reflexivity].
Qed.

Section Field.
  Context {A : Type}.
  Variables (t : string) (h : xml -> A -> Prop).
  Lemma field_hit : forall c cs d u v, (forall x y, h c x -> h c y -> x = y) -> tag c = t -> h c u -> (field t h d (c :: cs) v <-> field t h u cs v).
  Proof.
    intros c cs d u v FN T H. split.
    - intros [(e & E & He)|(N & _)]; [|apply no_cons in N; destruct N; contradiction]. apply last_cons in E. destruct E as [E|(_ & -> & N)]; [left; eauto|right].
      split; [exact N|]. apply FN; assumption.
    - intros [(e & E & He)|(N & ->)]; left; [exists e|exists c]; (split; [apply last_cons|assumption]); auto.
  Qed.
  Lemma field_miss : forall c cs d v, tag c <> t -> (field t h d (c :: cs) v <-> field t h d cs v).
  Proof.
    intros c cs d v T. split.
    - intros [(e & E & He)|(N & ->)]; [|right; apply no_cons in N; split; [apply N|reflexivity]]. apply last_cons in E. destruct E as [E|(E & _)]; [left; eauto|contradiction].
    - intros [(e & E & He)|(N & ->)]; [left; exists e; split; [apply last_cons; auto|exact He]|right; split; [apply no_cons; auto|reflexivity]].
  Qed.
  Lemma field_nil : forall d v, field t h d [] v <-> v = d.
  Proof. intros d v. split; [intros [(e & ([|] & ? & E & _) & _)|(_ & E)]; [discriminate E|discriminate E|exact E]|intros ->; right; split; [constructor|reflexivity]]. Qed.
  Lemma field_says : forall cs v, field t (fun e o => exists v, h e v /\ o = Some v) None cs (Some v) <-> says h t cs v.
  Proof.
    intros cs v. split.
    - intros [(e & E & u & U & Q)|(_ & E)]; [|discriminate E]. injection Q as <-. exists e. auto.
    - intros (e & E & H). left. exists e. split; [exact E|]. exists v. auto.
  Qed.
  Lemma says_unique : forall cs u v, (forall c x y, h c x -> h c y -> x = y) -> says h t cs u -> says h t cs v -> u = v.
  Proof. intros cs u v FN (e & E & H) (e' & E' & H'). rewrite (last_unique _ _ _ _ E E') in H. eapply FN; eassumption. Qed.
End Field.

Section World.
  Context {M : Type}.
  Variable w : world M.

  Lemma vec_list : forall u v : vec, [vx u; vy u; vz u] = [vx v; vy v; vz v] -> u = v.
  Proof. intros [x y z] [x' y' z'] E. cbn in E. congruence. Qed.
  Lemma three_iff : forall e v, three w e = Ok v <-> holds3 w e v.
  Proof.
    intros e v. unfold three, holds3. split.
    - intro E. destruct (text e) as [t|]; [|discriminate E]. exists t. split; [reflexivity|]. destruct (fromstring w t) as [|x [|y [|z [|]]]]; try discriminate E. injection E as <-. reflexivity.
    - intros (t & -> & ->). destruct v; reflexivity.
  Qed.
  Lemma column_iff : forall e v, column w e = Ok v <-> holds31 w e v.
  Proof.
    intros e v. unfold column, holds31, holds3. split.
    - intro E. destruct (text e) as [t|]; [|discriminate E]. destruct (fromstring w t) as [|x [|y [|z [|]]]] eqn:F; try discriminate E; injection E as <-; [right|left]; exists t; auto.
    - intros [(t & -> & ->)|(t & -> & -> & ->)]; [destruct v|]; reflexivity.
  Qed.
  Lemma holds3_fun : forall e u v, holds3 w e u -> holds3 w e v -> u = v.
  Proof. intros e u v A B. apply three_iff in A, B. congruence. Qed.
  Lemma holds31_fun : forall e u v, holds31 w e u -> holds31 w e v -> u = v.
  Proof. intros e u v A B. apply column_iff in A, B. congruence. Qed.

  Lemma bind_inv : forall A B (r : res A) (f : A -> res B) y, (let* x := r in f x) = Ok y <-> exists x, r = Ok x /\ f x = Ok y.
  Proof. intros A B [x|e] f y; cbn [bind]; split; [eauto|intros (z & E & F); congruence|discriminate|intros (z & E & _); discriminate E]. Qed.

  Let some3 := fun e o => exists v, holds3 w e v /\ o = Some v.
  Let some31 := fun e o => exists v, holds31 w e v /\ o = Some v.
  Lemma some3_fun : forall c x y, some3 c x -> some3 c y -> x = y.
  Proof. intros c x y (u & U & ->) (v & E & ->). f_equal. eapply holds3_fun; eassumption. Qed.
  Lemma some31_fun : forall c x y, some31 c x -> some31 c y -> x = y.
  Proof. intros c x y (u & U & ->) (v & E & ->). f_equal. eapply holds31_fun; eassumption. Qed.

  Lemma box_children : forall cs a b st, foldM (box_child w) (a, b) cs = Ok st <->
    tags_in ["corner1"; "corner2"] cs /\ Forall (fun c => exists v, holds3 w c v) cs /\
    field "corner1" some3 a cs (fst st) /\ field "corner2" some3 b cs (snd st).
  Proof.
    induction cs as [|c cs IH]; intros a b [a' b']; cbn [foldM].
    - rewrite !field_nil. cbn [fst snd]. split; [intro E; injection E as <- <-; repeat split; constructor|intros (_ & _ & -> & ->); reflexivity].
    - rewrite bind_inv. unfold tags_in. rewrite !Forall_cons_iff. fold (tags_in ["corner1"; "corner2"] cs). unfold box_child at 1. cbn [In].
      destruct (String.eqb_spec (tag c) "corner1") as [T|T]; [|destruct (String.eqb_spec (tag c) "corner2") as [T2|T2]].
      + rewrite (field_miss "corner2") by (rewrite T; discriminate). split.
        * intros (x & E & F). apply bind_inv in E. destruct E as (v & E & X). apply three_iff in E. injection X as <-. cbn [fst snd] in *. apply IH in F.
          rewrite (field_hit "corner1" some3 c cs a (Some v)); [|apply some3_fun|exact T|exists v; auto]. destruct F as (F1 & F2 & F3 & F4). repeat split; eauto.
        * intros ((_ & F1) & ((v & H) & F2) & F3 & F4). rewrite (field_hit "corner1" some3 c cs a (Some v)) in F3; [|apply some3_fun|exact T|exists v; auto].
          exists (Some v, b). apply three_iff in H. rewrite H. split; [reflexivity|]. apply IH. repeat split; assumption.
      + rewrite (field_miss "corner1") by (rewrite T2; discriminate). split.
        * intros (x & E & F). apply bind_inv in E. destruct E as (v & E & X). apply three_iff in E. injection X as <-. cbn [fst snd] in *. apply IH in F.
          rewrite (field_hit "corner2" some3 c cs b (Some v)); [|apply some3_fun|exact T2|exists v; auto]. destruct F as (F1 & F2 & F3 & F4). repeat split; eauto.
        * intros ((_ & F1) & ((v & H) & F2) & F3 & F4). rewrite (field_hit "corner2" some3 c cs b (Some v)) in F4; [|apply some3_fun|exact T2|exists v; auto].
          exists (a, Some v). apply three_iff in H. rewrite H. split; [reflexivity|]. apply IH. repeat split; assumption.
      + split; [intros (x & E & _); discriminate E|]. intros (([E|[E|[]]] & _) & _); congruence.
  Qed.

  Lemma box_axes : forall u v b, b = mk_box u v <-> normalized b /\ forall axis, (axis < 3)%nat ->
    (coord axis (min_corner b) = coord axis u /\ coord axis (max_corner b) = coord axis v) \/
    (coord axis (min_corner b) = coord axis v /\ coord axis (max_corner b) = coord axis u).
  Proof.
    intros [x y z] [x' y' z'] b. split.
    - intros ->. split; [apply mk_box_normalized|]. intros [|[|[|axis]]] H; [| | |lia]; cbn; unfold Rmin, Rmax; destruct (Rle_dec _ _); auto.
    - destruct b as [[a b c] [a' b' c']]. intros ((X & Y & Z) & H). cbn in X, Y, Z. unfold mk_box, amin, amax. cbn.
      assert (H0 := H 0%nat ltac:(lia)). assert (H1 := H 1%nat ltac:(lia)). assert (H2 := H 2%nat ltac:(lia)). cbn in H0, H1, H2. unfold vmin2, vmax2. cbn.
      unfold Rmin, Rmax. f_equal; apply vec_eq; cbn; repeat destruct (Rle_dec _ _); lra.
  Qed.

  Lemma box_iff : forall e b, box_from_xml w e = Ok b <-> box_element w "box3d" e b.
  Proof.
    intros e b. unfold box_from_xml, box_element. destruct (String.eqb_spec (tag e) "box3d") as [T|T]; cbn [negb]; [|split; [discriminate|intros (E & _); contradiction]].
    rewrite bind_inv. split.
    - intros ([a c] & F & E). apply box_children in F. destruct F as (F1 & F2 & F3 & F4). destruct a as [u|], c as [v|]; try discriminate E. injection E as E.
      cbn [fst snd] in *. apply field_says in F3, F4. repeat (split; [assumption|]). exists u, v. symmetry in E. apply box_axes in E. repeat split; try assumption; apply E.
    - intros (_ & F1 & F2 & u & v & F3 & F4 & N & AX). exists (Some u, Some v). split; [apply box_children; cbn [fst snd]; unfold some3; rewrite !field_says; repeat split; assumption|].
      f_equal. symmetry. apply box_axes. split; assumption.
  Qed.

  Lemma rot_children : forall cs a b c st, foldM (rot_child w) (a, b, c) cs = Ok st <->
    tags_in ["c1"; "c2"; "c3"] cs /\ Forall (fun c => exists v, holds31 w c v) cs /\
    field "c1" some31 a cs (fst (fst st)) /\ field "c2" some31 b cs (snd (fst st)) /\ field "c3" some31 c cs (snd st).
  Proof.
    induction cs as [|k cs IH]; intros a b c [[a' b'] c']; cbn [foldM].
    - rewrite !field_nil. cbn [fst snd]. split; [intro E; injection E as <- <- <-; repeat split; constructor|intros (_ & _ & -> & -> & ->); reflexivity].
    - rewrite bind_inv. unfold tags_in. rewrite !Forall_cons_iff. fold (tags_in ["c1"; "c2"; "c3"] cs). unfold rot_child at 1. cbn [In]. split.
      + intros (x & E & F). apply bind_inv in E. destruct E as (v & E & X). apply column_iff in E.
        assert (HV : some31 k (Some v)) by (exists v; auto).
        destruct (String.eqb_spec (tag k) "c1") as [T|T]; [|destruct (String.eqb_spec (tag k) "c2") as [T2|T2]; [|destruct (String.eqb_spec (tag k) "c3") as [T3|T3]; [|discriminate X]]];
          injection X as <-; apply IH in F; destruct F as (F1 & F2 & F3 & F4 & F5).
        * rewrite (field_hit "c1" some31 k cs a (Some v)), (field_miss "c2"), (field_miss "c3"); [| | |apply some31_fun| |]; try assumption; try (rewrite T; discriminate). repeat split; eauto.
        * rewrite (field_hit "c2" some31 k cs b (Some v)), (field_miss "c1"), (field_miss "c3"); [| | |apply some31_fun| |]; try assumption; try (rewrite T2; discriminate). repeat split; eauto.
        * rewrite (field_hit "c3" some31 k cs c (Some v)), (field_miss "c2"), (field_miss "c1"); [| | |apply some31_fun| |]; try assumption; try (rewrite T3; discriminate). repeat split; eauto.
      + intros ((T & F1) & ((v & H) & F2) & F3 & F4 & F5). assert (HV : some31 k (Some v)) by (exists v; auto). apply column_iff in H. rewrite H. cbn [bind].
        destruct T as [T|[T|[T|[]]]]; symmetry in T.
        * rewrite (field_hit "c1" some31 k cs a (Some v)) in F3; [|apply some31_fun|exact T|exact HV]. rewrite (field_miss "c2") in F4 by (rewrite T; discriminate). rewrite (field_miss "c3") in F5 by (rewrite T; discriminate).
          rewrite T. exists (Some v, b, c). split; [reflexivity|]. apply IH. repeat split; assumption.
        * rewrite (field_hit "c2" some31 k cs b (Some v)) in F4; [|apply some31_fun|exact T|exact HV]. rewrite (field_miss "c1") in F3 by (rewrite T; discriminate). rewrite (field_miss "c3") in F5 by (rewrite T; discriminate).
          rewrite T. exists (a, Some v, c). split; [reflexivity|]. apply IH. repeat split; assumption.
        * rewrite (field_hit "c3" some31 k cs c (Some v)) in F5; [|apply some31_fun|exact T|exact HV]. rewrite (field_miss "c1") in F3 by (rewrite T; discriminate). rewrite (field_miss "c2") in F4 by (rewrite T; discriminate).
          rewrite T. exists (a, b, Some v). split; [reflexivity|]. apply IH. repeat split; assumption.
  Qed.

  Lemma columns_of : forall u v x r, r = FromColumns u v x <-> rot_column r 0 = u /\ rot_column r 1 = v /\ rot_column r 2 = x.
  Proof.
    intros [] [] [] []. cbn. split; [intro E; injection E; intros; subst; auto|]. intros (A & B & C). injection A. injection B. injection C. intros. subst. reflexivity.
  Qed.
  Lemma rot_iff : forall e r, rot_from_xml w e = Ok r <-> rot_element w e r.
  Proof.
    intros e r. unfold rot_from_xml, rot_element. destruct (String.eqb_spec (tag e) "rotation") as [T|T]; cbn [negb]; [|split; [discriminate|intros (E & _); contradiction]].
    rewrite bind_inv. split.
    - intros ([[a b] c] & F & E). apply rot_children in F. destruct F as (F1 & F2 & F3 & F4 & F5). destruct a as [u|], b as [v|], c as [x|]; try discriminate E. injection E as E.
      cbn [fst snd] in *. apply field_says in F3, F4, F5. symmetry in E. apply columns_of in E. destruct E as (-> & -> & ->). repeat split; assumption.
    - intros (_ & F1 & F2 & F3 & F4 & F5). exists (Some (rot_column r 0), Some (rot_column r 1), Some (rot_column r 2)). split.
      + apply rot_children. cbn [fst snd]. unfold some31. rewrite !field_says. repeat split; assumption.
      + f_equal. symmetry. apply columns_of. auto.
  Qed.
  Lemma rot_fun : forall e x y, rot_element w e x -> rot_element w e y -> x = y.
  Proof. intros e x y A B. apply rot_iff in A, B. congruence. Qed.

  Let somer := fun e o => exists r, rot_element w e r /\ o = Some r.
  Lemma somer_fun : forall c x y, somer c x -> somer c y -> x = y.
  Proof. intros c x y (u & U & ->) (v & E & ->). f_equal. eapply rot_fun; eassumption. Qed.

  Lemma pose_children : forall cs a b st, foldM (pose_child w) (a, b) cs = Ok st <->
    tags_in ["translation"; "rotation"] cs /\
    Forall (fun c => (tag c = "translation" -> exists v, holds3 w c v) /\ (tag c = "rotation" -> exists r, rot_element w c r)) cs /\
    field "translation" some3 a cs (fst st) /\ field "rotation" somer b cs (snd st).
  Proof.
    induction cs as [|c cs IH]; intros a b [a' b']; cbn [foldM].
    - rewrite !field_nil. cbn [fst snd]. split; [intro E; injection E as <- <-; repeat split; constructor|intros (_ & _ & -> & ->); reflexivity].
    - rewrite bind_inv. unfold tags_in. rewrite !Forall_cons_iff. fold (tags_in ["translation"; "rotation"] cs). unfold pose_child at 1. cbn [In].
      destruct (String.eqb_spec (tag c) "translation") as [T|T]; [|destruct (String.eqb_spec (tag c) "rotation") as [T2|T2]].
      + rewrite (field_miss "rotation") by (rewrite T; discriminate). split.
        * intros (x & E & F). apply bind_inv in E. destruct E as (v & E & X). apply three_iff in E. injection X as <-. cbn [fst snd] in *. apply IH in F.
          rewrite (field_hit "translation" some3 c cs a (Some v)); [|apply some3_fun|exact T|exists v; auto]. destruct F as (F1 & F2 & F3 & F4).
          repeat split; eauto. intro K. rewrite T in K. discriminate K.
        * intros ((_ & F1) & ((H & _) & F2) & F3 & F4). destruct (H T) as (v & HV). rewrite (field_hit "translation" some3 c cs a (Some v)) in F3; [|apply some3_fun|exact T|exists v; auto].
          exists (Some v, b). apply three_iff in HV. rewrite HV. split; [reflexivity|]. apply IH. repeat split; assumption.
      + rewrite (field_miss "translation") by (rewrite T2; discriminate). split.
        * intros (x & E & F). apply bind_inv in E. destruct E as (v & E & X). apply rot_iff in E. injection X as <-. cbn [fst snd] in *. apply IH in F.
          rewrite (field_hit "rotation" somer c cs b (Some v)); [|apply somer_fun|exact T2|exists v; auto]. destruct F as (F1 & F2 & F3 & F4).
          repeat split; eauto. intro K. rewrite T2 in K. discriminate K.
        * intros ((_ & F1) & ((_ & H) & F2) & F3 & F4). destruct (H T2) as (v & HV). rewrite (field_hit "rotation" somer c cs b (Some v)) in F4; [|apply somer_fun|exact T2|exists v; auto].
          exists (a, Some v). apply rot_iff in HV. rewrite HV. split; [reflexivity|]. apply IH. repeat split; assumption.
      + split; [intros (x & E & _); discriminate E|]. intros (([E|[E|[]]] & _) & _); congruence.
  Qed.

  Lemma pose_iff : forall e p, pose_from_xml w e = Ok p <-> pose_element w e p.
  Proof.
    intros e p. unfold pose_from_xml, pose_element. destruct (String.eqb_spec (tag e) "pose") as [T|T]; cbn [negb]; [|split; [discriminate|intros (E & _); contradiction]].
    rewrite bind_inv. split.
    - intros ([a c] & F & E). apply pose_children in F. destruct F as (F1 & F2 & F3 & F4). destruct a as [u|], c as [v|]; try discriminate E. injection E as <-.
      cbn [fst snd pt pR] in *. apply field_says in F3, F4. repeat split; assumption.
    - intros (_ & F1 & F2 & F3 & F4). exists (Some (pt p), Some (pR p)). split; [apply pose_children; cbn [fst snd]; unfold some3, somer; rewrite !field_says; repeat split; assumption|].
      destruct p; reflexivity.
  Qed.
End World.

Section Element.
  Context {M : Type}.
  Variable w : world M.

  Lemma symmetry_iff : forall e s, tag e = "symmetry" -> (from_xml e = Ok s <-> symmetry_element e s).
  Proof.
    intros e s T. destruct (proj2 (C26_from_xml e) T) as (A & B). destruct s as [s|]; [apply A|]. cbn [symmetry_element]. split.
    - intros E x y z D DO. assert (K := proj2 (A (Symmetry x y z)) (conj D DO)). congruence.
    - exact B.
  Qed.
  Lemma symmetry_reads : forall e, tag e = "symmetry" -> exists s, from_xml e = Ok s.
  Proof.
    intros e T. unfold from_xml. rewrite T. cbn [String.eqb Ascii.eqb Bool.eqb negb]. destruct (fold_left _ _ _) as [[x y] z].
    unfold mk_symmetry. destruct (is_valid x y z); [|eauto]. destruct x, y, z; eauto.
  Qed.
  Lemma bounds_iff : forall e b, tag e = "bounds" -> (box_from_xml w (set_tag "box3d" e) = Ok b <-> box_element w "bounds" e b).
  Proof. intros e b T. rewrite box_iff. unfold box_element. cbn [set_tag tag children]. rewrite T. tauto. Qed.
  Lemma score_iff : forall e x, (match text e with None => Err TypeError | Some t => match float_of w t with Some f => Ok f | None => Err ValueError end end) = Ok x <-> score_element w e x.
  Proof.
    intros e x. unfold score_element. split.
    - destruct (text e) as [t|]; [|discriminate]. destruct (float_of w t) as [f|] eqn:F; [|discriminate]. intro E. injection E as ->. eauto.
    - intros (t & -> & ->). reflexivity.
  Qed.
  Lemma evaluated_is : forall e, evaluated_element e (match text e with Some t => String.eqb t "True" || String.eqb t "true" | None => false end)%bool.
  Proof.
    intro e. unfold evaluated_element. destruct (text e) as [t|]; [|split; [discriminate|intros [E|E]; discriminate E]].
    rewrite orb_true_iff, !String.eqb_eq. split; intros [E|E]; [left|right|left|right]; congruence.
  Qed.
  Lemma evaluated_fun : forall e x y, evaluated_element e x -> evaluated_element e y -> x = y.
  Proof. unfold evaluated_element. intros e x y A B. destruct x, y; try reflexivity; [symmetry; apply B, A; reflexivity|apply A, B; reflexivity]. Qed.
  Lemma pose_fun : forall e x y, pose_element w e x -> pose_element w e y -> x = y.
  Proof. intros e x y A B. apply pose_iff in A, B. congruence. Qed.
  Lemma box_fun : forall e x y, box_element w "bounds" e x -> box_element w "bounds" e y -> x = y.
  Proof. intros e x y A B. assert (T : tag e = "bounds") by apply A. apply (bounds_iff e) in A; [|exact T]. apply (bounds_iff e) in B; [|exact T]. congruence. Qed.
  Lemma score_fun : forall e x y, score_element w e x -> score_element w e y -> x = y.
  Proof. intros e x y (t & A & B) (t' & A' & B'). congruence. Qed.
  Lemma symmetry_fun : forall e x y, symmetry_element e x -> symmetry_element e y -> tag e = "symmetry" -> x = y.
  Proof. intros e x y A B T. apply (symmetry_iff e _ T) in A, B. congruence. Qed.

  Definition someb (e : xml) (o : option box) : Prop := exists b, box_element w "bounds" e b /\ o = Some b.
  Lemma someb_fun : forall c x y, someb c x -> someb c y -> x = y.
  Proof. intros c x y (u & U & ->) (v & E & ->). f_equal. eapply box_fun; eassumption. Qed.
  Definition someid (e : xml) (o : option (option string)) : Prop := o = Some (text e).


  Lemma element_children : forall cs q q', foldM (parse_child w) q cs = Ok q' <->
    Forall (readable_child w) cs /\
    field "id" someid (q_id q) cs (q_id q') /\ field "bounds" someb (q_bounds q) cs (q_bounds q') /\
    field "pose" (pose_element w) (q_pose q) cs (q_pose q') /\ field "category" (fun e c => text e = c) (q_category q) cs (q_category q') /\
    field "symmetry" symmetry_element (q_symmetry q) cs (q_symmetry q') /\
    field "detectionScore" (score_element w) (q_score q) cs (q_score q') /\ field "evaluated" evaluated_element (q_evaluated q) cs (q_evaluated q').
  Proof.
    induction cs as [|c cs IH]; intros q q'; cbn [foldM].
    { rewrite !field_nil. destruct q, q'. cbn. split; [intro E; injection E; intros; subst; repeat split; constructor|intros (_ & -> & -> & -> & -> & -> & -> & ->); reflexivity]. }
    rewrite bind_inv, Forall_cons_iff.
    (* one child: what it does to the fields *)
    assert (STEP : forall q1, parse_child w q c = Ok q1 <-> readable_child w c /\
      field "id" someid (q_id q) [c] (q_id q1) /\ field "bounds" someb (q_bounds q) [c] (q_bounds q1) /\
      field "pose" (pose_element w) (q_pose q) [c] (q_pose q1) /\ field "category" (fun e c => text e = c) (q_category q) [c] (q_category q1) /\
      field "symmetry" symmetry_element (q_symmetry q) [c] (q_symmetry q1) /\
      field "detectionScore" (score_element w) (q_score q) [c] (q_score q1) /\ field "evaluated" evaluated_element (q_evaluated q) [c] (q_evaluated q1)).
    { intro q1. destruct q as [i p ca b s f v], q1 as [i1 p1 ca1 b1 s1 f1 v1]. unfold parse_child. cbn [q_id q_bounds q_pose q_category q_symmetry q_score q_evaluated].
      destruct (String.eqb_spec (tag c) "id") as [T|N1].
      { rewrite !(field_miss "bounds"), !(field_miss "pose"), !(field_miss "category"), !(field_miss "symmetry"), !(field_miss "detectionScore"), !(field_miss "evaluated") by (rewrite T; discriminate).
        rewrite !field_nil. assert (H : someid c (Some (text c))) by reflexivity. rewrite (field_hit "id" someid c [] i (Some (text c))); [|unfold someid; congruence|exact T|exact H]. rewrite field_nil.
        split; [intro E; injection E; intros; subst; repeat split; try assumption; intro K; rewrite T in K; discriminate K|]. intros (_ & -> & -> & -> & -> & -> & -> & ->). reflexivity. }
      rewrite !(field_miss "id") by exact N1. destruct (String.eqb_spec (tag c) "pose") as [T|N2].
      { rewrite !(field_miss "bounds"), !(field_miss "category"), !(field_miss "symmetry"), !(field_miss "detectionScore"), !(field_miss "evaluated") by (rewrite T; discriminate).
        rewrite !field_nil, bind_inv. split.
        - intros (x & X & E). apply pose_iff in X. injection E; intros; subst. rewrite (field_hit "pose" _ c [] _ p1); [|apply pose_fun|exact T|exact X]. rewrite field_nil.
          repeat split; try (intro K; rewrite T in K; discriminate K). eauto.
        - intros ((H & _) & -> & -> & F & -> & -> & -> & ->). destruct (H T) as (x & X). rewrite (field_hit "pose" _ c [] _ x) in F; [|apply pose_fun|exact T|exact X]. apply field_nil in F. subst x.
          exists p1. apply pose_iff in X. split; [exact X|reflexivity]. }
      rewrite !(field_miss "pose") by exact N2. destruct (String.eqb_spec (tag c) "category") as [T|N3].
      { rewrite !(field_miss "bounds"), !(field_miss "symmetry"), !(field_miss "detectionScore"), !(field_miss "evaluated") by (rewrite T; discriminate).
        rewrite (field_hit "category" _ c [] ca (text c)); [|congruence|exact T|reflexivity]. rewrite !field_nil.
        split; [intro E; injection E; intros; subst; repeat split; try (intro K; rewrite T in K; discriminate K)|]. intros (_ & -> & -> & -> & -> & -> & -> & ->). reflexivity. }
      rewrite !(field_miss "category") by exact N3. destruct (String.eqb_spec (tag c) "bounds") as [T|N4].
      { rewrite !(field_miss "symmetry"), !(field_miss "detectionScore"), !(field_miss "evaluated") by (rewrite T; discriminate).
        rewrite !field_nil, bind_inv. split.
        - intros (x & X & E). apply bounds_iff in X; [|exact T]. injection E; intros; subst. rewrite (field_hit "bounds" _ c [] _ (Some x)); [|apply someb_fun|exact T|exists x; auto]. rewrite field_nil.
          repeat split; try (intro K; rewrite T in K; discriminate K). eauto.
        - intros ((_ & H & _) & -> & F & -> & -> & -> & -> & ->). destruct (H T) as (x & X). rewrite (field_hit "bounds" _ c [] _ (Some x)) in F; [|apply someb_fun|exact T|exists x; auto]. apply field_nil in F. subst b1.
          exists x. apply bounds_iff in X; [|exact T]. split; [exact X|reflexivity]. }
      rewrite !(field_miss "bounds") by exact N4. destruct (String.eqb_spec (tag c) "symmetry") as [T|N5].
      { rewrite !(field_miss "detectionScore"), !(field_miss "evaluated") by (rewrite T; discriminate).
        rewrite !field_nil, bind_inv. destruct (symmetry_reads c T) as (x & X). assert (X' := X). apply (symmetry_iff c x T) in X'.
        rewrite (field_hit "symmetry" _ c [] _ x); [|intros y z A B; apply (symmetry_fun c); assumption|exact T|exact X']. rewrite field_nil. split.
        - intros (y & Y & E). injection E; intros; subst. repeat split; try (intro K; rewrite T in K; discriminate K). congruence.
        - intros (_ & -> & -> & -> & -> & -> & -> & ->). exists x. auto. }
      rewrite !(field_miss "symmetry") by exact N5. destruct (String.eqb_spec (tag c) "detectionScore") as [T|N6].
      { rewrite !(field_miss "evaluated") by (rewrite T; discriminate). rewrite !field_nil. split.
        - intro E. assert (X : score_element w c f1).
          { unfold score_element. destruct (text c) as [t|]; [|discriminate E]. destruct (float_of w t) as [y|] eqn:Y; [|discriminate E]. injection E; intros; subst. eauto. }
          rewrite (field_hit "detectionScore" _ c [] _ f1); [|apply score_fun|exact T|exact X]. rewrite field_nil.
          destruct (text c) as [t|]; [|discriminate E]. destruct (float_of w t) as [y|] eqn:Y; [|discriminate E]. injection E; intros; subst. repeat split; try (intro K; rewrite T in K; discriminate K). eauto.
        - intros ((_ & _ & H) & -> & -> & -> & -> & -> & F & ->). destruct (H T) as (x & X). rewrite (field_hit "detectionScore" _ c [] _ x) in F; [|apply score_fun|exact T|exact X]. apply field_nil in F. subst x.
          destruct X as (t & -> & ->). reflexivity. }
      rewrite !(field_miss "detectionScore") by exact N6. destruct (String.eqb_spec (tag c) "evaluated") as [T|N7].
      { rewrite !field_nil. rewrite (field_hit "evaluated" _ c [] _ _ _ (evaluated_fun c) T (evaluated_is c)). rewrite field_nil.
        split; [intro E; injection E; intros; subst; repeat split; try (intro K; rewrite T in K; discriminate K)|]. intros (_ & -> & -> & -> & -> & -> & -> & ->). reflexivity. }
      rewrite !(field_miss "evaluated") by exact N7. rewrite !field_nil.
      split; [intro E; injection E; intros; subst; repeat split; intro K; contradiction|]. intros (_ & -> & -> & -> & -> & -> & -> & ->). reflexivity. }
    (* fields of one child and of the rest *)
    assert (SPLIT : forall A t (h : xml -> A -> Prop) d v, (forall x y, h c x -> h c y -> tag c = t -> x = y) -> (tag c = t -> exists x, h c x) ->
      (field t h d (c :: cs) v <-> exists u, field t h d [c] u /\ field t h u cs v)).
    { intros A t h d v FN EX. destruct (string_dec (tag c) t) as [T|T].
      - destruct (EX T) as (x & X). assert (FN' : forall x y, h c x -> h c y -> x = y) by (intros y z Y Z; apply FN; assumption). rewrite (field_hit t h c cs d x v FN' T X). split.
        + intro F. exists x. rewrite (field_hit t h c [] d x x FN' T X), field_nil. auto.
        + intros (u & U & F). rewrite (field_hit t h c [] d x u FN' T X), field_nil in U. subst u. exact F.
      - rewrite (field_miss t h c cs d v T). split; [intro F; exists d; rewrite (field_miss t h c [] d d T), field_nil; auto|].
        intros (u & U & F). rewrite (field_miss t h c [] d u T), field_nil in U. subst u. exact F. }
    split.
    - intros (q1 & P & F). apply STEP in P. apply IH in F. destruct P as (R & P1 & P2 & P3 & P4 & P5 & P6 & P7), F as (RS & F1 & F2 & F3 & F4 & F5 & F6 & F7).
      split; [split; assumption|].
      split; [apply SPLIT; [unfold someid; congruence|intros _; eexists; reflexivity|eauto]|].
      split; [apply SPLIT; [intros; eapply someb_fun; eassumption|intro T; destruct (proj1 (proj2 R) T) as (x & X); exists (Some x), x; auto|eauto]|].
      split; [apply SPLIT; [intros; eapply pose_fun; eassumption|intro T; apply R, T|eauto]|].
      split; [apply SPLIT; [congruence|eauto|eauto]|].
      split; [apply SPLIT; [intros; eapply symmetry_fun; eassumption|intro T; destruct (symmetry_reads c T) as (x & X); exists x; apply symmetry_iff; assumption|eauto]|].
      split; [apply SPLIT; [intros; eapply score_fun; eassumption|intro T; apply R, T|eauto]|].
      apply SPLIT; [intros; eapply evaluated_fun; eassumption|intros _; eexists; apply evaluated_is|eauto].
    - intros ((R & RS) & F1 & F2 & F3 & F4 & F5 & F6 & F7).
      apply SPLIT in F1; [|unfold someid; congruence|intros _; eexists; reflexivity]. destruct F1 as (u1 & U1 & F1).
      apply SPLIT in F2; [|intros; eapply someb_fun; eassumption|intro T; destruct (proj1 (proj2 R) T) as (x & X); exists (Some x), x; auto]. destruct F2 as (u2 & U2 & F2).
      apply SPLIT in F3; [|intros; eapply pose_fun; eassumption|intro T; apply R, T]. destruct F3 as (u3 & U3 & F3).
      apply SPLIT in F4; [|congruence|eauto]. destruct F4 as (u4 & U4 & F4).
      apply SPLIT in F5; [|intros; eapply symmetry_fun; eassumption|intro T; destruct (symmetry_reads c T) as (x & X); exists x; apply symmetry_iff; assumption]. destruct F5 as (u5 & U5 & F5).
      apply SPLIT in F6; [|intros; eapply score_fun; eassumption|intro T; apply R, T]. destruct F6 as (u6 & U6 & F6).
      apply SPLIT in F7; [|intros; eapply evaluated_fun; eassumption|intros _; eexists; apply evaluated_is]. destruct F7 as (u7 & U7 & F7).
      exists (Parsed u1 u3 u4 u2 u5 u6 u7). split; [apply STEP|apply IH]; repeat split; try assumption; apply R.
  Qed.

  Lemma children_read : forall cs q, Forall (readable_child w) cs -> exists q', foldM (parse_child w) q cs = Ok q'.
  Proof.
    induction cs as [|c cs IH]; intros q F; [eexists; reflexivity|]. apply Forall_cons_iff in F. destruct F as ((R1 & R2 & R3) & F). cbn [foldM].
    assert (K : exists q1, parse_child w q c = Ok q1).
    { destruct q as [i p ca b s f v]. unfold parse_child. destruct (String.eqb_spec (tag c) "id"); [eauto|].
      destruct (String.eqb_spec (tag c) "pose") as [T|]; [destruct (R1 T) as (x & X); apply pose_iff in X; rewrite X; cbn [bind]; eauto|].
      destruct (String.eqb_spec (tag c) "category"); [eauto|].
      destruct (String.eqb_spec (tag c) "bounds") as [T|]; [destruct (R2 T) as (x & X); apply bounds_iff in X; [|exact T]; rewrite X; cbn [bind]; eauto|].
      destruct (String.eqb_spec (tag c) "symmetry") as [T|]; [destruct (symmetry_reads c T) as (x & X); rewrite X; cbn [bind]; eauto|].
      destruct (String.eqb_spec (tag c) "detectionScore") as [T|]; [destruct (R3 T) as (x & t & A & B); rewrite A, B; eauto|].
      destruct (String.eqb (tag c) "evaluated"); eauto. }
    destruct K as (q1 & K). rewrite K. cbn [bind]. apply IH, F.
  Qed.

  Lemma parse_iff : forall e i b q, parse_xml w e = Ok (i, b, q) <->
    object_element w e i b (q_pose q) (q_category q) (q_symmetry q) (q_score q) (q_evaluated q) /\ q_id q = Some (Some i) /\ q_bounds q = Some b.
  Proof.
    intros e i b q. unfold parse_xml, object_element. destruct (String.eqb_spec (tag e) "element") as [T|T]; cbn [negb]; [|split; [discriminate|intros ((E & _) & _); contradiction]].
    rewrite bind_inv. split.
    - intros (q1 & F & E). apply element_children in F. cbn [parse_start q_id q_bounds q_pose q_category q_symmetry q_score q_evaluated] in F.
      destruct (q_id q1) as [[i1|]|] eqn:QI; try discriminate E. destruct (q_bounds q1) as [b1|] eqn:QB; [|discriminate E]. injection E as -> -> ->.
      destruct F as (R & F1 & F2 & F3 & F4 & F5 & F6 & F7). split; [|rewrite QI, QB; auto]. repeat (split; [assumption|]).
      split; [destruct F1 as [(x & X & Y)|(_ & Y)]; [injection Y as Y; exists x; auto|discriminate Y]|].
      split; [destruct F2 as [(x & X & y & Y & Z)|(_ & Y)]; [injection Z as <-; exists x; auto|discriminate Y]|]. repeat split; assumption.
    - intros ((_ & R & (x & X & X2) & (y & Y & Y2) & F3 & F4 & F5 & F6 & F7) & QI & QB). exists q. split; [|rewrite QI, QB; reflexivity]. apply element_children.
      cbn [parse_start q_id q_bounds q_pose q_category q_symmetry q_score q_evaluated]. rewrite QI, QB. split; [exact R|].
      split; [left; exists x; split; [exact X|unfold someid; rewrite X2; reflexivity]|]. split; [left; exists y; split; [exact Y|exists b; auto]|]. repeat split; assumption.
  Qed.

  (** Elements that are refused though every child can be read. *)
  Lemma parse_errors : forall e, tag e = "element" -> Forall (readable_child w) (children e) ->
    (no_elem "id" (children e) -> parse_xml w e = Err UnboundLocalError) /\
    (forall x, last_elem "id" (children e) x -> text x = None -> parse_xml w e = Err ValueError) /\
    (forall x i, last_elem "id" (children e) x -> text x = Some i -> no_elem "bounds" (children e) -> parse_xml w e = Err UnboundLocalError).
  Proof.
    intros e T R. destruct (children_read (children e) parse_start R) as (q & Q). assert (F := Q). apply element_children in F.
    cbn [parse_start q_id q_bounds q_pose q_category q_symmetry q_score q_evaluated] in F. destruct F as (_ & F1 & F2 & _).
    unfold parse_xml. rewrite T. cbn [String.eqb Ascii.eqb Bool.eqb negb]. rewrite Q. cbn [bind]. split; [|split].
    - intro N. destruct F1 as [(x & X & _)|(_ & ->)]; [destruct (last_no _ _ _ X N)|reflexivity].
    - intros x X TX. destruct F1 as [(y & Y & E)|(N & _)]; [|destruct (last_no _ _ _ X N)]. rewrite (last_unique _ _ _ _ Y X) in E. unfold someid in E. rewrite E, TX. reflexivity.
    - intros x i X TX NB. destruct F1 as [(y & Y & E)|(N & _)]; [|destruct (last_no _ _ _ X N)]. rewrite (last_unique _ _ _ _ Y X) in E. unfold someid in E. rewrite E, TX.
      destruct F2 as [(z & Z & _)|(_ & ->)]; [destruct (last_no _ _ _ Z NB)|reflexivity].
  Qed.
End Element.
