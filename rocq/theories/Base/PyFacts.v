(** Facts about the shared Python vocabulary. *)
From Coq Require Import List Bool String.
From Verif.Base Require Import Py.
Import ListNotations.

Section DictFacts.
  Context {K V : Type} (eqb : K -> K -> bool).
  Hypothesis eqb_spec : forall x y, eqb x y = true <-> x = y.

  Lemma eqb_refl' : forall x, eqb x x = true.
  Proof. intro x; apply eqb_spec; reflexivity. Qed.

  Lemma eqb_false : forall x y, eqb x y = false <-> x <> y.
  Proof.
    intros x y; split; intro H.
    - intro E; subst; rewrite eqb_refl' in H; discriminate.
    - destruct (eqb x y) eqn:E; [|reflexivity]. apply eqb_spec in E; contradiction.
  Qed.

  Lemma dget_In : forall (d : list (K * V)) k v,
    dget eqb k d = Some v -> In (k, v) d.
  Proof.
    induction d as [|[k' v'] t IH]; intros k v H; simpl in H; [discriminate|].
    destruct (eqb k k') eqn:E.
    - apply eqb_spec in E; subst. injection H as ->. left; reflexivity.
    - right; apply IH; exact H.
  Qed.

  Lemma dget_None : forall (d : list (K * V)) k,
    dget eqb k d = None <-> ~ In k (dkeys d).
  Proof.
    induction d as [|[k' v'] t IH]; intros k; simpl; [tauto|].
    destruct (eqb k k') eqn:E.
    - apply eqb_spec in E; subst. split; [discriminate|]. intro H; exfalso; apply H; left; reflexivity.
    - apply eqb_false in E. rewrite IH. split; intros H; [intros [H1|H1]; [congruence|tauto]|tauto].
  Qed.

  Lemma dget_NoDup : forall (d : list (K * V)) k v,
    NoDup (dkeys d) -> In (k, v) d -> dget eqb k d = Some v.
  Proof.
    induction d as [|[k' v'] t IH]; intros k v Hnd Hin; simpl in *; [contradiction|].
    inversion Hnd as [|? ? Hni Hnd']; subst.
    destruct Hin as [Hin|Hin].
    - injection Hin as -> ->. rewrite eqb_refl'. reflexivity.
    - destruct (eqb k k') eqn:E.
      + apply eqb_spec in E; subst. exfalso; apply Hni.
        apply in_map_iff. exists (k', v); split; [reflexivity|exact Hin].
      + apply IH; assumption.
  Qed.

  Lemma dget_dset_same : forall (d : list (K * V)) k v,
    dget eqb k (dset eqb k v d) = Some v.
  Proof.
    induction d as [|[k' v'] t IH]; intros k v; simpl.
    - rewrite eqb_refl'; reflexivity.
    - destruct (eqb k k') eqn:E; simpl; rewrite E; [reflexivity|apply IH].
  Qed.

  Lemma dget_dset_other : forall (d : list (K * V)) k k2 v,
    k <> k2 -> dget eqb k2 (dset eqb k v d) = dget eqb k2 d.
  Proof.
    induction d as [|[k' v'] t IH]; intros k k2 v Hne; simpl.
    - destruct (eqb k2 k) eqn:E; [apply eqb_spec in E; congruence|reflexivity].
    - destruct (eqb k k') eqn:E; simpl.
      + apply eqb_spec in E; subst.
        destruct (eqb k2 k') eqn:E2; [apply eqb_spec in E2; congruence|reflexivity].
      + destruct (eqb k2 k') eqn:E2; [reflexivity|apply IH; exact Hne].
  Qed.

  Lemma dset_fresh : forall (d : list (K * V)) k v,
    ~ In k (dkeys d) -> dset eqb k v d = d ++ [(k, v)].
  Proof.
    induction d as [|[k' v'] t IH]; intros k v H; simpl in *; [reflexivity|].
    destruct (eqb k k') eqn:E.
    - apply eqb_spec in E; subst; exfalso; apply H; left; reflexivity.
    - rewrite IH; [reflexivity|]. intro Hc; apply H; right; exact Hc.
  Qed.

  Lemma dkeys_dset : forall (d : list (K * V)) k v x,
    In x (dkeys (dset eqb k v d)) <-> x = k \/ In x (dkeys d).
  Proof.
    induction d as [|[k' v'] t IH]; intros k v x; simpl.
    - intuition congruence.
    - destruct (eqb k k') eqn:E; simpl.
      + apply eqb_spec in E; subst. intuition congruence.
      + rewrite IH. intuition congruence.
  Qed.

  Lemma NoDup_dset : forall (d : list (K * V)) k v,
    NoDup (dkeys d) -> NoDup (dkeys (dset eqb k v d)).
  Proof.
    induction d as [|[k' v'] t IH]; intros k v H; simpl.
    - constructor; [intros []|constructor].
    - inversion H as [|? ? Hni Hnd]; subst.
      destruct (eqb k k') eqn:E; simpl.
      + constructor; assumption.
      + constructor; [|apply IH; exact Hnd].
        rewrite dkeys_dset. intros [->|Hc]; [rewrite eqb_refl' in E; discriminate|contradiction].
  Qed.

  (** Building a dictionary from entries with distinct keys is the identity. *)
  Lemma fold_dset_fresh : forall (A : Type) (f : A -> K) (g : A -> V) (l : list A) d,
    NoDup (dkeys d ++ map f l) ->
    fold_left (fun acc x => dset eqb (f x) (g x) acc) l d
    = d ++ map (fun x => (f x, g x)) l.
  Proof.
    induction l as [|x xs IH]; intros d H; simpl.
    - rewrite app_nil_r; reflexivity.
    - simpl in H. rewrite dset_fresh.
      + rewrite IH.
        * rewrite <- app_assoc; reflexivity.
        * unfold dkeys in *. rewrite map_app; simpl. rewrite <- app_assoc. exact H.
      + apply NoDup_remove_2 in H. intro Hc; apply H; apply in_or_app; left; exact Hc.
  Qed.

  Lemma dmem_true : forall (d : list (K * V)) k,
    dmem eqb k d = true <-> In k (dkeys d).
  Proof.
    intros d k; unfold dmem. destruct (dget eqb k d) eqn:E.
    - split; [intros _|reflexivity]. apply dget_In in E. apply in_map_iff.
      exists (k, v); split; [reflexivity|exact E].
    - apply dget_None in E. split; [discriminate|contradiction].
  Qed.

  Lemma dmem_false : forall (d : list (K * V)) k,
    dmem eqb k d = false <-> ~ In k (dkeys d).
  Proof.
    intros d k. rewrite <- dmem_true. destruct (dmem eqb k d); intuition congruence.
  Qed.
End DictFacts.

Lemma str_eqb_spec : forall x y, String.eqb x y = true <-> x = y.
Proof. intros; apply String.eqb_eq. Qed.

Lemma str_in_In : forall x l, str_in x l = true <-> In x l.
Proof.
  intros x l; unfold str_in. rewrite existsb_exists. split.
  - intros [y [Hy E]]. apply String.eqb_eq in E; subst; exact Hy.
  - intro H; exists x; split; [exact H|apply String.eqb_refl].
Qed.

Lemma mapM_Ok : forall A B (f : A -> res B) (g : A -> B) l,
  (forall x, In x l -> f x = Ok (g x)) -> mapM f l = Ok (map g l).
Proof.
  induction l as [|x xs IH]; intro H; simpl; [reflexivity|].
  rewrite (H x (or_introl eq_refl)); simpl.
  rewrite IH; [reflexivity|]. intros y Hy; apply H; right; exact Hy.
Qed.
