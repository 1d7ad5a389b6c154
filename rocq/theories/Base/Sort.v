(** Stable sorting.  Python's [sorted] and [list.sort] are stable; the model
    uses insertion sort, and the facts below are all that proofs rely on. *)
From Coq Require Import List Bool Permutation Sorting.Sorted.
Import ListNotations.

Section Sort.
  Context {A : Type} (leb : A -> A -> bool).

  Fixpoint insert (x : A) (l : list A) : list A :=
    match l with
    | [] => [x]
    | y :: t => if leb x y then x :: y :: t else y :: insert x t
    end.

  Definition isort (l : list A) : list A := fold_right insert [] l.

  Lemma insert_perm : forall x l, Permutation (x :: l) (insert x l).
  Proof.
    induction l as [|y t IH]; simpl; [reflexivity|].
    destruct (leb x y); [reflexivity|].
    rewrite perm_swap. constructor; exact IH.
  Qed.

  Lemma isort_perm : forall l, Permutation l (isort l).
  Proof.
    induction l as [|x t IH]; simpl; [reflexivity|].
    rewrite <- insert_perm. constructor; exact IH.
  Qed.

  Lemma isort_In : forall l x, In x (isort l) <-> In x l.
  Proof.
    intros l x; split; apply Permutation_in;
      [apply Permutation_sym, isort_perm | apply isort_perm].
  Qed.

  Hypothesis leb_total : forall x y, leb x y = true \/ leb y x = true.
  Hypothesis leb_trans : forall x y z, leb x y = true -> leb y z = true -> leb x z = true.

  Let le x y := leb x y = true.

  Lemma insert_sorted : forall x l, StronglySorted le l -> StronglySorted le (insert x l).
  Proof.
    induction l as [|y t IH]; intro H; simpl.
    - constructor; [constructor|constructor].
    - inversion H as [|? ? Hs Hf]; subst.
      destruct (leb x y) eqn:E.
      + constructor; [exact H|]. constructor; [exact E|].
        eapply Forall_impl; [|exact Hf]. intros z Hz; unfold le in *. eapply leb_trans; eassumption.
      + constructor; [apply IH; exact Hs|].
        assert (Hyx : le y x) by (destruct (leb_total x y) as [H1|H1]; [congruence|exact H1]).
        apply Forall_forall. intros z Hz.
        apply Permutation_in with (l' := x :: t) in Hz; [|apply Permutation_sym, insert_perm].
        destruct Hz as [->|Hz]; [exact Hyx|].
        rewrite Forall_forall in Hf; apply Hf; exact Hz.
  Qed.

  Lemma isort_sorted : forall l, StronglySorted le (isort l).
  Proof.
    induction l as [|x t IH]; simpl; [constructor|]. apply insert_sorted; exact IH.
  Qed.

  (** Stability: among pairwise equivalent elements the original order stays. *)
  Definition before (l : list A) (x y : A) : Prop :=
    exists l1 l2 l3, l = l1 ++ x :: l2 ++ y :: l3.

  Lemma before_cons : forall l z x y, before l x y -> before (z :: l) x y.
  Proof.
    intros l z x y (l1 & l2 & l3 & ->). exists (z :: l1), l2, l3; reflexivity.
  Qed.

  Lemma before_head : forall l x y, In y l -> before (x :: l) x y.
  Proof.
    intros l x y H. apply in_split in H as (l2 & l3 & ->). exists [], l2, l3; reflexivity.
  Qed.

  Lemma before_cons_inv : forall l z x y,
    before (z :: l) x y -> (z = x /\ In y l) \/ before l x y.
  Proof.
    intros l z x y (l1 & l2 & l3 & E). destruct l1 as [|w l1]; simpl in E.
    - injection E as -> ->. left; split; [reflexivity|]. apply in_or_app; right; left; reflexivity.
    - injection E as -> ->. right. exists l1, l2, l3; reflexivity.
  Qed.

  Lemma before_In : forall l x y, before l x y -> In x l /\ In y l.
  Proof.
    intros l x y (l1 & l2 & l3 & ->). split.
    - apply in_or_app; right; left; reflexivity.
    - apply in_or_app; right; right. apply in_or_app; right; left; reflexivity.
  Qed.

  Lemma before_insert : forall x l a b,
    before l a b -> before (insert x l) a b.
  Proof.
    induction l as [|y t IH]; intros a b H; simpl.
    - destruct H as (l1 & l2 & l3 & E). destruct l1; discriminate.
    - destruct (leb x y); [apply before_cons; exact H|].
      apply before_cons_inv in H as [[-> Hb]|H].
      + apply before_head. apply Permutation_in with (l := x :: t); [apply insert_perm|right; exact Hb].
      + apply before_cons, IH; exact H.
  Qed.

  Lemma before_insert_new : forall x l b,
    In b l -> leb x b = true -> StronglySorted le l -> before (insert x l) x b.
  Proof.
    induction l as [|y t IH]; intros b Hin Hle Hs; [contradiction|]. simpl.
    destruct (leb x y) eqn:E; [apply before_head; exact Hin|].
    destruct Hin as [->|Hin]; [congruence|].
    inversion Hs; subst. apply before_cons, IH; assumption.
  Qed.

  (** Whenever [a] precedes [b] in the input and [a <= b], [a] precedes [b] in
      the output: sortedness and stability in one statement. *)
  Lemma isort_before : forall l a b,
    before l a b -> leb a b = true -> before (isort l) a b.
  Proof.
    induction l as [|x t IH]; intros a b H Hle; simpl.
    - destruct H as (l1 & l2 & l3 & E). destruct l1; discriminate.
    - apply before_cons_inv in H as [[-> Hb]|H].
      + apply before_insert_new; [apply isort_In; exact Hb|exact Hle|apply isort_sorted].
      + apply before_insert, IH; assumption.
  Qed.

  (** If [b] precedes [a] in the input but [a < b], the order is exchanged. *)
  Lemma isort_before_lt : forall l a b,
    In a l -> In b l -> leb b a = false -> before (isort l) a b.
  Proof.
    intros l a b Ha Hb Hlt.
    assert (Hs := isort_sorted l).
    apply isort_In in Ha. apply isort_In in Hb.
    revert Ha Hb Hs. generalize (isort l) as s. clear l.
    assert (Hne : a <> b).
    { intros ->. destruct (leb_total b b); congruence. }
    induction s as [|y t IH]; intros Ha Hb Hs; [contradiction|].
    inversion Hs as [|? ? Hs' Hf]; subst.
    destruct Ha as [->|Ha].
    - destruct Hb as [->|Hb]; [congruence|]. apply before_head; exact Hb.
    - destruct Hb as [->|Hb].
      + rewrite Forall_forall in Hf. specialize (Hf _ Ha). unfold le in Hf. congruence.
      + apply before_cons, IH; assumption.
  Qed.
End Sort.

Lemma before_asym_NoDup : forall A (l : list A) x y,
  NoDup l -> before l x y -> ~ before l y x.
Proof.
  induction l as [|z t IH]; intros x y Hnd H1 H2.
  - destruct H1 as (l1 & l2 & l3 & E); destruct l1; discriminate.
  - inversion Hnd as [|? ? Hni Hnd']; subst.
    apply before_cons_inv in H1. apply before_cons_inv in H2.
    destruct H1 as [[-> Hy]|H1]; destruct H2 as [[E2 Hx]|H2].
    + subst; contradiction.
    + apply before_In in H2. tauto.
    + subst. apply before_In in H1. tauto.
    + eapply IH; eassumption.
Qed.

Lemma before_total : forall A (l : list A) x y,
  In x l -> In y l -> x <> y -> before l x y \/ before l y x.
Proof.
  induction l as [|z t IH]; intros x y Hx Hy Hne; [contradiction|].
  destruct Hx as [->|Hx]; destruct Hy as [->|Hy].
  - congruence.
  - left; apply before_head; exact Hy.
  - right; apply before_head; exact Hx.
  - destruct (IH x y Hx Hy Hne); [left|right]; apply before_cons; assumption.
Qed.

Lemma before_neq_NoDup : forall A (l : list A) x y, NoDup l -> before l x y -> x <> y.
Proof.
  intros A l x y Hnd H ->. exact (before_asym_NoDup _ _ _ _ Hnd H H).
Qed.
