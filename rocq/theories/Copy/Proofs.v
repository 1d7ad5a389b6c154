(** The matching of copies. *)
From Coq Require Import List Bool String QArith ZArith Permutation Lia Lqa.
From Verif.Base Require Import Py PyFacts Sort.
From Verif.Assoc Require Import Model Spec Proofs.
From Verif.AP Require Import Model Spec Proofs.
From Verif.Scores Require Import Model Spec Proofs.
From Verif.Copy Require Import Spec.
Import ListNotations.

Lemma combine_fun : forall A B C (f : A -> C) (a : list A) (b : list B) x y y', NoDup (map f a) -> In (x, y) (combine a b) -> In (x, y') (combine a b) -> y = y'.
Proof.
  intros A B C f a. induction a as [|u a IH]; intros b x y y' N I J; [destruct I|]. destruct b as [|v b]; [destruct I|].
  cbn in *. inversion N as [|? ? NI N']; subst.
  destruct I as [E|I], J as [E'|J].
  - congruence.
  - exfalso. injection E as -> ->. apply NI, in_map. eapply in_combine_l. exact J.
  - exfalso. injection E' as -> ->. apply NI, in_map. eapply in_combine_l. exact I.
  - eapply IH; eassumption.
Qed.
Lemma combine_inj : forall A B C (f : B -> C) (a : list A) (b : list B) x x' y, NoDup (map f b) -> In (x, y) (combine a b) -> In (x', y) (combine a b) -> x = x'.
Proof.
  intros A B C f a. induction a as [|u a IH]; intros b x x' y N I J; [destruct I|]. destruct b as [|v b]; [destruct I|].
  cbn in *. inversion N as [|? ? NI N']; subst.
  destruct I as [E|I], J as [E'|J].
  - congruence.
  - exfalso. injection E as -> ->. apply NI, in_map. eapply in_combine_r. exact J.
  - exfalso. injection E' as -> ->. apply NI, in_map. eapply in_combine_r. exact I.
  - eapply IH; eassumption.
Qed.
Lemma combine_l : forall A B (a : list A) (b : list B) x, List.length a = List.length b -> In x a -> exists y, In (x, y) (combine a b).
Proof.
  intros A B a. induction a as [|u a IH]; intros b x L I; [destruct I|]. destruct b as [|v b]; [discriminate|].
  destruct I as [->|I]; [exists v; left; reflexivity|]. injection L as L. destruct (IH b x L I) as (y & J). exists y. right. exact J.
Qed.
Lemma combine_r : forall A B (a : list A) (b : list B) y, List.length a = List.length b -> In y b -> exists x, In (x, y) (combine a b).
Proof.
  intros A B a. induction a as [|u a IH]; intros b y L I; destruct b as [|v b]; try discriminate; [destruct I|].
  destruct I as [->|I]; [exists u; left; reflexivity|]. injection L as L. destruct (IH b y L I) as (x & J). exists x. right. exact J.
Qed.

Section Stable.
  Context {A : Type}.
  Variables (sim : elem A -> elem A -> Q) (dets gts : list (elem A)) (t : Q).
  Hypotheses (Nd : NoDup (map e_id dets)) (Ng : NoDup (map e_id gts)) (L : List.length dets = List.length gts).
  Hypothesis TA : told_apart sim dets gts [t].
  Variable M : elem A -> elem A -> Prop.
  Hypothesis ST : stable sim dets gts t M.

  Notation s := (map (fun e : elem A => (e_id e, e)) dets).
  Lemma s_values : dvalues s = dets.
  Proof. unfold dvalues. rewrite map_map. apply map_id. Qed.

  Lemma match_original : forall d g, M d g -> original dets gts d g.
  Proof.
    destruct ST as [[O1 O2 O3 O4 O5] NB].
    assert (NO : forall pre post, sort_dets s = pre ++ post -> forall d g, In d pre -> M d g -> original dets gts d g).
    { intros pre. induction pre as [|x pre IH] using rev_ind; intros post E d g I Md; [destruct I|].
      rewrite <- app_assoc in E. cbn [app] in E. apply in_app_or in I. destruct I as [I|[<-|[]]]; [eapply IH; eassumption|].
      assert (D := O1 _ _ Md). assert (G := O2 _ _ Md). destruct (combine_l _ _ dets gts x L D) as (g0 & P0).
      assert (G0 : In g0 gts) by (eapply in_combine_r; exact P0). destruct (TA x g0 P0) as (R1 & R2).
      destruct (string_dec (e_id g) (e_id g0)) as [Ei|Ei].
      { assert (g = g0) by (eapply NoDup_map_inj; eassumption). subst g. exact P0. }
      exfalso. assert (NE : g <> g0) by (intros ->; apply Ei; reflexivity).
      apply (NB x g0). split; [exact D|]. split; [exact G0|]. split; [apply R1; left; reflexivity|]. split.
      - intros g' Mg. rewrite (O4 _ _ _ Mg Md). left. apply R2; assumption.
      - intros d' Md'. assert (D' := O1 _ _ Md'). assert (J : In d' (sort_dets s)) by (apply sort_dets_In; rewrite s_values; exact D').
        rewrite E in J. apply in_app_or in J. destruct J as [J|[->|J]].
        + exfalso. assert (S' := IH _ E d' g0 J Md'). assert (d' = x) by (eapply combine_inj; eassumption).
          subst d'. apply NE. eapply O4; eassumption.
        + exfalso. apply NE. eapply O4; eassumption.
        + apply in_split in J. destruct J as (l2 & l3 & ->).
          assert (PR := sort_dets_prio s). rewrite s_values in PR.
          apply (proj1 (PR (NoDup_map_NoDup _ _ _ _ Nd) x d')). exists pre, l2, l3. exact E. }
    intros d g Md. apply (NO (sort_dets s) [] (eq_sym (app_nil_r _)) d g); [|exact Md]. apply sort_dets_In. rewrite s_values. eapply O1. exact Md.
  Qed.

  Lemma original_matched : forall d g, original dets gts d g -> ~ forall g', ~ M d g'.
  Proof.
    intros d g P N. destruct (TA d g P) as (R1 & _). destruct ST as [_ NB]. apply (NB d g).
    split; [eapply in_combine_l; exact P|]. split; [eapply in_combine_r; exact P|]. split; [apply R1; left; reflexivity|]. split.
    - intros g' Md. destruct (N g' Md).
    - intros d' Md. exfalso. assert (P' := match_original _ _ Md). assert (d' = d) by (eapply combine_inj; eassumption). subst. exact (N g Md).
  Qed.

  Lemma judged_copies : forall l m vs ss, List.length l = List.length m -> (forall p, In p (combine l m) -> In p (combine dets gts)) ->
    judged M l vs ss -> vs = repeat true (n_evaluated m) /\ List.length ss = List.length vs.
  Proof.
    intros l m vs ss Lm H J. revert m Lm H. induction J as [|d g ds vs ss Md Ev J IH|d g ds vs ss Md Ev J IH|d ds vs ss N J IH]; intros m Lm H.
    - destruct m; [split; reflexivity|discriminate].
    - destruct m as [|x m]; [discriminate|]. injection Lm as Lm. assert (P := H _ (or_introl eq_refl)). cbn [combine] in P.
      assert (g = x) by (eapply combine_fun; [exact Nd|apply match_original; exact Md|exact P]). subst x.
      destruct (IH m Lm (fun p I => H p (or_intror I))) as (-> & E). unfold n_evaluated. cbn [filter]. rewrite Ev. cbn. split; [reflexivity|].
      rewrite E. reflexivity.
    - destruct m as [|x m]; [discriminate|]. injection Lm as Lm. assert (P := H _ (or_introl eq_refl)). cbn [combine] in P.
      assert (g = x) by (eapply combine_fun; [exact Nd|apply match_original; exact Md|exact P]). subst x.
      destruct (IH m Lm (fun p I => H p (or_intror I))) as (-> & E). unfold n_evaluated. cbn [filter]. rewrite Ev. auto.
    - exfalso. destruct m as [|x m]; [discriminate|]. apply (original_matched d x); [|exact N]. apply H. left. reflexivity.
  Qed.
End Stable.

Section Ap.
  Context {A : Type}.
  Variables (sim : elem A -> elem A -> Q) (dets gts : list (elem A)) (t : Q).
  Hypotheses (Nd : NoDup (map e_id dets)) (Ng : NoDup (map e_id gts)).

  Lemma ap_copies : List.length dets = List.length gts -> told_apart sim dets gts [t] -> forall ap, (0 < n_evaluated gts)%nat ->
    scene_ap sim dets gts t ap -> ap == full_marks (n_evaluated gts).
  Proof.
    intros L TA ap N (M & vs & ss & ranked & ST & J & R & AP).
    destruct (judged_copies sim dets gts t Nd Ng L TA M ST dets gts vs ss L (fun p I => I) J) as (-> & E).
    assert (P := ranking_perm _ _ _ R E). apply Permutation_repeat in P. subst ranked. apply ap_of_perfect; assumption.
  Qed.
End Ap.

Lemma permutation_filter : forall T (f : T -> bool) (l m : list T), Permutation l m -> Permutation (filter f l) (filter f m).
Proof.
  intros T f l m P. induction P as [|x l m P IH|x y l|l m k P IH Q IH2]; cbn [filter]; [constructor| | |].
  - destruct (f x); [constructor|]; exact IH.
  - destruct (f x), (f y); try apply Permutation_refl. constructor.
  - exact (Permutation_trans IH IH2).
Qed.

(** No detections do better. *)
Lemma perfect_exists : forall n, (0 < n)%nat -> exists ap, ap_of (repeat true n) n ap.
Proof.
  intros n N. set (ms := repeat 1%Z n). set (ss := repeat 0%Q n).
  assert (Lm : List.length ms = n) by apply repeat_length. assert (Ls : List.length ss = n) by apply repeat_length.
  destruct (compute_auc_ap_spec stable_argsort ms ss n stable_argsort_ok ltac:(lia) N) as (ap & p & r & rk & _ & R & _ & _ & _ & AP).
  assert (P := ranking_perm _ _ _ R ltac:(rewrite map_length; lia)).
  assert (E : map verdict ms = repeat true n).
  { unfold ms. clear. induction n as [|n IH]; [reflexivity|]. cbn [repeat map]. rewrite IH. reflexivity. }
  rewrite E in P. apply Permutation_repeat in P. subst rk. exists ap. exact AP.
Qed.

Lemma ap_at_most : forall ranked n ap, (0 < n)%nat -> (correct_upto (List.length ranked) ranked <= n)%nat -> ap_of ranked n ap -> ap <= full_marks n.
Proof.
  intros ranked n ap N C AP. destruct (perfect_exists n N) as (best & B). unfold full_marks. rewrite <- (ap_of_perfect n best N B).
  apply (ap_of_monotone ranked (repeat true n) n ap best N); [|exact AP|exact B].
  intros j J P. exists (correct_upto (S j) ranked - 1)%nat. rewrite repeat_length.
  assert (C1 := correct_upto_le ranked (S j)). assert (C2 := correct_upto_cap ranked (S j)).
  split; [lia|]. split; [lia|]. rewrite correct_all_true; lia.
Qed.

Lemma scene_at_most : forall A (sim : elem A -> elem A -> Q) dets gts t ap, NoDup dets -> (0 < n_evaluated gts)%nat ->
  scene_ap sim dets gts t ap -> ap <= full_marks (n_evaluated gts).
Proof.
  intros A sim dets gts t ap ND N (M & vs & ss & ranked & [[O1 O2 O3 O4 O5] NB] & J & R & AP). apply (ap_at_most ranked); [exact N| |exact AP].
  assert (LL : List.length ss = List.length vs) by (clear -J; induction J; cbn; congruence).
  assert (P := ranking_perm _ _ _ R LL). rewrite correct_total.
  rewrite (Permutation_length (permutation_filter _ _ _ _ P)).
  destruct (judged_count M dets vs ss gts J ND O2 O5) as (gs & L & Ng & I). rewrite <- L. unfold n_evaluated. apply NoDup_incl_length; [exact Ng|].
  intros g Hg. apply I. exact Hg.
Qed.
