(** What additional detections change. *)
From Coq Require Import List Bool String QArith ZArith Permutation Sorting.Sorted Lia Lqa.
From Verif.Base Require Import Py PyFacts Sort.
From Verif.Assoc Require Import Model Spec Proofs.
From Verif.AP Require Import Model Spec Proofs.
From Verif.Scores Require Import Model Spec Proofs Props.
From Verif.Extra Require Import Spec.
Import ListNotations.
Local Open Scope list_scope.
Local Open Scope Q_scope.

Section Agree.
  Context {A : Type}.
  Variables (sim : elem A -> elem A -> Q) (dets extra gts : list (elem A)) (t : Q).
  Hypotheses (Nd : NoDup (map e_id (dets ++ extra))) (Ng : NoDup (map e_id gts)).
  Hypothesis H : forall x, In x extra -> (forall d, In d dets -> e_score x < e_score d) \/ (forall g, In g gts -> sim x g < t).
  Variables M M' : elem A -> elem A -> Prop.
  Hypotheses (ST : stable sim dets gts t M) (ST' : stable sim (dets ++ extra) gts t M').
  Hypothesis DM : forall d, In d dets -> (exists g, M d g) \/ (forall g, ~ M d g).
  Hypothesis DM' : forall d, In d dets -> (exists g, M' d g) \/ (forall g, ~ M' d g).

  Lemma nd_all : NoDup (dets ++ extra).
  Proof. eapply NoDup_map_NoDup. exact Nd. Qed.
  Lemma nd_dets_ids : NoDup (map e_id dets).
  Proof. rewrite map_app in Nd. eapply NoDup_app_l. exact Nd. Qed.
  Lemma nd_dets : NoDup dets.
  Proof. eapply NoDup_map_NoDup. exact nd_dets_ids. Qed.

  Notation s := (map (fun e : elem A => (e_id e, e)) dets).
  Lemma values : dvalues s = dets.
  Proof. unfold dvalues. rewrite map_map. apply map_id. Qed.

  Lemma before_more : forall a b, before dets a b -> before (dets ++ extra) a b.
  Proof. intros a b (l1 & l2 & l3 & E). exists l1, l2, (l3 ++ extra). rewrite E, <- !app_assoc. cbn. rewrite <- app_assoc. reflexivity. Qed.

  Lemma prio_total : forall (ds : list (elem A)) d d', In d ds -> In d' ds -> d <> d' -> higher_priority ds d d' \/ higher_priority ds d' d.
  Proof.
    intros ds d d' I I' N. destruct (Qlt_le_dec (e_score d) (e_score d')) as [L|L]; [right; left; exact L|].
    destruct (Qlt_le_dec (e_score d') (e_score d)) as [L'|L']; [left; left; exact L'|].
    destruct (before_total _ ds d d' I I' N) as [B|B]; [left|right]; right; (split; [lra|exact B]).
  Qed.

  Lemma prio_less : forall d d', In d dets -> In d' dets -> higher_priority (dets ++ extra) d d' -> higher_priority dets d d'.
  Proof.
    intros d d' I I' [L|[E B]]; [left; exact L|]. right. split; [exact E|].
    assert (N : d <> d') by (eapply before_neq_NoDup; [exact nd_all|exact B]).
    destruct (before_total _ dets d d' I I' N) as [B'|B']; [exact B'|]. exfalso. eapply before_asym_NoDup; [exact nd_all|exact B|apply before_more; exact B'].
  Qed.
  Lemma prio_more : forall d d', higher_priority dets d d' -> higher_priority (dets ++ extra) d d'.
  Proof. intros d d' [L|[E B]]; [left; exact L|right; split; [exact E|apply before_more; exact B]]. Qed.

  Lemma pref_total : forall d g g', In g gts -> In g' gts -> g <> g' -> prefers sim gts d g g' \/ prefers sim gts d g' g.
  Proof.
    intros d g g' I I' N. destruct (Qlt_le_dec (sim d g) (sim d g')) as [L|L]; [right; left; exact L|].
    destruct (Qlt_le_dec (sim d g') (sim d g)) as [L'|L']; [left; left; exact L'|].
    destruct (before_total _ gts g g' I I' N) as [B|B]; [right|left]; right; (split; [lra|exact B]).
  Qed.

  Lemma gt_dec : forall g g', In g gts -> In g' gts -> g = g' \/ g <> g'.
  Proof.
    intros g g' I I'. destruct (string_dec (e_id g) (e_id g')) as [E|E]; [left; eapply NoDup_map_inj; eassumption|right; intros ->; apply E; reflexivity].
  Qed.
  Lemma det_dec : forall d d', In d (dets ++ extra) -> In d' (dets ++ extra) -> d = d' \/ d <> d'.
  Proof.
    intros g g' I I'. destruct (string_dec (e_id g) (e_id g')) as [E|E]; [left; eapply NoDup_map_inj; [exact Nd| | |]; eassumption|right; intros ->; apply E; reflexivity].
  Qed.

  Lemma agree : forall d, In d dets -> forall g, M d g <-> M' d g.
  Proof.
    destruct ST as [[O1 O2 O3 O4 O5] NB]. destruct ST' as [[P1 P2 P3 P4 P5] NB'].
    assert (K : forall pre post, sort_dets s = pre ++ post -> forall d, In d pre -> forall g, M d g <-> M' d g).
    2:{ intros d D. apply (K (sort_dets s) [] (eq_sym (app_nil_r _))). apply sort_dets_In. rewrite values. exact D. }
    intros pre. induction pre as [|x pre IH] using rev_ind; intros post E d I; [destruct I|].
    rewrite <- app_assoc in E. cbn [app] in E. apply in_app_or in I. destruct I as [I|[<-|[]]]; [exact (IH _ E d I)|]. specialize (IH _ E).
    assert (X : In x dets) by (rewrite <- values; apply sort_dets_In; rewrite E; apply in_or_app; right; left; reflexivity).
    assert (Xa : In x (dets ++ extra)) by (apply in_or_app; left; exact X).
    assert (EARLY : forall d', In d' dets -> higher_priority dets d' x -> In d' pre).
    { intros d' I' HP. assert (J : In d' (sort_dets s)) by (apply sort_dets_In; rewrite values; exact I').
      assert (PR := sort_dets_prio s). rewrite values in PR. specialize (PR nd_dets).
      assert (B := proj2 (PR d' x) (conj I' (conj X HP))).
      rewrite E in J. apply in_app_or in J. destruct J as [J|[->|J]]; [exact J| |]; exfalso.
      - assert (ND : NoDup (sort_dets s)) by (eapply Permutation_NoDup; [apply sort_dets_perm|rewrite values; exact nd_dets]).
        exact (before_neq_NoDup _ _ _ _ ND B eq_refl).
      - assert (ND : NoDup (sort_dets s)) by (eapply Permutation_NoDup; [apply sort_dets_perm|rewrite values; exact nd_dets]).
        apply in_split in J. destruct J as (l2 & l3 & ->). refine (before_asym_NoDup _ _ _ _ ND B _). exists pre, l2, l3. exact E. }
    (* whoever holds g before x does so in both *)
    assert (F1 : forall g d', M' d' g -> ~ M' x g -> In g gts -> (M x g \/ forall d0, In d0 pre -> ~ M d0 g) -> higher_priority (dets ++ extra) x d').
    { intros g d' Md N G C. assert (D' := P1 _ _ Md). destruct (det_dec x d' Xa D') as [->|NE]; [contradiction|].
      destruct (prio_total _ x d' Xa D' NE) as [HP|HP]; [exact HP|]. exfalso.
      apply in_app_or in D'. destruct D' as [D'|D'].
      - assert (Q := EARLY d' D' (prio_less _ _ D' X HP)). assert (Md0 := proj2 (IH d' Q g) Md). destruct C as [C|C]; [|exact (C d' Q Md0)].
        apply NE. exact (O5 _ _ _ C Md0).
      - destruct (H d' D') as [L|L].
        + specialize (L x X). destruct HP as [HP|[HP _]]; lra.
        + specialize (L g G). specialize (P3 _ _ Md). lra. }
    assert (F2 : forall g d', M d' g -> ~ M x g -> (M' x g \/ forall d0, In d0 pre -> ~ M' d0 g) -> higher_priority dets x d').
    { intros g d' Md N C. assert (D' := O1 _ _ Md). destruct (det_dec x d' Xa (in_or_app _ _ _ (or_introl D'))) as [->|NE]; [contradiction|].
      destruct (prio_total _ x d' X D' NE) as [HP|HP]; [exact HP|]. exfalso. assert (Q := EARLY d' D' HP). assert (Md0 := proj1 (IH d' Q g) Md).
      destruct C as [C|C]; [|exact (C d' Q Md0)]. apply NE. exact (P5 _ _ _ C Md0). }
    assert (FWD : forall g, M x g -> M' x g).
    { intros g Mg. assert (G := O2 _ _ Mg). destruct (DM' x X) as [(g' & Mg')|N].
      - assert (G' := P2 _ _ Mg'). destruct (gt_dec g g' G G') as [->|NE]; [exact Mg'|]. exfalso.
        destruct (pref_total x g g' G G' NE) as [PF|PF].
        + apply (NB' x g). split; [exact Xa|]. split; [exact G|]. split; [exact (O3 _ _ Mg)|]. split.
          * intros g'' Mg''. rewrite (P4 _ _ _ Mg'' Mg'). exact PF.
          * intros d' Md'. apply (F1 g d' Md'); [intro Z; apply NE; exact (P4 _ _ _ Z Mg')|exact G|left; exact Mg].
        + apply (NB x g'). split; [exact X|]. split; [exact G'|]. split; [exact (P3 _ _ Mg')|]. split.
          * intros g'' Mg''. rewrite (O4 _ _ _ Mg'' Mg). exact PF.
          * intros d' Md'. apply (F2 g' d' Md'); [intro Z; apply NE; exact (O4 _ _ _ Mg Z)|left; exact Mg'].
      - exfalso. apply (NB' x g). split; [exact Xa|]. split; [exact G|]. split; [exact (O3 _ _ Mg)|]. split.
        + intros g'' Mg''. destruct (N g'' Mg'').
        + intros d' Md'. apply (F1 g d' Md'); [apply N|exact G|left; exact Mg]. }
    intro g. split; [apply FWD|]. intro Mg. destruct (DM x X) as [(g' & Mg')|N].
    - assert (g = g') by exact (P4 _ _ _ Mg (FWD _ Mg')). subst g'. exact Mg'.
    - exfalso. assert (G := P2 _ _ Mg). apply (NB x g). split; [exact X|]. split; [exact G|]. split; [exact (P3 _ _ Mg)|]. split.
      + intros g'' Mg''. destruct (N g'' Mg'').
      + intros d' Md'. apply (F2 g d' Md'); [apply N|left; exact Mg].
  Qed.
End Agree.

(** Verdicts. *)
Section Judged.
  Context {A : Type}.
  Variable M : elem A -> elem A -> Prop.

  Lemma judged_length : forall ds vs ss, judged M ds vs ss -> List.length vs = List.length ss.
  Proof. intros ds vs ss J. induction J; cbn; congruence. Qed.

  Lemma judged_dec : forall ds vs ss, judged M ds vs ss -> forall d, In d ds -> (exists g, M d g) \/ (forall g, ~ M d g).
  Proof. intros ds vs ss J. induction J; intros x I; [destruct I|..]; (destruct I as [<-|I]; [eauto|exact (IHJ x I)]). Qed.

  Lemma judged_app : forall a b vs ss, judged M (a ++ b) vs ss -> exists va sa vb sb,
    judged M a va sa /\ judged M b vb sb /\ vs = va ++ vb /\ ss = sa ++ sb.
  Proof.
    intros a b. induction a as [|d a IH]; intros vs ss J.
    - exists [], [], vs, ss. split; [constructor|]. split; [exact J|]. split; reflexivity.
    - cbn [app] in J. inversion J as [|d0 g ds v s Md Ev J'|d0 g ds v s Md Ev J'|d0 ds v s N J']; subst;
        destruct (IH _ _ J') as (va & sa & vb & sb & Ja & Jb & -> & ->).
      + exists (true :: va), (e_score d :: sa), vb, sb. split; [econstructor; eassumption|]. split; [exact Jb|]. split; reflexivity.
      + exists va, sa, vb, sb. split; [eapply judged_ignored; eassumption|]. split; [exact Jb|]. split; reflexivity.
      + exists (false :: va), (e_score d :: sa), vb, sb. split; [eapply judged_false; eassumption|]. split; [exact Jb|]. split; reflexivity.
  Qed.

  Lemma judged_fun : (forall d g g', M d g -> M d g' -> g = g') -> forall ds vs ss vs' ss',
    judged M ds vs ss -> judged M ds vs' ss' -> vs = vs' /\ ss = ss'.
  Proof.
    intros F ds vs ss vs' ss' J. revert vs' ss'.
    induction J as [|d g ds vs ss Md Ev J IH|d g ds vs ss Md Ev J IH|d ds vs ss N J IH]; intros vs' ss' J'.
    - inversion J'; subst. auto.
    - inversion J' as [|d0 g' ds0 v s Md' Ev' J0|d0 g' ds0 v s Md' Ev' J0|d0 ds0 v s N' J0]; subst.
      + destruct (IH _ _ J0) as (-> & ->). auto.
      + rewrite (F _ _ _ Md Md') in Ev. congruence.
      + destruct (N' _ Md).
    - inversion J' as [|d0 g' ds0 v s Md' Ev' J0|d0 g' ds0 v s Md' Ev' J0|d0 ds0 v s N' J0]; subst.
      + rewrite (F _ _ _ Md Md') in Ev. congruence.
      + exact (IH _ _ J0).
      + destruct (N' _ Md).
    - inversion J' as [|d0 g' ds0 v s Md' Ev' J0|d0 g' ds0 v s Md' Ev' J0|d0 ds0 v s N' J0]; subst.
      + destruct (N _ Md').
      + destruct (N _ Md').
      + destruct (IH _ _ J0) as (-> & ->). auto.
  Qed.

  Lemma judged_entry : forall ds vs ss, judged M ds vs ss -> forall v s, In (v, s) (combine vs ss) ->
    exists d, In d ds /\ s = e_score d /\ (v = true -> exists g, M d g) /\ (v = false -> forall g, ~ M d g).
  Proof.
    intros ds vs ss J. induction J as [|d g ds vs ss Md Ev J IH|d g ds vs ss Md Ev J IH|d ds vs ss N J IH]; intros v s I; cbn [combine] in I.
    - destruct I.
    - destruct I as [I|I].
      + injection I as <- <-. exists d. split; [left; reflexivity|]. split; [reflexivity|]. split; [eauto|discriminate].
      + destruct (IH v s I) as (x & X & Y). exists x. split; [right; exact X|exact Y].
    - destruct (IH v s I) as (x & X & Y). exists x. split; [right; exact X|exact Y].
    - destruct I as [I|I].
      + injection I as <- <-. exists d. split; [left; reflexivity|]. split; [reflexivity|]. split; [discriminate|auto].
      + destruct (IH v s I) as (x & X & Y). exists x. split; [right; exact X|exact Y].
  Qed.
End Judged.

(** Rankings as sorted lists. *)
Notation falling := (StronglySorted (fun a b : bool * Q => snd b <= snd a)).

Lemma combine_app : forall X Y (a b : list X) (c d : list Y), List.length a = List.length c -> combine (a ++ b) (c ++ d) = combine a c ++ combine b d.
Proof.
  intros X Y a. induction a as [|x a IH]; intros b c d L; destruct c as [|y c]; try discriminate; [reflexivity|]. injection L as L. cbn. rewrite IH by exact L. reflexivity.
Qed.

Lemma combine_seq : forall (vs : list bool) (ss : list Q), List.length vs = List.length ss ->
  combine vs ss = map (fun i => (nth i vs false, nth i ss 0)) (seq 0 (List.length ss)).
Proof.
  intros vs. induction vs as [|v vs IH]; intros ss L; destruct ss as [|s ss]; try discriminate; [reflexivity|]. injection L as L.
  cbn [combine List.length seq map nth]. f_equal. rewrite IH by exact L. rewrite <- seq_shift, map_map. reflexivity.
Qed.

Lemma ranking_sorted : forall vs ss rk, List.length vs = List.length ss -> ranking vs ss rk ->
  exists P, Permutation P (combine vs ss) /\ falling P /\ rk = map fst P.
Proof.
  intros vs ss rk L (order & P & S & ->). exists (map (fun i => (nth i vs false, nth i ss 0)) order). split; [|split].
  - rewrite combine_seq by exact L. apply Permutation_map. exact P.
  - clear P. induction S as [|i order S IH F]; [constructor|]. cbn [map]. constructor; [exact IH|].
    clear -F. induction F; constructor; assumption.
  - rewrite map_map. reflexivity.
Qed.

Lemma sorted_unique : forall P R : list (bool * Q), Permutation P R -> falling P -> falling R ->
  (forall a b, In a P -> In b P -> snd a == snd b -> a = b) -> P = R.
Proof.
  intros P. induction P as [|a P IH]; intros R PR SP SR H; [apply Permutation_nil in PR; auto|].
  destruct R as [|b R]; [apply Permutation_sym, Permutation_nil in PR; discriminate|].
  assert (E : a = b).
  { assert (Ib : In b (a :: P)) by (eapply Permutation_in; [apply Permutation_sym; exact PR|left; reflexivity]).
    assert (Ia : In a (b :: R)) by (eapply Permutation_in; [exact PR|left; reflexivity]).
    destruct Ib as [->|Ib]; [reflexivity|]. destruct Ia as [->|Ia]; [reflexivity|].
    apply H; [left; reflexivity|right; exact Ib|]. inversion SP as [|? ? _ FP]; subst. inversion SR as [|? ? _ FR]; subst.
    rewrite Forall_forall in FP, FR. specialize (FP _ Ib). specialize (FR _ Ia). cbn in *. lra. }
  subst b. f_equal. apply IH.
  - eapply Permutation_cons_inv. exact PR.
  - inversion SP; assumption.
  - inversion SR; assumption.
  - intros x y X Y. apply H; right; assumption.
Qed.

Lemma falling_filter : forall f P, falling P -> falling (filter f P).
Proof.
  intros f P S. induction S as [|a P S IH F]; [constructor|]. cbn [filter]. destruct (f a); [|exact IH]. constructor; [exact IH|].
  rewrite Forall_forall in *. intros x I. apply filter_In in I. apply F, I.
Qed.

Lemma falling_split : forall f P, falling P -> (forall a b, snd b <= snd a -> f b = true -> f a = true) ->
  P = filter f P ++ filter (fun x => negb (f x)) P.
Proof.
  intros f P S H. induction S as [|a P S IH F]; [reflexivity|]. cbn [filter]. destruct (f a) eqn:E; cbn [negb app]; [congruence|].
  assert (N : filter f P = []).
  { rewrite Forall_forall in F. clear -F E H. induction P as [|b P IH]; [reflexivity|]. cbn [filter]. destruct (f b) eqn:Eb.
    - rewrite (H a b (F b (or_introl eq_refl)) Eb) in E. discriminate.
    - apply IH. intros; apply F; right; assumption. }
  rewrite N. cbn [app]. f_equal. rewrite IH at 1. rewrite N. reflexivity.
Qed.

Lemma filter_true : forall X (f : X -> bool) l, (forall x, In x l -> f x = true) -> filter f l = l.
Proof. intros X f l H. induction l as [|x l IH]; [reflexivity|]. cbn. rewrite (H x) by (left; reflexivity). f_equal. apply IH. intros; apply H; right; assumption. Qed.
Lemma filter_false : forall X (f : X -> bool) l, (forall x, In x l -> f x = false) -> filter f l = [].
Proof. intros X f l H. induction l as [|x l IH]; [reflexivity|]. cbn. rewrite (H x) by (left; reflexivity). apply IH. intros; apply H; right; assumption. Qed.

Lemma filter_shorter : forall X (f : X -> bool) l, (List.length (filter f l) <= List.length l)%nat.
Proof. intros X f l. induction l as [|x l IH]; cbn [filter List.length]; [lia|]. destruct (f x); cbn [List.length]; lia. Qed.
Lemma perm_filter : forall T (f : T -> bool) (l m : list T), Permutation l m -> Permutation (filter f l) (filter f m).
Proof.
  intros T f l m P. induction P as [|x l m P IH|x y l|l m k P IH Q IH2]; cbn [filter]; [constructor| | |].
  - destruct (f x); [constructor|]; exact IH.
  - destruct (f x), (f y); try apply Permutation_refl. constructor.
  - exact (Permutation_trans IH IH2).
Qed.

Definition uniform (L : list (bool * Q)) : Prop := forall a b, In a L -> In b L -> snd a == snd b -> a = b.

(** Entries below all others come last. *)
Lemma ranks_low : forall L E P P', uniform L -> (forall a b, In a E -> In b L -> snd a < snd b) ->
  Permutation P L -> falling P -> Permutation P' (L ++ E) -> falling P' -> exists R, P' = P ++ R.
Proof.
  intros L E P P' U H PL SP PL' SP'. set (f := fun x : bool * Q => existsb (fun y => Qle_bool (snd y) (snd x)) L).
  assert (FL : forall x, In x L -> f x = true) by (intros x I; apply existsb_exists; exists x; split; [exact I|apply Qle_bool_iff, Qle_refl]).
  assert (FE : forall x, In x E -> f x = false).
  { intros x I. destruct (f x) eqn:Ex; [|reflexivity]. apply existsb_exists in Ex as (y & Iy & Q). apply Qle_bool_iff in Q. specialize (H x y I Iy). lra. }
  assert (Z : P = filter f P').
  { apply sorted_unique; [|exact SP|apply falling_filter; exact SP'|].
    - eapply perm_trans; [exact PL|]. apply Permutation_sym. eapply perm_trans; [apply perm_filter; exact PL'|].
      rewrite filter_app, (filter_true _ _ _ FL), (filter_false _ _ _ FE), app_nil_r. apply Permutation_refl.
    - intros a b Ia Ib. apply U; (eapply Permutation_in; [exact PL|assumption]). }
  exists (filter (fun x => negb (f x)) P'). rewrite Z. apply falling_split; [exact SP'|].
  intros a b Q I. apply existsb_exists in I as (y & Iy & I). apply existsb_exists. exists y. split; [exact Iy|]. apply Qle_bool_iff in I. apply Qle_bool_iff. lra.
Qed.

(** Entries with other scores are inserted without moving the rest. *)
Lemma ranks_other : forall L E P P', uniform L -> (forall a b, In a E -> In b L -> ~ snd a == snd b) -> (forall a, In a E -> fst a = false) ->
  Permutation P L -> falling P -> Permutation P' (L ++ E) -> falling P' ->
  exists f, P = filter f P' /\ forall a, In a P' -> f a = false -> fst a = false.
Proof.
  intros L E P P' U H V PL SP PL' SP'. set (f := fun x : bool * Q => existsb (fun y => Qeq_bool (snd y) (snd x)) L).
  assert (FL : forall x, In x L -> f x = true) by (intros x I; apply existsb_exists; exists x; split; [exact I|apply Qeq_bool_iff, Qeq_refl]).
  assert (FE : forall x, In x E -> f x = false).
  { intros x I. destruct (f x) eqn:Ex; [|reflexivity]. apply existsb_exists in Ex as (y & Iy & Q). apply Qeq_bool_iff in Q. destruct (H x y I Iy (Qeq_sym _ _ Q)). }
  exists f. split.
  - apply sorted_unique; [|exact SP|apply falling_filter; exact SP'|].
    + eapply perm_trans; [exact PL|]. apply Permutation_sym. eapply perm_trans; [apply perm_filter; exact PL'|].
      rewrite filter_app, (filter_true _ _ _ FL), (filter_false _ _ _ FE), app_nil_r. apply Permutation_refl.
    + intros a b Ia Ib. apply U; (eapply Permutation_in; [exact PL|assumption]).
  - intros a I N. apply V. apply (Permutation_in _ PL') in I. apply in_app_or in I as [I|I]; [rewrite (FL a I) in N; discriminate|exact I].
Qed.

Lemma good_prefix : forall r m, at_least_as_good (r ++ m) r.
Proof.
  intros r m j J C. exists j. split; [lia|]. split; [rewrite app_length; lia|]. unfold correct_upto. rewrite firstn_app.
  replace (S j - List.length r)%nat with 0%nat by lia. cbn [firstn]. rewrite app_nil_r. lia.
Qed.

Lemma good_filter : forall (f : bool * Q -> bool) P, (forall a, In a P -> f a = false -> fst a = false) ->
  at_least_as_good (map fst (filter f P)) (map fst P).
Proof.
  intros f P H j J C. set (F := firstn (S j) P).
  assert (E : forall l, (forall a, In a l -> f a = false -> fst a = false) ->
    List.length (filter (fun b => b) (map fst (filter f l))) = List.length (filter (fun b => b) (map fst l))).
  { clear. intros l. induction l as [|a l IH]; intro H; [reflexivity|]. cbn [filter map]. assert (IH' := IH (fun x I => H x (or_intror I))). destruct (f a) eqn:Ea.
    - cbn [map filter]. destruct (fst a); cbn [List.length]; congruence.
    - rewrite (H a (or_introl eq_refl) Ea). exact IH'. }
  assert (IN : forall a, In a F -> f a = false -> fst a = false).
  { intros a I. apply H. rewrite <- (firstn_skipn (S j) P). apply in_or_app. left. exact I. }
  assert (EF := E F IN).
  assert (C0 : correct_upto (S j) (map fst P) = List.length (filter (fun b => b) (map fst F))) by (unfold correct_upto; rewrite firstn_map; reflexivity).
  rewrite C0 in *. clear C0.
  assert (LF : (0 < List.length (filter f F))%nat).
  { destruct (filter f F) eqn:Z; [rewrite <- EF in C; cbn [map filter List.length] in C; lia|cbn; lia]. }
  assert (LE : (List.length (filter f F) <= S j)%nat).
  { eapply Nat.le_trans; [apply filter_shorter|]. subst F. rewrite firstn_length. lia. }
  assert (SP : filter f P = filter f F ++ filter f (skipn (S j) P)) by (rewrite <- filter_app; subst F; rewrite firstn_skipn; reflexivity).
  exists (List.length (filter f F) - 1)%nat. rewrite SP, map_app. split; [lia|]. split; [rewrite app_length, map_length; lia|].
  unfold correct_upto at 1. replace (S (List.length (filter f F) - 1)) with (List.length (map fst (filter f F))) by (rewrite map_length; lia).
  rewrite firstn_app, Nat.sub_diag, firstn_all. cbn [firstn]. rewrite app_nil_r, EF. lia.
Qed.

Section Ap.
  Context {A : Type}.
  Variables (sim : elem A -> elem A -> Q) (dets extra gts : list (elem A)) (t : Q).
  Hypotheses (Nd : NoDup (map e_id (dets ++ extra))) (Ng : NoDup (map e_id gts)).
  Hypothesis D : distinct_scores dets.

  Lemma judged_uniform : forall (M : elem A -> elem A -> Prop) vs ss, (forall d g g', M d g -> M d g' -> g = g') -> judged M dets vs ss -> uniform (combine vs ss).
  Proof.
    intros M vs ss F J [v s] [v' s'] I I' E. cbn in E.
    destruct (judged_entry M _ _ _ J v s I) as (d & Id & -> & Tt & Tf). destruct (judged_entry M _ _ _ J v' s' I') as (d' & Id' & -> & Tt' & Tf').
    assert (d = d') by (apply D; assumption). subst d'. f_equal. destruct v, v'; try reflexivity; exfalso.
    - destruct (Tt eq_refl) as (g & Mg). exact (Tf' eq_refl g Mg).
    - destruct (Tt' eq_refl) as (g & Mg). exact (Tf eq_refl g Mg).
  Qed.

  (** The two runs, side by side. *)
  Lemma both : (forall x, In x extra -> (forall d, In d dets -> e_score x < e_score d) \/ (forall g, In g gts -> sim x g < t)) ->
    forall a a', scene_ap sim dets gts t a -> scene_ap sim (dets ++ extra) gts t a' ->
    exists (M' : elem A -> elem A -> Prop) vs ss vb sb P P', judged M' extra vb sb /\ (forall d g, M' d g -> In g gts /\ t <= sim d g) /\ uniform (combine vs ss) /\
      (forall v s, In (v, s) (combine vs ss) -> exists d, In d dets /\ s = e_score d) /\
      Permutation P (combine vs ss) /\ falling P /\ ap_of (map fst P) (n_evaluated gts) a /\
      Permutation P' (combine vs ss ++ combine vb sb) /\ falling P' /\ ap_of (map fst P') (n_evaluated gts) a'.
  Proof.
    intros H a a' (M & vs & ss & rk & ST & J & R & AP) (M' & vs' & ss' & rk' & ST' & J' & R' & AP').
    destruct (judged_app M' _ _ _ _ J') as (va & sa & vb & sb & Ja & Jb & -> & ->).
    assert (AG := agree sim dets extra gts t Nd Ng H M M' ST ST' (judged_dec M _ _ _ J) (judged_dec M' _ _ _ Ja)).
    assert (Jm : judged M' dets vs ss) by (eapply judged_ext; [|exact J]; intros d g I; apply AG; exact I).
    assert (F' : forall d g g', M' d g -> M' d g' -> g = g') by (destruct ST' as [[_ _ _ O4 _] _]; exact O4).
    destruct (judged_fun M' F' _ _ _ _ _ Ja Jm) as (-> & ->).
    assert (L1 := judged_length _ _ _ _ J). assert (L2 := judged_length _ _ _ _ Jb).
    destruct (ranking_sorted _ _ _ L1 R) as (P & PP & SP & ->).
    assert (L3 : List.length (vs ++ vb) = List.length (ss ++ sb)) by (rewrite !app_length; lia).
    destruct (ranking_sorted _ _ _ L3 R') as (P' & PP' & SP' & ->). rewrite combine_app in PP' by exact L1.
    exists M', vs, ss, vb, sb, P, P'. split; [exact Jb|]. split.
    { destruct ST' as [[_ O2 O3 _ _] _]. intros d g Mg. split; [exact (O2 _ _ Mg)|exact (O3 _ _ Mg)]. }
    split; [eapply judged_uniform; eassumption|]. split.
    { intros v s I. destruct (judged_entry M' _ _ _ Jm v s I) as (d & Id & E & _). eauto. }
    repeat (split; [assumption|]). assumption.
  Qed.

  Lemma low_ap : lower extra dets -> forall a a', (0 < n_evaluated gts)%nat ->
    scene_ap sim dets gts t a -> scene_ap sim (dets ++ extra) gts t a' -> a <= a'.
  Proof.
    intros H a a' N S S'. destruct (both (fun x I => or_introl (fun d Id => H x d I Id)) a a' S S')
      as (M' & vs & ss & vb & sb & P & P' & Jb & _ & U & W & PP & SP & AP & PP' & SP' & AP').
    assert (HL : forall a b, In a (combine vb sb) -> In b (combine vs ss) -> snd a < snd b).
    { intros [v s] [w r] I I'. destruct (judged_entry M' _ _ _ Jb v s I) as (x & Ix & -> & _). destruct (W w r I') as (d & Id & ->). cbn. apply H; assumption. }
    destruct (ranks_low _ _ P P' U HL PP SP PP' SP') as (R & ->). apply (ap_of_monotone (map fst P) (map fst (P ++ R)) (n_evaluated gts) a a' N); [|exact AP|exact AP']. rewrite map_app. apply good_prefix.
  Qed.

  Lemma useless_ap : useless sim extra gts [t] -> untied extra dets -> forall a a', (0 < n_evaluated gts)%nat ->
    scene_ap sim dets gts t a -> scene_ap sim (dets ++ extra) gts t a' -> a' <= a.
  Proof.
    intros H U0 a a' N S S'. destruct (both (fun x I => or_intror (fun g Ig => H x g t I Ig (or_introl eq_refl))) a a' S S')
      as (M' & vs & ss & vb & sb & P & P' & Jb & TH & U & W & PP & SP & AP & PP' & SP' & AP').
    assert (HL : forall a b, In a (combine vb sb) -> In b (combine vs ss) -> ~ snd a == snd b).
    { intros [v s] [w r] I I'. destruct (judged_entry M' _ _ _ Jb v s I) as (x & Ix & -> & _). destruct (W w r I') as (d & Id & ->). cbn. apply U0; assumption. }
    assert (HV : forall a, In a (combine vb sb) -> fst a = false).
    { intros [v s] I. destruct (judged_entry M' _ _ _ Jb v s I) as (x & Ix & -> & Tt & _). cbn. destruct v; [|reflexivity]. exfalso.
      destruct (Tt eq_refl) as (g & Mg). destruct (TH _ _ Mg) as (G & Th). specialize (H x g t Ix G (or_introl eq_refl)). lra. }
    destruct (ranks_other _ _ P P' U HL HV PP SP PP' SP') as (f & -> & Hf). apply (ap_of_monotone (map fst P') (map fst (filter f P')) (n_evaluated gts) a' a N); [|exact AP'|exact AP]. apply good_filter. exact Hf.
  Qed.
End Ap.

(** Means over the thresholds. *)
Lemma forall2_perm : forall X Y (R : X -> Y -> Prop) l l' m, Permutation l l' -> Forall2 R l m -> exists m', Permutation m m' /\ Forall2 R l' m'.
Proof.
  intros X Y R l l' m P. revert m. induction P as [|x l l' P IH|x y l|l l' l'' P IH P2 IH2]; intros m F.
  - inversion F; subst. exists []. auto.
  - inversion F as [|? z ? m0 R0 F0]; subst. destruct (IH _ F0) as (m' & Q1 & Q2). exists (z :: m'). split; constructor; assumption.
  - inversion F as [|? z ? m0 R0 F0]; subst. inversion F0 as [|? z' ? m1 R1 F1]; subst. exists (z' :: z :: m1). split; [constructor|repeat constructor; assumption].
  - destruct (IH _ F) as (m1 & Q1 & Q2). destruct (IH2 _ Q2) as (m2 & Q3 & Q4). exists m2. split; [exact (perm_trans Q1 Q3)|exact Q4].
Qed.

Lemma sum_perm : forall l m, Permutation l m -> fold_right Qplus 0 l == fold_right Qplus 0 m.
Proof. intros l m P. induction P; cbn [fold_right]; [reflexivity|rewrite IHP; reflexivity|ring|rewrite IHP1; exact IHP2]. Qed.

Lemma sum_mono : forall l m, Forall2 Qle l m -> fold_right Qplus 0 l <= fold_right Qplus 0 m.
Proof. intros l m F. induction F; cbn [fold_right]; [apply Qle_refl|apply Qplus_le_compat; assumption]. Qed.

Lemma mean_mono : forall l m m' r r', Forall2 Qle l m -> Permutation m' m -> mean_or_nan l r -> mean_or_nan m' r' -> no_lower r r'.
Proof.
  intros l m m' r r' F P Hl Hm. assert (S := sum_mono _ _ F). rewrite <- (sum_perm _ _ P) in S.
  assert (L : List.length l = List.length m') by (rewrite (Permutation_length P); clear -F; induction F; cbn; congruence).
  destruct l as [|x l], m' as [|y m']; try discriminate; cbn in Hl, Hm; destruct r as [s|], r' as [s'|]; cbn; try contradiction; try discriminate; auto.
  destruct Hl as (_ & E1). destruct Hm as (_ & E2). rewrite <- L in E2.
  assert (0 < inject_Z (Z.of_nat (List.length (x :: l)))) by (change 0 with (inject_Z 0); rewrite <- Zlt_Qlt; cbn [List.length]; lia).
  apply (Qmult_le_r _ _ (inject_Z (Z.of_nat (List.length (x :: l))))); [assumption|]. rewrite E1, E2. exact S.
Qed.

Lemma concat_perm : forall X (l m : list (list X)), Permutation l m -> Permutation (List.concat l) (List.concat m).
Proof.
  intros X l m P. induction P; cbn [List.concat]; [constructor|apply Permutation_app_head; assumption| |eapply perm_trans; eassumption].
  rewrite !app_assoc. apply Permutation_app_tail, Permutation_app_comm.
Qed.
