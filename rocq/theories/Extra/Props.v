(** Property C80: detections added to a submission. *)
From Coq Require Import List Bool String QArith ZArith Permutation Lia Lqa.
From Verif.Base Require Import Py PyFacts Sort.
From Verif.Assoc Require Import Model Spec Proofs Props.
From Verif.AP Require Import Model Spec Proofs.
From Verif.Scores Require Import Model Spec Proofs Props.
From Verif.Extra Require Import Spec Proofs.
Import ListNotations.
Local Open Scope string_scope.
Local Open Scope list_scope.
Local Open Scope Q_scope.

Section Add.
  Context {A : Type}.
  Variables (sim : elem A -> elem A -> Q) (sub extra gt : list (string * elem A)).
  Hypotheses (Ks : keyed_by_id (sub ++ extra)) (Kg : keyed_by_id gt).

  Lemma keyed_less : keyed_by_id sub.
  Proof.
    destruct Ks as (N & H). split; [rewrite map_app in N; eapply NoDup_app_l; exact N|]. intros k e I. apply H. apply in_or_app. left. exact I.
  Qed.

  Lemma ids_all : NoDup (map e_id (elements sub ++ elements extra)).
  Proof. assert (N := keyed_nodup _ Ks). unfold dvalues in N. rewrite map_app in N. exact N. Qed.

  Lemma ids_gt : NoDup (map e_id (elements gt)).
  Proof. exact (keyed_nodup _ Kg). Qed.

  Lemma elements_app : elements (sub ++ extra) = elements sub ++ elements extra.
  Proof. apply map_app. Qed.
End Add.

Lemma pairs_dec : forall A (sim : elem A -> elem A -> Q) sub gt t, keyed_by_id sub -> keyed_by_id gt ->
  forall d, In d (elements sub) -> (exists g, pairs (elements sub) (elements gt) (assoc_at sim sub gt t) d g) \/
    (forall g, ~ pairs (elements sub) (elements gt) (assoc_at sim sub gt t) d g).
Proof.
  intros A sim sub gt t Ks Kg d D. destruct (sget (e_id d) (assoc_at sim sub gt t)) as [c|] eqn:E.
  - left. destruct (faithful_at sim sub gt t Ks Kg _ _ E) as (d' & g' & _ & G & _ & _ & Ec & _). exists g'. split; [exact D|]. split; [exact G|]. exists c; auto.
  - right. intros g (_ & _ & c & E' & _). congruence.
Qed.

(** Detections that are less confident than all others, or are not similar enough to
    anything, leave the matches of the others as they are. *)
Theorem C80_matches : forall A (sim : elem A -> elem A -> Q) (sub extra gt : scene) ts cats ev ev',
  keyed_by_id (sub ++ extra) -> keyed_by_id gt ->
  evaluator_init sim sub gt ts cats = Ok ev -> evaluator_init sim (sub ++ extra) gt ts cats = Ok ev' ->
  forall t, In t ts -> lower (elements extra) (elements sub) \/ useless sim (elements extra) (elements gt) [t] ->
  exists assoc assoc', dget Qeq_bool t (ev_agnostic ev) = Some assoc /\ dget Qeq_bool t (ev_agnostic ev') = Some assoc' /\
    forall d g, In d (elements sub) ->
      (pairs (elements sub) (elements gt) assoc d g <-> pairs (elements (sub ++ extra)) (elements gt) assoc' d g).
Proof.
  intros A sim sub extra gt ts cats ev ev' Ks Kg E E' t It H. assert (Kl := keyed_less _ _ Ks).
  exists (assoc_at sim sub gt t), (assoc_at sim (sub ++ extra) gt t).
  split; [exact (keyed_agnostic sim sub gt ts cats ev t Kl Kg E It)|]. split; [exact (keyed_agnostic sim _ gt ts cats ev' t Ks Kg E' It)|].
  assert (ST := stable_at sim sub gt t Kl Kg). assert (ST' := stable_at sim (sub ++ extra) gt t Ks Kg).
  assert (DM := pairs_dec _ sim sub gt t Kl Kg). assert (DM' := pairs_dec _ sim (sub ++ extra) gt t Ks Kg).
  rewrite elements_app in *. intros d g D.
  refine (agree sim (elements sub) (elements extra) (elements gt) t (ids_all sub extra Ks) (ids_gt gt Kg) _ _ _ ST ST' DM _ d D g).
  - intros x I. destruct H as [H|H]; [left; intros y Iy; exact (H x y I Iy)|right; intros y Iy; exact (H x y t I Iy (or_introl eq_refl))].
  - intros x I. apply DM'. apply in_or_app. left. exact I.
Qed.

(** Scores of two submissions whose average precisions are ordered. *)
Lemma shape_mono : forall A (sim : elem A -> elem A -> Q) argsort (s1 s2 gt : scene) ts cats e1 e2,
  argsort_ok argsort -> keyed_by_id s1 -> keyed_by_id s2 -> keyed_by_id gt ->
  evaluator_init sim s1 gt ts cats = Ok e1 -> evaluator_init sim s2 gt ts cats = Ok e2 ->
  (forall t a b, In t ts -> (0 < n_evaluated (elements gt))%nat -> scene_ap sim (elements s1) (elements gt) t a -> scene_ap sim (elements s2) (elements gt) t b -> a <= b) ->
  exists r1 r2, shape_score argsort e1 = Ok r1 /\ shape_score argsort e2 = Ok r2 /\ no_lower r1 r2.
Proof.
  intros A sim argsort s1 s2 gt ts cats e1 e2 Ha K1 K2 Kg E1 E2 H.
  destruct (C13_shape_score_is_mean_ap A sim argsort s1 gt ts cats e1 Ha K1 Kg E1) as (r1 & S1 & P1 & Z1).
  destruct (C13_shape_score_is_mean_ap A sim argsort s2 gt ts cats e2 Ha K2 Kg E2) as (r2 & S2 & P2 & Z2).
  exists r1, r2. split; [exact S1|]. split; [exact S2|].
  destruct (Nat.eq_dec (n_evaluated (elements gt)) 0) as [Z|Z]; [rewrite (Z1 Z), (Z2 Z); exact I|].
  assert (N : (0 < n_evaluated (elements gt))%nat) by lia. destruct (P1 N) as (o1 & a1 & Q1 & F1 & _ & M1). destruct (P2 N) as (o2 & a2 & Q2 & F2 & _ & M2).
  destruct (forall2_perm _ _ _ _ o1 _ (perm_trans Q2 (Permutation_sym Q1)) F2) as (a3 & Q3 & F3).
  apply (mean_mono a1 a3 a2); [|exact Q3|exact M1|exact M2].
  assert (I : forall t, In t o1 -> In t ts) by (intros t; apply Permutation_in; exact Q1). clear -F1 F3 H N I. revert a3 F3.
  induction F1 as [|t a o1 a1 S F IH]; intros a3 F3; inversion F3 as [|? b ? a4 S' F']; subst; constructor.
  - apply (H t a b); [apply I; left; reflexivity|exact N|exact S|exact S'].
  - apply IH; [intros; apply I; right; assumption|exact F'].
Qed.

Lemma semantics_mono : forall A (sim : elem A -> elem A -> Q) argsort (s1 s2 gt : scene) ts cats e1 e2,
  argsort_ok argsort -> keyed_by_id s1 -> keyed_by_id s2 -> keyed_by_id gt ->
  evaluator_init sim s1 gt ts cats = Ok e1 -> evaluator_init sim s2 gt ts cats = Ok e2 ->
  (forall t c a b, In t ts -> (0 < n_evaluated (of_category c (elements gt)))%nat ->
    scene_ap sim (of_category c (elements s1)) (of_category c (elements gt)) t a -> scene_ap sim (of_category c (elements s2)) (of_category c (elements gt)) t b -> a <= b) ->
  exists r1 r2, semantics_score argsort e1 = Ok r1 /\ semantics_score argsort e2 = Ok r2 /\ no_lower r1 r2.
Proof.
  intros A sim argsort s1 s2 gt ts cats e1 e2 Ha K1 K2 Kg E1 E2 H.
  destruct (C13_semantics_score_is_mean_ap A sim argsort s1 gt ts cats e1 Ha K1 Kg E1) as (r1 & o1 & w1 & S1 & Q1 & F1 & _ & M1).
  destruct (C13_semantics_score_is_mean_ap A sim argsort s2 gt ts cats e2 Ha K2 Kg E2) as (r2 & o2 & w2 & S2 & Q2 & F2 & _ & M2).
  exists r1, r2. split; [exact S1|]. split; [exact S2|].
  destruct (forall2_perm _ _ _ _ o1 _ (perm_trans Q2 (Permutation_sym Q1)) F2) as (w3 & Q3 & F3).
  apply (mean_mono (List.concat w1) (List.concat w3) (List.concat w2)); [|apply concat_perm; exact Q3|exact M1|exact M2].
  assert (I : forall t, In t o1 -> In t ts) by (intros t; apply Permutation_in; exact Q1). clear -F1 F3 H I. revert w3 F3.
  assert (X : forall c, In c (scored_categories cats (elements gt)) -> (0 < n_evaluated (of_category c (elements gt)))%nat).
  { intros c Ic. apply filter_In in Ic as [_ Ic]. apply Nat.ltb_lt. exact Ic. }
  induction F1 as [|t a o1 a1 S F IH]; intros w3 F3; inversion F3 as [|? b ? a4 S' F']; subst; cbn [List.concat]; [constructor|]. apply Forall2_app.
  - assert (It := I t (or_introl eq_refl)). clear -S S' H It X. revert b S'. induction S as [|c x cs row S0 S IH]; intros b S'; inversion S' as [|? y ? row' S0' S1']; subst; constructor.
    + apply (H t c x y); [exact It|apply X; left; reflexivity|exact S0|exact S0'].
    + apply IH; [intros; apply X; right; assumption|exact S1'].
  - apply IH; [intros; apply I; right; assumption|exact F'].
Qed.

Lemma category_in : forall A c (l : list (elem A)) x, In x (of_category c l) -> In x l.
Proof. intros A c l x I. apply filter_In in I. tauto. Qed.
Lemma category_app : forall A c (l m : list (elem A)), of_category c (l ++ m) = of_category c l ++ of_category c m.
Proof. intros. apply filter_app. Qed.
Lemma category_nodup : forall A c (l : list (elem A)), NoDup (map e_id l) -> NoDup (map e_id (of_category c l)).
Proof. intros. apply NoDup_map_filter. assumption. Qed.

(** Adding detections less confident than everything submitted never lowers a score. *)
Theorem C80_low : forall A (sim : elem A -> elem A -> Q) argsort (sub extra gt : scene) ts cats ev ev',
  argsort_ok argsort -> keyed_by_id (sub ++ extra) -> keyed_by_id gt ->
  evaluator_init sim sub gt ts cats = Ok ev -> evaluator_init sim (sub ++ extra) gt ts cats = Ok ev' ->
  distinct_scores (elements sub) -> lower (elements extra) (elements sub) ->
  (exists r r', shape_score argsort ev = Ok r /\ shape_score argsort ev' = Ok r' /\ no_lower r r') /\
  (exists r r', semantics_score argsort ev = Ok r /\ semantics_score argsort ev' = Ok r' /\ no_lower r r').
Proof.
  intros A sim argsort sub extra gt ts cats ev ev' Ha Ks Kg E E' D L. assert (Kl := keyed_less _ _ Ks).
  assert (Ni := ids_all _ _ Ks). assert (Ng := ids_gt _ Kg). split.
  - apply (shape_mono A sim argsort sub (sub ++ extra) gt ts cats ev ev' Ha Kl Ks Kg E E'). intros t a b It N. rewrite elements_app.
    apply low_ap; assumption.
  - apply (semantics_mono A sim argsort sub (sub ++ extra) gt ts cats ev ev' Ha Kl Ks Kg E E'). intros t c a b It N. rewrite elements_app, category_app.
    apply low_ap; [rewrite <- category_app; apply category_nodup; exact Ni|apply category_nodup; exact Ng| | |exact N].
    + intros x y Ix Iy. apply D; eapply category_in; eassumption.
    + intros x y Ix Iy. apply L; eapply category_in; eassumption.
Qed.

(** Adding detections that are similar to nothing never raises a score. *)
Theorem C80_useless : forall A (sim : elem A -> elem A -> Q) argsort (sub extra gt : scene) ts cats ev ev',
  argsort_ok argsort -> keyed_by_id (sub ++ extra) -> keyed_by_id gt ->
  evaluator_init sim sub gt ts cats = Ok ev -> evaluator_init sim (sub ++ extra) gt ts cats = Ok ev' ->
  distinct_scores (elements sub) -> untied (elements extra) (elements sub) -> useless sim (elements extra) (elements gt) ts ->
  (exists r r', shape_score argsort ev = Ok r /\ shape_score argsort ev' = Ok r' /\ no_lower r' r) /\
  (exists r r', semantics_score argsort ev = Ok r /\ semantics_score argsort ev' = Ok r' /\ no_lower r' r).
Proof.
  intros A sim argsort sub extra gt ts cats ev ev' Ha Ks Kg E E' D U L. assert (Kl := keyed_less _ _ Ks).
  assert (Ni := ids_all _ _ Ks). assert (Ng := ids_gt _ Kg). split.
  - destruct (shape_mono A sim argsort (sub ++ extra) sub gt ts cats ev' ev Ha Ks Kl Kg E' E) as (r & r' & H1 & H2 & H3); [|exists r', r; auto].
    intros t a b It N S S'. rewrite elements_app in S. refine (useless_ap sim _ _ _ t Ni Ng D _ U b a N S' S).
    intros x g t' Ix Ig [<-|[]]. apply L; assumption.
  - destruct (semantics_mono A sim argsort (sub ++ extra) sub gt ts cats ev' ev Ha Ks Kl Kg E' E) as (r & r' & H1 & H2 & H3); [|exists r', r; auto].
    intros t c a b It N S S'. rewrite elements_app, category_app in S.
    refine (useless_ap sim _ _ _ t _ (category_nodup _ _ _ Ng) _ _ _ b a N S' S).
    + rewrite <- category_app. apply category_nodup. exact Ni.
    + intros x y Ix Iy. apply D; eapply category_in; eassumption.
    + intros x g t' Ix Ig [<-|[]]. apply L; [eapply category_in; exact Ix|eapply category_in; exact Ig|exact It].
    + intros x y Ix Iy. apply U; eapply category_in; eassumption.
Qed.

(** Detections of both kinds change nothing. *)
Theorem C80_unchanged : forall A (sim : elem A -> elem A -> Q) argsort (sub extra gt : scene) ts cats ev ev',
  argsort_ok argsort -> keyed_by_id (sub ++ extra) -> keyed_by_id gt ->
  evaluator_init sim sub gt ts cats = Ok ev -> evaluator_init sim (sub ++ extra) gt ts cats = Ok ev' ->
  distinct_scores (elements sub) -> lower (elements extra) (elements sub) -> useless sim (elements extra) (elements gt) ts ->
  (exists r r', shape_score argsort ev = Ok r /\ shape_score argsort ev' = Ok r' /\ same_score r r') /\
  (exists r r', semantics_score argsort ev = Ok r /\ semantics_score argsort ev' = Ok r' /\ same_score r r').
Proof.
  intros A sim argsort sub extra gt ts cats ev ev' Ha Ks Kg E E' D L U.
  assert (UT : untied (elements extra) (elements sub)) by (intros x d Ix Id Eq; specialize (L x d Ix Id); lra).
  assert (X : forall r r' s s', Ok r = Ok s -> Ok r' = Ok s' -> no_lower r r' -> no_lower s' s -> same_score r r').
  { intros r r' s s' X Y. injection X as <-. injection Y as <-. destruct r, r'; cbn; auto. intros. lra. }
  destruct (C80_low A sim argsort sub extra gt ts cats ev ev' Ha Ks Kg E E' D L) as ((r1 & r1' & A1 & A2 & A3) & (q1 & q1' & B1 & B2 & B3)).
  destruct (C80_useless A sim argsort sub extra gt ts cats ev ev' Ha Ks Kg E E' D UT U) as ((r2 & r2' & C1 & C2 & C3) & (q2 & q2' & D1 & D2 & D3)).
  split; [exists r1, r1'|exists q1, q1']; (split; [assumption|]; split; [assumption|]).
  - apply (X r1 r1' r2 r2'); congruence.
  - apply (X q1 q1' q2 q2'); congruence.
Qed.

(** Two lamps. The detections d1 and d2 find one each. The detection x is much like the
    first lamp, y like neither. *)
Definition ex_sim (d g : elem unit) : Q :=
  if orb (andb (String.eqb (e_id d) "d1") (String.eqb (e_id g) "g1")) (orb (andb (String.eqb (e_id d) "d2") (String.eqb (e_id g) "g2"))
    (andb (String.eqb (e_id d) "x") (String.eqb (e_id g) "g1"))) then 9 # 10 else 1 # 10.
Definition ex_elem (i : string) (s : Q) : string * elem unit := (i, mkElem i "lamp" s true tt).
Definition ex_sub := [ex_elem "d1" (1 # 2); ex_elem "d2" (2 # 5)].
Definition ex_gt := [ex_elem "g1" 1; ex_elem "g2" 1].
Definition ex_score (extra : list (string * elem unit)) : res (option Q) :=
  let* ev := evaluator_init ex_sim (ex_sub ++ extra) ex_gt [1 # 2] ["lamp"] in shape_score stable_argsort ev.

Lemma ex_keyed : forall i s, i <> "d1" -> i <> "d2" -> keyed_by_id (ex_sub ++ [ex_elem i s]).
Proof.
  intros i s N1 N2. split.
  - cbn. repeat constructor; cbn; intuition (try discriminate; try congruence).
  - intros k e I. cbn in I. destruct I as [I|[I|[I|[]]]]; injection I as <- <-; reflexivity.
Qed.

(** One more detection of an object that is evaluated can cost points: x is confident,
    takes the first lamp, and d1, now of no use, ranks before d2. *)
Theorem C80_correct_refuted : exists (sim : elem unit -> elem unit -> Q) (sub gt : scene) x ts cats ev ev' assoc g a b,
  keyed_by_id (sub ++ [(e_id x, x)]) /\ keyed_by_id gt /\ distinct_scores (elements (sub ++ [(e_id x, x)])) /\
  evaluator_init sim sub gt ts cats = Ok ev /\ evaluator_init sim (sub ++ [(e_id x, x)]) gt ts cats = Ok ev' /\
  (exists t, In t ts /\ dget Qeq_bool t (ev_agnostic ev') = Some assoc) /\
  pairs (elements (sub ++ [(e_id x, x)])) (elements gt) assoc x g /\ e_evaluated g = true /\
  shape_score stable_argsort ev = Ok (Some a) /\ shape_score stable_argsort ev' = Ok (Some b) /\ b < a.
Proof.
  set (x := snd (ex_elem "x" (3 # 4))).
  assert (Kx : keyed_by_id (ex_sub ++ [(e_id x, x)])) by (apply ex_keyed; discriminate).
  assert (Kg : keyed_by_id ex_gt).
  { split; [cbn; repeat constructor; cbn; intuition discriminate|]. intros k e I. cbn in I. destruct I as [I|[I|[]]]; injection I as <- <-; reflexivity. }
  assert (Kl := keyed_less _ _ Kx).
  destruct (keyed_init_ok ex_sim ex_sub ex_gt [1 # 2] ["lamp"] Kl Kg) as (ev & E & _).
  destruct (keyed_init_ok ex_sim (ex_sub ++ [(e_id x, x)]) ex_gt [1 # 2] ["lamp"] Kx Kg) as (ev' & E' & _).
  assert (S1 : exists a, shape_score stable_argsort ev = Ok (Some a) /\ (9 # 10) < a).
  { assert (Z : (let* e := evaluator_init ex_sim ex_sub ex_gt [1 # 2] ["lamp"] in shape_score stable_argsort e) = shape_score stable_argsort ev) by (rewrite E; reflexivity).
    rewrite <- Z. eexists. split; vm_compute; reflexivity. }
  assert (S2 : exists b, shape_score stable_argsort ev' = Ok (Some b) /\ b < (9 # 10)).
  { assert (Z : (let* e := evaluator_init ex_sim (ex_sub ++ [(e_id x, x)]) ex_gt [1 # 2] ["lamp"] in shape_score stable_argsort e) = shape_score stable_argsort ev') by (rewrite E'; reflexivity).
    rewrite <- Z. eexists. split; vm_compute; reflexivity. }
  destruct S1 as (a & S1 & L1). destruct S2 as (b & S2 & L2).
  exists ex_sim, ex_sub, ex_gt, x, [1 # 2], ["lamp"], ev, ev', (assoc_at ex_sim (ex_sub ++ [(e_id x, x)]) ex_gt (1 # 2)), (snd (ex_elem "g1" 1)), a, b.
  split; [exact Kx|]. split; [exact Kg|]. split.
  { intros d d' I I' Eq. cbn in I, I'. destruct I as [<-|[<-|[<-|[]]]]; destruct I' as [<-|[<-|[<-|[]]]]; try reflexivity; exfalso; cbn in Eq; discriminate. }
  split; [exact E|]. split; [exact E'|]. split.
  { exists (1 # 2). split; [left; reflexivity|]. exact (keyed_agnostic ex_sim _ ex_gt _ _ ev' (1 # 2) Kx Kg E' (or_introl eq_refl)). }
  split.
  { split; [cbn; auto|]. split; [cbn; auto|]. eexists. split; [vm_compute; reflexivity|reflexivity]. }
  split; [reflexivity|]. split; [exact S1|]. split; [exact S2|]. lra.
Qed.

(** y as a last resort is harmless, with much confidence it costs points; x as a last
    resort is harmless. *)
Example C80_example : exists s s1 s2 s3,
  ex_score [] = Ok (Some s) /\ ex_score [ex_elem "y" (1 # 10)] = Ok (Some s1) /\ ex_score [ex_elem "x" (1 # 10)] = Ok (Some s2) /\
  ex_score [ex_elem "y" 1] = Ok (Some s3) /\ s1 == s /\ s2 == s /\ s3 < s.
Proof.
  do 4 eexists. split; [vm_compute; reflexivity|]. split; [vm_compute; reflexivity|]. split; [vm_compute; reflexivity|].
  split; [vm_compute; reflexivity|]. split; [vm_compute; reflexivity|]. split; vm_compute; reflexivity.
Qed.

(** The premises hold of these scenes. *)
Example C80_example_premises :
  keyed_by_id (ex_sub ++ [ex_elem "y" (1 # 10)]) /\ distinct_scores (elements ex_sub) /\
  lower (elements [ex_elem "y" (1 # 10)]) (elements ex_sub) /\ useless ex_sim (elements [ex_elem "y" (1 # 10)]) (elements ex_gt) [1 # 2] /\
  untied (elements [ex_elem "y" 1]) (elements ex_sub).
Proof.
  split; [apply ex_keyed; discriminate|]. split.
  { intros d d' I I' Eq. cbn in I, I'. destruct I as [<-|[<-|[]]]; destruct I' as [<-|[<-|[]]]; try reflexivity; exfalso; cbn in Eq; discriminate. }
  split; [intros x d [<-|[]] [<-|[<-|[]]]; reflexivity|]. split; [intros x g t [<-|[]] [<-|[<-|[]]] [<-|[]]; reflexivity|].
  intros x d [<-|[]] [<-|[<-|[]]]; discriminate.
Qed.

Print Assumptions C80_matches.
Print Assumptions C80_low.
Print Assumptions C80_useless.
Print Assumptions C80_unchanged.
Print Assumptions C80_correct_refuted.
