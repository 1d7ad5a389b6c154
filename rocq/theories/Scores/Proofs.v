From Coq Require Import List Bool String QArith ZArith Permutation Arith Lia Lqa.
From Verif.Base Require Import Py PyFacts Sort.
From Verif.Assoc Require Import Model Spec Proofs.
From Verif.AP Require Import Model Spec Proofs Props.
From Verif.Scores Require Import Model Spec.
Import ListNotations.

Section P.
  Context {A : Type}.
  Variable sim : elem A -> elem A -> Q.

  Lemma det_vectors_cons : forall assoc (d : elem A) ds,
    det_vectors assoc (d :: ds) =
      (map fst (det_entry assoc d) ++ fst (det_vectors assoc ds),
       map snd (det_entry assoc d) ++ snd (det_vectors assoc ds)).
  Proof. intros. unfold det_vectors; simpl. rewrite !map_app. reflexivity. Qed.

  Lemma judged_ext : forall (M M' : elem A -> elem A -> Prop) ds vs ss,
    (forall d g, In d ds -> (M d g <-> M' d g)) -> judged M ds vs ss -> judged M' ds vs ss.
  Proof.
    intros M M' ds vs ss H J. induction J.
    - constructor.
    - econstructor; eauto. apply H; simpl; auto. apply IHJ. intros; apply H; right; auto.
    - eapply judged_ignored; eauto. apply H; simpl; auto. apply IHJ. intros; apply H; right; auto.
    - constructor.
      + intros g Hg. apply (H0 g). apply H; simpl; auto.
      + apply IHJ. intros; apply H; right; auto.
  Qed.

  Lemma judged_det_vectors : forall (dets gts : list (elem A)) assoc,
    NoDup (map e_id gts) -> faithful sim dets gts assoc ->
    forall ds, incl ds dets ->
    judged (pairs dets gts assoc) ds (map verdict (fst (det_vectors assoc ds))) (snd (det_vectors assoc ds)).
  Proof.
    intros dets gts assoc Hg Hf. induction ds as [|d ds IH]; intro Hi; [constructor|].
    rewrite det_vectors_cons; simpl fst; simpl snd.
    assert (IH' := IH (fun x Hx => Hi x (or_intror Hx))). unfold det_entry.
    assert (Hd : In d dets) by (apply Hi; left; reflexivity).
    destruct (sget (e_id d) assoc) as [c|] eqn:E.
    - destruct (Hf _ _ E) as (d' & g & Hd' & Hg' & Eid & _ & Ec & _ & _ & Ee).
      assert (M : pairs dets gts assoc d g).
      { split; [exact Hd|]. split; [exact Hg'|]. exists c. auto. }
      destruct (c_eval c) eqn:Ev; simpl.
      + eapply judged_correct; [exact M|congruence|exact IH'].
      + eapply judged_ignored; [exact M|congruence|exact IH'].
    - simpl. apply judged_false; [|exact IH'].
      intros g (_ & _ & c & Ec & _). congruence.
  Qed.

  Lemma det_vectors_length : forall assoc (ds : list (elem A)),
    List.length (snd (det_vectors assoc ds)) = List.length (fst (det_vectors assoc ds)).
  Proof. intros. unfold det_vectors; simpl. rewrite !map_length. reflexivity. Qed.

  (** Correct detections inject into the evaluated elements. *)
  Lemma judged_count : forall (M : elem A -> elem A -> Prop) ds vs ss gts,
    judged M ds vs ss -> NoDup ds ->
    (forall d g, M d g -> In g gts) -> (forall d d' g, M d g -> M d' g -> d = d') ->
    exists gs, List.length gs = List.length (filter (fun b => b) vs) /\ NoDup gs /\
      (forall g, In g gs -> In g (filter e_evaluated gts) /\ exists d, In d ds /\ M d g).
  Proof.
    intros M ds vs ss gts J Hnd Hin Hinj. induction J.
    - exists []. split; [reflexivity|]. split; [constructor|]. intros g [].
    - inversion Hnd; subst. destruct (IHJ H4) as (gs & L & N & I).
      exists (g :: gs). split; [simpl; congruence|]. split.
      + constructor; [|exact N]. intro Hx. destruct (I g Hx) as (_ & d' & Hd' & Hm).
        rewrite (Hinj d d' g H Hm) in H3. contradiction.
      + intros x [<-|Hx].
        * split; [apply filter_In; split; [eapply Hin; eauto|assumption]|].
          exists d; split; [left; reflexivity|assumption].
        * destruct (I x Hx) as (Y & d' & Hd' & Hm). split; [exact Y|]. exists d'; split; [right; exact Hd'|exact Hm].
    - inversion Hnd; subst. destruct (IHJ H4) as (gs & L & N & I). exists gs. split; [exact L|]. split; [exact N|].
      intros x Hx. destruct (I x Hx) as (Y & d' & Hd' & Hm). split; [exact Y|]. exists d'; split; [right; exact Hd'|exact Hm].
    - inversion Hnd; subst. destruct (IHJ H3) as (gs & L & N & I). exists gs. split; [exact L|]. split; [exact N|].
      intros x Hx. destruct (I x Hx) as (Y & d' & Hd' & Hm). split; [exact Y|]. exists d'; split; [right; exact Hd'|exact Hm].
  Qed.

  Lemma n_correct_verdict : forall ms, n_correct ms = List.length (filter (fun b => b) (map verdict ms)).
  Proof. intro ms. unfold n_correct. rewrite filter_map_comm, map_length. reflexivity. Qed.

  Lemma vectors_count : forall (sub gt : @scene A) t, keyed_by_id sub -> keyed_by_id gt ->
    (n_correct (fst (det_vectors (assoc_at sim sub gt t) (dvalues sub))) <= n_evaluated (elements gt))%nat.
  Proof.
    intros sub gt t Kd Kg.
    assert (J := judged_det_vectors _ _ _ (keyed_nodup _ Kg) (faithful_at sim sub gt t Kd Kg)
                   (dvalues sub) (incl_refl _)).
    destruct (stable_at sim sub gt t Kd Kg) as [[_ O2 _ _ O5] _].
    destruct (judged_count _ _ _ _ (elements gt) J) as (gs & L & N & I).
    - eapply NoDup_map_NoDup, keyed_nodup; exact Kd.
    - exact O2.
    - exact O5.
    - rewrite n_correct_verdict, <- L. unfold n_evaluated. apply NoDup_incl_length; [exact N|].
      intros g Hg. apply I; exact Hg.
  Qed.

  (** One AP computation over a keyed pair of scenes. *)
  Lemma ap_step : forall argsort (sub gt : @scene A) t interp, argsort_ok argsort ->
    keyed_by_id sub -> keyed_by_id gt -> (0 < n_evaluated (elements gt))%nat ->
    let '(ms, ss) := det_vectors (assoc_at sim sub gt t) (dvalues sub) in
    exists ap p r, compute_ap argsort ms ss (n_evaluated (elements gt)) None interp true = Ok (Some ap, p, r) /\
      0 <= ap <= 1 /\ scene_ap sim (elements sub) (elements gt) t ap.
  Proof.
    intros argsort sub gt t interp Ha Kd Kg Hn.
    assert (J := judged_det_vectors _ _ _ (keyed_nodup _ Kg) (faithful_at sim sub gt t Kd Kg)
                   (dvalues sub) (incl_refl _)).
    assert (Hc := vectors_count sub gt t Kd Kg).
    assert (Hl := det_vectors_length (assoc_at sim sub gt t) (dvalues sub)).
    destruct (det_vectors (assoc_at sim sub gt t) (dvalues sub)) as [ms ss]. simpl in *.
    destruct (C08_ap_is_area argsort ms ss (n_evaluated (elements gt)) Ha ltac:(lia) Hn)
      as (ap & p & r & rk & E & Hr & Hap).
    exists ap, p, r. split; [unfold compute_ap; rewrite E; reflexivity|].
    split; [exact (proj1 (C06_ap_bounds argsort ms ss _ ap p r Ha Hl Hn Hc E))|].
    exists (pairs (elements sub) (elements gt) (assoc_at sim sub gt t)), (map verdict ms), ss, rk.
    split; [apply stable_at; assumption|]. auto.
  Qed.

  Lemma ap_step_det : forall argsort (sub gt : @scene A) t interp, argsort_ok argsort ->
    keyed_by_id sub -> keyed_by_id gt -> (0 < n_evaluated (elements gt))%nat ->
    exists ap, 0 <= ap <= 1 /\ scene_ap sim (elements sub) (elements gt) t ap /\
    (let '(ms, ss) := det_vectors (assoc_at sim sub gt t) (dvalues sub) in
     let* r := compute_ap argsort ms ss (n_evaluated (elements gt)) None interp true in
     Ok [fst (fst r)]) = Ok [Some ap].
  Proof.
    intros argsort sub gt t interp Ha Kd Kg Hn.
    assert (H := ap_step argsort sub gt t interp Ha Kd Kg Hn).
    destruct (det_vectors (assoc_at sim sub gt t) (dvalues sub)) as [ms ss].
    destruct H as (ap & p & r & E & B & S). exists ap. rewrite E. auto.
  Qed.

  Lemma np_mean_is_mean : forall l q, is_mean l q <-> l <> [] /\ exists m, np_mean l = Some m /\ m == q.
  Proof.
    intros l q. unfold is_mean.
    assert (Hp : l <> [] -> 0 < Qnat (List.length l)).
    { intro H. apply Qnat_pos. destruct l; [contradiction H; reflexivity|simpl; lia]. }
    assert (Hm : l <> [] -> np_mean l = Some (Qsum l / Qnat (List.length l))).
    { intro H. destruct l; [contradiction H; reflexivity|reflexivity]. }
    change (inject_Z (Z.of_nat (List.length l))) with (Qnat (List.length l)).
    change (fold_right Qplus 0 l) with (Qsum l).
    split; intros [Hv H]; (split; [exact Hv|]); specialize (Hp Hv).
    - exists (Qsum l / Qnat (List.length l)). split; [exact (Hm Hv)|].
      rewrite <- H. field. intro E. rewrite E in Hp. lra.
    - destruct H as (m & E & Em). rewrite (Hm Hv) in E. injection E as <-. rewrite <- Em.
      field. intro E. rewrite E in Hp. lra.
  Qed.

  Lemma mean_opt_some : forall l : list Q, mean_opt (map Some l) = np_mean l.
  Proof.
    intro l. unfold mean_opt.
    replace (existsb _ (map Some l)) with false.
    - f_equal. induction l; simpl; congruence.
    - induction l; simpl; auto.
  Qed.

  Lemma is_mean_bounds : forall l q, is_mean l q -> (forall x, In x l -> 0 <= x <= 1) -> 0 <= q <= 1.
  Proof.
    intros l q H Hb. apply np_mean_is_mean in H as [_ (m & E & Em)]. rewrite <- Em.
    exact (mean_bounds l m E Hb).
  Qed.

  (** Running a step over a list when every step appends one AP. *)
  Lemma mapM_concat_one : forall B (f : B -> res (list (option Q))) (P : B -> Q -> Prop) l,
    (forall b, In b l -> exists ap, f b = Ok [Some ap] /\ P b ap) ->
    exists aps, mapM f l = Ok (map (fun a => [Some a]) aps) /\ Forall2 P l aps.
  Proof.
    intros B f P. induction l as [|b l IH]; intro H; [exists []; split; [reflexivity|constructor]|].
    destruct (H b (or_introl eq_refl)) as (ap & E & Hp).
    destruct IH as (aps & El & Hl); [intros; apply H; right; assumption|].
    exists (ap :: aps). split; [|constructor; assumption].
    cbn [mapM]. rewrite E. cbn [bind]. rewrite El. reflexivity.
  Qed.

  Lemma concat_ones : forall l : list Q, List.concat (map (fun a => [Some a]) l) = map Some l.
  Proof. induction l; simpl; congruence. Qed.

  Lemma init_fields : forall (sub gt : @scene A) ts cats ev, evaluator_init sim sub gt ts cats = Ok ev ->
    ev_thresholds ev = sort_thresholds ts /\ ev_categories ev = cats /\
    ev_submission ev = sub /\ ev_ground_truth ev = gt.
  Proof.
    intros sub gt ts cats ev H. unfold evaluator_init in H.
    destruct (compute_agnostic _ _ _) as [a|e]; [|discriminate]. cbn [bind] in H.
    destruct (compute_category _ _ _ _ _) as [c|e]; [|discriminate]. cbn [bind] in H.
    injection H as <-. auto.
  Qed.

  Lemma sort_thresholds_In : forall ts t, In t (sort_thresholds ts) <-> In t ts.
  Proof. intros. unfold sort_thresholds. rewrite isort_In. reflexivity. Qed.

  Lemma of_category_by_category : forall cat (s : @scene A),
    elements (by_category cat s) = of_category cat (elements s).
  Proof.
    intros cat s. unfold elements, by_category, of_category. rewrite filter_map_comm. f_equal.
    apply filter_ext. intros [k e]; simpl. destruct (string_dec (e_category e) cat) as [->|Hne].
    - apply String.eqb_refl.
    - apply String.eqb_neq; exact Hne.
  Qed.

  Lemma filter_by_category : forall cat (s : @scene A),
    filter (fun e => String.eqb (e_category e) cat) (dvalues s) = dvalues (by_category cat s).
  Proof. intros. unfold dvalues, by_category. rewrite filter_map_comm. reflexivity. Qed.

  Lemma cat_count_spec : forall (ev : @evaluator A) cat,
    cat_count ev cat = n_evaluated (elements (by_category cat (ev_ground_truth ev))).
  Proof. intros. unfold cat_count, count_evaluated. rewrite filter_by_category. reflexivity. Qed.

  Lemma cat_vectors_ok : forall (sub gt : @scene A) ts cats ev t cat,
    keyed_by_id sub -> keyed_by_id gt -> evaluator_init sim sub gt ts cats = Ok ev ->
    In t ts -> In cat cats ->
    cat_vectors ev t cat = Ok (det_vectors (assoc_at sim (by_category cat sub) (by_category cat gt) t)
                                 (dvalues (by_category cat sub))).
  Proof.
    intros sub gt ts cats ev t cat Kd Kg H Ht Hc.
    destruct (init_fields _ _ _ _ _ H) as (F1 & F2 & F3 & F4).
    unfold cat_vectors. rewrite F3, filter_by_category.
    destruct (dvalues (by_category cat sub)) as [|e els] eqn:Ed; [reflexivity|].
    destruct (keyed_init_ok sim sub gt ts cats Kd Kg) as (ev0 & E0 & Hcat).
    assert (ev0 = ev) by congruence. subst ev0.
    destruct (Hcat cat) as [H1 _].
    destruct (H1 Hc) as (r & Er & Eg).
    { left. intro E. rewrite E in Ed. discriminate. }
    unfold dgetE at 1. rewrite Eg. cbn [bind]. unfold dgetE.
    erewrite (compute_agnostic_get sim); [reflexivity| | |exact Er|exact Ht];
      eapply keyed_nodup, (by_category_keyed sim); assumption.
  Qed.
End P.
