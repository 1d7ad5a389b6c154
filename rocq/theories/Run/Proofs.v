(** Evaluators seen through some attributes of their elements. *)
From Coq Require Import Reals List Bool String QArith ZArith Permutation Lia Lqa Lra Qreals.
From Verif.Base Require Import Py PyFacts Sort Vec.
From Verif.Geom Require Import Model.
From Verif.Box Require Import Model Spec.
From Verif.Symm Require Import Model.
From Verif.Assoc Require Import Model Spec Proofs Props.
From Verif.AP Require Import Model Spec Proofs.
From Verif.Scores Require Import Model Spec Proofs Props.
From Verif.Points Require Import Model Spec Proofs Props.
From Verif.PoseErr Require Import Model Spec Proofs Props.
From Verif.Percept Require Import Model Spec Proofs Props.
From Verif.Extra Require Import Proofs Props.
From Verif.Settings Require Import Model Spec Proofs Props.
From Verif.Run Require Import Model Spec.
Import ListNotations.
Local Open Scope string_scope.
Local Open Scope list_scope.

Section Project.
  Context {A B : Type}.
  Variable f : A -> B.
  Notation pe := (@project_elem A B f).
  Notation ps := (@project_scene A B f).

  Lemma values_ps : forall s, dvalues (ps s) = map pe (dvalues s).
  Proof. intro s. unfold dvalues, project_scene. rewrite !map_map. reflexivity. Qed.
  Lemma keys_ps : forall s, dkeys (ps s) = dkeys s.
  Proof. intro s. unfold dkeys, project_scene. rewrite map_map. reflexivity. Qed.
  Lemma elements_ps : forall s, elements (ps s) = map pe (elements s).
  Proof. exact values_ps. Qed.
  Lemma sget_ps : forall k s, sget k (ps s) = option_map pe (sget k s).
  Proof. intros k. induction s as [|[k0 e] s IH]; [reflexivity|]. cbn. destruct (String.eqb k k0); [reflexivity|exact IH]. Qed.
  Lemma keyed_ps : forall s, keyed_by_id s -> keyed_by_id (ps s).
  Proof.
    intros s [N K]. split.
    - change (NoDup (dkeys (ps s))). rewrite keys_ps. exact N.
    - intros k e H. unfold project_scene in H. apply in_map_iff in H. destruct H as ([k' e'] & E & I). injection E as <- <-. exact (K k' e' I).
  Qed.

  Lemma fold_left_map : forall X Y S (g : Y -> X) (h : S -> X -> S) l s, fold_left h (map g l) s = fold_left (fun s y => h s (g y)) l s.
  Proof. intros X Y S g h. induction l as [|y l IH]; intros s; [reflexivity|]. cbn. apply IH. Qed.
  Lemma fold_left_ext_in : forall X S (h k : S -> X -> S) l, (forall s x, In x l -> h s x = k s x) -> forall s, fold_left h l s = fold_left k l s.
  Proof.
    intros X S h k. induction l as [|x l IH]; intros H s; [reflexivity|]. cbn. rewrite (H s x (or_introl eq_refl)). apply IH. intros; apply H; right; assumption.
  Qed.
  Lemma foldM_map : forall X Y S (g : Y -> X) (h : S -> X -> res S) l s, foldM h s (map g l) = foldM (fun s y => h s (g y)) s l.
  Proof. intros X Y S g h. induction l as [|y l IH]; intros s; [reflexivity|]. cbn. destruct (h s (g y)); [apply IH|reflexivity]. Qed.
  Lemma foldM_ext : forall X S (h k : S -> X -> res S) l, (forall s x, h s x = k s x) -> forall s, foldM h s l = foldM k s l.
  Proof. intros X S h k l H. induction l as [|x l IH]; intros s; [reflexivity|]. cbn. rewrite H. destruct (k s x); [apply IH|reflexivity]. Qed.

  Lemma sort_dets_ps : forall s, sort_dets (ps s) = map pe (sort_dets s).
  Proof. intro s. unfold sort_dets. rewrite values_ps. apply isort_map. Qed.

  Lemma assoc_one_ps : forall s c, assoc_one (ps s) c = assoc_one s c.
  Proof. intros s c. unfold assoc_one. rewrite sort_dets_ps, foldM_map. reflexivity. Qed.

  Lemma assoc_loop_ps : forall s ts c acc, assoc_loop (ps s) c acc ts = assoc_loop s c acc ts.
  Proof. intros s. induction ts as [|t ts IH]; intros c acc; [reflexivity|]. cbn [assoc_loop]. rewrite assoc_one_ps. destruct (assoc_one s _); [apply IH|reflexivity]. Qed.

  Lemma agnostic_ps : forall s ts c, compute_agnostic (ps s) ts c = compute_agnostic s ts c.
  Proof. intros. apply assoc_loop_ps. Qed.

  Lemma by_category_ps : forall c s, by_category c (ps s) = ps (by_category c s).
  Proof. intros c s. unfold by_category, project_scene. rewrite filter_map_comm. reflexivity. Qed.

  Lemma category_ps : forall dets gts ts cats cache, compute_category (ps dets) (ps gts) ts cats cache = compute_category dets gts ts cats cache.
  Proof.
    intros dets gts ts cats cache. unfold compute_category. apply foldM_ext. intros acc c. cbv zeta. rewrite !by_category_ps.
    assert (L : forall s, List.length (ps s) = List.length s) by (intro; apply map_length). rewrite !L.
    destruct (Nat.eqb _ _); [reflexivity|].
    assert (C : cat_cache (ps (by_category c dets)) (ps (by_category c gts)) cache = cat_cache (by_category c dets) (by_category c gts) cache).
    { unfold cat_cache. rewrite !keys_ps. reflexivity. }
    rewrite C. clear C. destruct (cat_cache (by_category c dets) (by_category c gts) cache) as [cc|]; [|reflexivity]. cbn [bind]. rewrite agnostic_ps. reflexivity.
  Qed.

  Variables (sim : elem A -> elem A -> Q) (sim' : elem B -> elem B -> Q) (sub gt : @scene A).
  Hypothesis HS : forall d g, In d (elements sub) -> In g (elements gt) -> sim' (pe d) (pe g) = sim d g.

  Lemma cache_ps : make_similarity_cache sim' (ps sub) (ps gt) = make_similarity_cache sim sub gt.
  Proof.
    unfold make_similarity_cache. rewrite values_ps, fold_left_map. apply fold_left_ext_in. intros cache d D. f_equal.
    unfold cache_row. rewrite values_ps, fold_left_map. apply fold_left_ext_in. intros row g G. rewrite HS; auto.
  Qed.

  Lemma init_ps : forall ts cats, evaluator_init sim' (ps sub) (ps gt) ts cats =
    (let* ev := evaluator_init sim sub gt ts cats in Ok (project f ev)).
  Proof.
    intros ts cats. unfold evaluator_init. rewrite cache_ps, agnostic_ps.
    destruct (compute_agnostic sub _ _) as [agn|]; [|reflexivity]. cbn [bind]. rewrite category_ps.
    destruct (compute_category _ _ _ _ _); reflexivity.
  Qed.
End Project.

(** A similarity on the projected elements. *)
Definition sim_by_id {A B} (sim : elem A -> elem A -> Q) (sub gt : @scene A) (d g : elem B) : Q :=
  match sget (e_id d) sub, sget (e_id g) gt with Some d, Some g => sim d g | _, _ => 0%Q end.

Lemma init_project : forall A B (f : A -> B) sim (sub gt : @scene A) ts cats ev, keyed_by_id sub -> keyed_by_id gt ->
  evaluator_init sim sub gt ts cats = Ok ev ->
  evaluator_init (sim_by_id sim sub gt) (project_scene f sub) (project_scene f gt) ts cats = Ok (project f ev).
Proof.
  intros A B f sim sub gt ts cats ev Kd Kg E. rewrite (init_ps f sim), E; [reflexivity|].
  intros d g D G. unfold sim_by_id. cbn [project_elem e_id].
  assert (X := keyed_get sub d Kd D). assert (Y := keyed_get gt g Kg G). unfold dgetE in X, Y.
  destruct (sget (e_id d) sub) as [d'|]; [|discriminate]. destruct (sget (e_id g) gt) as [g'|]; [|discriminate]. congruence.
Qed.

(** The average precision of a scene is 0 exactly when no match counts. *)
Lemma scene_ap_zero : forall A (sim : elem A -> elem A -> Q) sub gt t ap, keyed_by_id sub -> keyed_by_id gt ->
  (0 < n_evaluated (elements gt))%nat -> scene_ap sim (elements sub) (elements gt) t ap ->
  ((ap == 0)%Q <-> forall d g, pairs (elements sub) (elements gt) (assoc_at sim sub gt t) d g -> e_evaluated g = false).
Proof.
  intros A sim sub gt t ap Kd Kg Hn (M & vs & ss & rk & ST & J & R & P).
  assert (AG : forall d, In d (elements sub) -> forall g, M d g <-> pairs (elements sub) (elements gt) (assoc_at sim sub gt t) d g).
  { assert (ST' := stable_at sim sub gt t Kd Kg).
    assert (N : NoDup (map e_id (elements sub ++ []))) by (rewrite app_nil_r; exact (keyed_nodup _ Kd)).
    refine (agree sim (elements sub) [] (elements gt) t N (keyed_nodup _ Kg) _ M _ ST _ _ _).
    - intros x [].
    - rewrite app_nil_r. exact ST'.
    - intros d D. exact (judged_dec M _ _ _ J d D).
    - apply pairs_dec; assumption. }
  assert (PM := ranking_perm _ _ _ R (eq_sym (judged_length M _ _ _ J))).
  rewrite (ap_of_zero rk _ ap Hn P).
  assert (V : (forall b, In b vs -> b = false) <-> (forall d g, In d (elements sub) -> M d g -> e_evaluated g = false)).
  { destruct ST as [[_ _ _ OF _] _]. clear -J OF. induction J as [|d g ds vs ss H E J IH|d g ds vs ss H E J IH|d ds vs ss H J IH].
    - split; intros _; [intros d g []|intros b []].
    - split; intro X.
      + specialize (X true (or_introl eq_refl)). discriminate.
      + specialize (X d g (or_introl eq_refl) H). congruence.
    - rewrite IH. split; intros X d' g' I H'.
      + destruct I as [<-|I]; [rewrite (OF _ _ _ H' H); exact E|exact (X d' g' I H')].
      + apply (X d' g' (or_intror I) H').
    - split; intro X.
      + intros d' g' [<-|I] H'; [destruct (H g' H')|]. refine (proj1 IH _ d' g' I H'). intros b Hb. apply X. right. exact Hb.
      + intros b [<-|Hb]; [reflexivity|]. refine (proj2 IH _ b Hb). intros d' g' I H'. exact (X d' g' (or_intror I) H'). }
  split.
  - intros X d g Pd. refine (proj1 V _ d g (proj1 Pd) _); [|apply AG; [apply Pd|exact Pd]].
    intros b Hb. apply X. exact (Permutation_in _ (Permutation_sym PM) Hb).
  - intros X b Hb. apply (Permutation_in _ PM) in Hb. revert b Hb. apply V. intros d g D Md. apply (X d g). apply AG; assumption.
Qed.

Lemma mean_zero : forall l q, is_mean l q -> (forall a, In a l -> 0 <= a)%Q -> ((q == 0)%Q <-> forall a, In a l -> (a == 0)%Q).
Proof.
  intros l q [N E] P.
  assert (L : (0 < inject_Z (Z.of_nat (List.length l)))%Q).
  { destruct l; [congruence|]. unfold Qlt, inject_Z. cbn [Qnum Qden List.length]. lia. }
  assert (S : (fold_right Qplus 0 l == 0)%Q <-> forall a, In a l -> (a == 0)%Q).
  { clear N E L. induction l as [|x l IH]; [split; [intros _ a []|reflexivity]|]. cbn [fold_right].
    assert (P' : forall a, In a l -> (0 <= a)%Q) by (intros; apply P; right; assumption).
    assert (G : (0 <= fold_right Qplus 0 l)%Q).
    { clear IH P. induction l as [|y l IH]; [apply Qle_refl|]. cbn [fold_right].
      assert (X := P' y (or_introl eq_refl)). assert (Y := IH (fun a I => P' a (or_intror I))). Lqa.lra. }
    assert (X := P x (or_introl eq_refl)). specialize (IH P'). split.
    - intros Z a [<-|I]; [Lqa.lra|]. apply IH; [Lqa.lra|exact I].
    - intros Z. assert (Z1 := Z x (or_introl eq_refl)). assert (Z2 := proj2 IH (fun a I => Z a (or_intror I))). Lqa.lra. }
  rewrite <- S, <- E. split; intro Z.
  - rewrite Z. apply Qmult_0_l.
  - apply Qmult_integral in Z. destruct Z as [Z|Z]; [exact Z|]. rewrite Z in L. destruct (Qlt_irrefl _ L).
Qed.

Section Values.
  Variables (sim : elem prepared -> elem prepared -> Q) (sub gt : @scene prepared) (ts : list Q) (cats : list string) (ev : @evaluator prepared).
  Hypotheses (Kd : keyed_by_id sub) (Kg : keyed_by_id gt) (E : evaluator_init sim sub gt ts cats = Ok ev).
  Notation matched t := (pairs (elements sub) (elements gt) (assoc_at sim sub gt t)).

  (** Some match counts at some threshold. *)
  Definition counted : Prop := exists t d g, In t ts /\ matched t d g /\ e_evaluated g = true.

  Lemma entry_pair : forall t k c, In (k, c) (assoc_at sim sub gt t) ->
    exists d g, matched t d g /\ k = e_id d /\ c_det c = e_id d /\ c_gt c = e_id g.
  Proof.
    intros t k c I. unfold assoc_at, enc_result in I. apply in_map_iff in I. destruct I as ([d g] & Ec & I). cbn [fst snd] in Ec. injection Ec as <- <-.
    exists d, g. split; [apply pairs_run; assumption|]. auto.
  Qed.

  Lemma flags_empty : forall t l, evaluated_pairs (project placed_part ev) (assoc_at sim sub gt t) l ->
    (l = [] <-> forall d g, matched t d g -> e_evaluated g = false).
  Proof.
    intros t l (fl & F & ->). destruct (init_fields sim _ _ _ _ _ E) as (_ & _ & F3 & F4).
    assert (GE : forall g, In g (elements gt) -> sget (e_id g) (ev_ground_truth (project placed_part ev)) = Some (project_elem placed_part g)).
    { intros g G. cbn [project ev_ground_truth]. rewrite F4, sget_ps. assert (X := keyed_get gt g Kg G). unfold dgetE in X. destruct (sget (e_id g) gt); [|discriminate]. injection X as ->. reflexivity. }
    split.
    - intros N d g P. destruct P as (D & G & c & Ec & Cg). apply (dget_In String.eqb str_eqb_spec) in Ec.
      assert (X : exists ps, In ps fl /\ exists d' g', sget (c_gt c) (ev_ground_truth (project placed_part ev)) = Some g' /\ ps = if e_evaluated g' then [(d', g')] else []).
      { clear N. induction F as [|[k' c'] ps tb fl (d' & g' & X1 & X2 & X3) F IH]; [destruct Ec|]. destruct Ec as [Ec|Ec].
        - injection Ec as -> ->. exists ps. split; [left; reflexivity|]. exists d', g'. auto.
        - destruct (IH Ec) as (ps' & I & R). exists ps'. split; [right; exact I|exact R]. }
      destruct X as (ps & I & d' & g' & Eg & Eq). rewrite Cg, (GE g G) in Eg. injection Eg as <-. cbn [project_elem e_evaluated] in Eq.
      destruct (e_evaluated g); [|reflexivity]. exfalso. subst ps.
      assert (Y : In (d', project_elem placed_part g) (List.concat fl)) by (apply in_concat; eexists; split; [exact I|left; reflexivity]).
      rewrite N in Y. destruct Y.
    - intro H.
      assert (Z : forall ps, In ps fl -> ps = []).
      { intros ps I.
        assert (X : exists k c, In (k, c) (assoc_at sim sub gt t) /\ exists d' g', sget (c_gt c) (ev_ground_truth (project placed_part ev)) = Some g' /\ ps = if e_evaluated g' then [(d', g')] else []).
        { clear H. induction F as [|[k' c'] ps' tb fl (d' & g' & X1 & X2 & X3) F IH]; [destruct I|]. destruct I as [<-|I].
          - exists k', c'. split; [left; reflexivity|]. exists d', g'. auto.
          - destruct (IH I) as (k & c & I' & R). exists k, c. split; [right; exact I'|exact R]. }
        destruct X as (k & c & I' & d' & g' & Eg & ->). destruct (entry_pair t k c I') as (d & g & P & _ & _ & Cg).
        rewrite Cg, (GE g (proj1 (proj2 P))) in Eg. injection Eg as <-. cbn [project_elem e_evaluated]. rewrite (H d g P). reflexivity. }
      clear -Z. induction fl as [|p fl IH]; [reflexivity|]. cbn [List.concat]. rewrite (Z p (or_introl eq_refl)), IH; [reflexivity|]. intros; apply Z; right; assumption.
  Qed.

  Lemma pose_part : forall lognorm, lognorm_ok lognorm -> well_placed (elements sub) -> well_placed (elements gt) ->
    exists r, pose_error lognorm (project placed_part ev) = Ok r /\ (r = None <-> ~ counted) /\
      forall re te, r = Some (re, te) -> (0 <= re <= PI)%R /\ (0 <= te)%R.
  Proof.
    intros lognorm L Wd Wg.
    assert (RD : forall s, well_placed (elements s) -> forall d, In d (elements (project_scene placed_part s)) -> rotation (pR (fst (e_info d)))).
    { intros s W d D. rewrite elements_ps in D. apply in_map_iff in D. destruct D as (d0 & <- & D). exact (proj1 (W d0 D)). }
    destruct (C57_pose_error lognorm L _ _ _ ts cats (project placed_part ev) (keyed_ps _ _ Kd) (keyed_ps _ _ Kg)
      (init_project _ _ placed_part sim sub gt ts cats ev Kd Kg E) (RD sub Wd) (RD gt Wg)) as (r & ll & A1 & A2 & _ & A4 & A5).
    exists r. split; [exact A1|]. destruct (init_fields sim _ _ _ _ _ E) as (F1 & _). split; [|intros re te Er; destruct (A5 re te Er) as (X & Y & _); auto].
    rewrite A4. clear A1 A4 A5 r. cbn [project ev_thresholds ev_agnostic] in A2. rewrite F1 in A2.
    assert (T : forall t, In t (sort_thresholds ts) -> In t ts) by (intro; apply sort_thresholds_In).
    split.
    - intros N (t & d & g & It & P & Ev). assert (It' := proj2 (sort_thresholds_In ts t) It). revert It'.
      clear F1. induction A2 as [|t' l tl ll (table & X1 & X2) A2 IH]; intros It'; [destruct It'|]. destruct It' as [->|It'].
      + rewrite (keyed_agnostic sim sub gt ts cats ev t Kd Kg E It) in X1. injection X1 as <-.
        rewrite (proj1 (flags_empty t l X2) (N l (or_introl eq_refl)) d g P) in Ev. discriminate.
      + apply IH; [intros; apply T; right; assumption| |exact It']. intros l' I'. apply N. right. exact I'.
    - intros N l I. clear F1. induction A2 as [|t' l' tl ll (table & X1 & X2) A2 IH]; [destruct I|]. destruct I as [->|I].
      + assert (It := T t' (or_introl eq_refl)). rewrite (keyed_agnostic sim sub gt ts cats ev t' Kd Kg E It) in X1. injection X1 as <-.
        apply (flags_empty t' l X2). intros d g P. destruct (e_evaluated g) eqn:Ev; [|reflexivity]. destruct N. exists t', d, g. auto.
      + apply IH; [intros; apply T; right; assumption|exact I].
  Qed.

  Lemma wanted_n : (0 < n_evaluated (elements gt))%nat <-> wanted (elements gt).
  Proof.
    unfold n_evaluated, wanted. split.
    - intro H. destruct (filter e_evaluated (elements gt)) as [|g l] eqn:F; [cbn in H; lia|]. exists g.
      apply filter_In. rewrite F. left. reflexivity.
    - intros (g & G). apply filter_In in G. destruct (filter e_evaluated (elements gt)); [destruct G|cbn; lia].
  Qed.

  Lemma shape_part : forall argsort, argsort_ok argsort -> ts <> [] ->
    exists r, shape_score argsort ev = Ok r /\ score_if (wanted (elements gt)) (of_score r) /\
      (forall q, r = Some q -> ((q == 0)%Q <-> ~ counted)) /\ (r = None -> ~ counted).
  Proof.
    intros argsort Ha Ht. destruct (C13_shape_score_bounds _ sim argsort sub gt ts cats ev Ha Kd Kg E) as (B1 & B2).
    destruct (C13_shape_score_is_mean_ap _ sim argsort sub gt ts cats ev Ha Kd Kg E) as (r & Er & M1 & M2).
    exists r. split; [exact Er|]. split; [|split].
    - split.
      + intros W. destruct (B1 Ht W) as (s & Es & Bs). rewrite Er in Es. injection Es as ->. exists s. auto.
      + intros W. rewrite B2 in Er; [injection Er as <-; reflexivity|]. right. intros g G. destruct (e_evaluated g) eqn:Ev; [|reflexivity]. destruct W. exists g. auto.
    - intros q ->. assert (P : (0 < n_evaluated (elements gt))%nat).
      { destruct (Nat.eq_dec (n_evaluated (elements gt)) 0) as [Z|Z]; [|lia]. specialize (M2 Z). discriminate. }
      destruct (M1 P) as (order & aps & PM & F & Bd & MN).
      assert (IM : is_mean aps q) by (destruct aps; [destruct MN|exact MN]).
      rewrite (mean_zero aps q IM (fun a I => proj1 (Bd a I))). clear MN IM M1 Bd.
      assert (PO : forall t, In t order <-> In t ts) by (intro t; split; [apply (Permutation_in _ PM)|apply (Permutation_in _ (Permutation_sym PM))]).
      split.
      + intros Z (t & d & g & It & Pd & Ev). apply PO in It. clear PM PO. induction F as [|t' a order aps S F IH]; [destruct It|]. destruct It as [->|It].
        * rewrite (proj1 (scene_ap_zero _ sim sub gt t a Kd Kg P S) (Z a (or_introl eq_refl)) d g Pd) in Ev. discriminate.
        * apply IH; [intros; apply Z; right; assumption|exact It].
      + intros N a Ia. assert (PO' : forall t, In t order -> In t ts) by (intro; apply PO). clear PM PO. induction F as [|t' a' order aps S F IH]; [destruct Ia|]. destruct Ia as [->|Ia].
        * apply (scene_ap_zero _ sim sub gt t' a Kd Kg P S). intros d g Pd. destruct (e_evaluated g) eqn:Ev; [|reflexivity].
          destruct N. exists t', d, g. split; [apply PO'; left; reflexivity|auto].
        * apply IH; [exact Ia|]. intros; apply PO'; right; assumption.
    - intros -> (t & d & g & It & Pd & Ev). assert (W : wanted (elements gt)) by (exists g; split; [apply Pd|exact Ev]).
      destruct (B1 Ht W) as (s & Es & _). congruence.
  Qed.

  Lemma semantics_part : forall argsort, argsort_ok argsort -> ts <> [] ->
    exists r, semantics_score argsort ev = Ok r /\ score_if (wanted_in cats (elements gt)) (of_score r).
  Proof.
    intros argsort Ha Ht. destruct (C13_semantics_score_bounds _ sim argsort sub gt ts cats ev Ha Kd Kg E) as (B1 & B2).
    destruct (existsb (fun g => e_evaluated g && str_in (e_category g) cats) (elements gt)) eqn:X.
    - apply existsb_exists in X. destruct X as (g & G & X). apply andb_true_iff in X. destruct X as (X & Y). apply str_in_In in Y.
      assert (W : wanted_in cats (elements gt)) by (exists g; auto). destruct (B1 Ht W) as (s & Es & Bs). exists (Some s). split; [exact Es|].
      split; [intros _; exists s; auto|contradiction].
    - assert (N : forall g, In g (elements gt) -> In (e_category g) cats -> e_evaluated g = false).
      { intros g G C. destruct (e_evaluated g) eqn:Ev; [|reflexivity]. rewrite <- X. symmetry. apply existsb_exists. exists g. split; [exact G|]. rewrite Ev. apply str_in_In. exact C. }
      exists None. split; [apply B2; right; exact N|]. split; [|reflexivity]. intros (g & G & Ev & C). rewrite (N g G C) in Ev. discriminate.
  Qed.

  Lemma percept_part : forall d params, perceptual_at d = Ok params -> sane params -> well_placed (elements sub) -> well_placed (elements gt) -> ts <> [] ->
    exists s, perceptual_with d ev = Ok (Some s) /\ (0 <= s <= 1)%R.
  Proof.
    intros d params Ep S Wd Wg Ht.
    assert (PR : forall s, well_placed (elements s) -> proper (elements (project_scene solid_part s))).
    { intros s W e I. rewrite elements_ps in I. apply in_map_iff in I. destruct I as (e0 & <- & I). exact (proj2 (W e0 I)). }
    destruct (C51_bounds _ _ _ ts cats (project solid_part ev) params (keyed_ps _ _ Kd) (keyed_ps _ _ Kg)
      (init_project _ _ solid_part sim sub gt ts cats ev Kd Kg E) S (PR sub Wd) (PR gt Wg) Ht) as (s & Es & B).
    exists s. split; [|exact B]. unfold perceptual_with. destruct (init_fields sim _ _ _ _ _ E) as (F1 & _). rewrite F1.
    assert (N : sort_thresholds ts <> []).
    { destruct ts as [|t l]; [congruence|]. intro Z. assert (I := proj2 (sort_thresholds_In (t :: l) t) (or_introl eq_refl)). rewrite Z in I. destruct I. }
    destruct (sort_thresholds ts); [congruence|]. rewrite Ep. cbn [bind]. exact Es.
  Qed.

  (** No correspondence at all. *)
  Definition unmatched : Prop := forall t table, In t ts -> dget Qeq_bool t (ev_agnostic ev) = Some table -> table = [].
  Lemma unmatched_uncounted : unmatched -> ~ counted.
  Proof.
    intros U (t & d & g & It & P & _). assert (X := U t _ It (keyed_agnostic sim sub gt ts cats ev t Kd Kg E It)). destruct P as (_ & _ & c & Ec & _). rewrite X in Ec. discriminate.
  Qed.

  Lemma points_part : forall query, query_ok query -> exists r, points_rmsssd query pr_points ev = Ok r /\ amount (of_error r) /\ (r = None <-> unmatched).
  Proof.
    intros query HQ. destruct (C16_reported query HQ _ sim pr_points sub gt ts cats ev Kd Kg E) as (r & Er & N & V). exists r. split; [exact Er|]. split; [|exact N].
    destruct r as [m|]; [right; exists m; split; [reflexivity|apply (V m eq_refl)]|left; reflexivity].
  Qed.

  Lemma color_part : forall query, query_ok query ->
    (forall d g t, In d (elements sub) -> In g (elements gt) -> In t ts -> (t <= sim d g)%Q -> pr_points (e_info d) <> [] /\ pr_points (e_info g) <> []) ->
    exists r, color_rmsssd query pr_points ev = Ok r /\ amount (of_error r) /\ (r = None <-> unmatched).
  Proof.
    intros query HQ NE.
    destruct (direct_ok sim pr_points (pair_color query) sub gt ts cats ev Kd Kg E) as (vals & Ev).
    { intros d g D G (t & It & S). destruct (C17_defined query HQ (pr_points (e_info d)) (pr_points (e_info g))) as (D1 & _).
      destruct (D1 (NE d g t D G It S)) as (v & Ec & _). eauto. }
    exists (mean_or_inf vals). unfold color_rmsssd. rewrite average_direct, Ev. split; [reflexivity|].
    assert (PV : forall v, In v vals -> (0 <= v)%R).
    { intros v I. destruct (direct_values_in sim pr_points (pair_color query) sub gt ts cats ev Kd Kg E vals Ev v I) as (d & g & _ & _ & Ec).
      destruct (C17_defined query HQ (pr_points (e_info d)) (pr_points (e_info g))) as (D1 & D2 & D3).
      destruct (pr_points (e_info d)) as [|r0 rs]; destruct (pr_points (e_info g)) as [|s0 ss].
      - rewrite D2 in Ec by auto. injection Ec as <-. apply Rle_refl.
      - rewrite D3 in Ec by (right; split; [reflexivity|discriminate]). destruct (Nat.eqb _ _); [injection Ec as <-; apply Rle_refl|discriminate].
      - rewrite D3 in Ec by (left; split; [discriminate|reflexivity]). destruct (Nat.eqb _ _); [injection Ec as <-; apply Rle_refl|discriminate].
      - destruct D1 as (w & Ew & Hw & _); [split; discriminate|]. rewrite Ew in Ec. injection Ec as <-. exact Hw. }
    rewrite <- (direct_empty sim pr_points (pair_color query) sub gt ts cats ev Kd Kg E vals Ev). split.
    - destruct vals as [|v vals]; [left; reflexivity|]. right. cbn [mean_or_inf of_error]. eexists. split; [reflexivity|].
      assert (S : forall l, (forall v, In v l -> 0 <= v)%R -> (0 <= fold_right Rplus 0 l)%R).
      { induction l as [|x l IH]; intro H; cbn [fold_right]; [apply Rle_refl|]. apply Rplus_le_le_0_compat; [apply H; left; reflexivity|apply IH; intros; apply H; right; assumption]. }
      apply Rmult_le_pos; [apply S; exact PV|]. apply Rlt_le, Rinv_0_lt_compat. apply lt_0_INR. cbn [List.length]. lia.
    - destruct vals; cbn [mean_or_inf]; split; congruence.
  Qed.
End Values.

(** * Reports *)
Section Reports.
  Variables (argsort : list Q -> list nat) (lognorm : mat -> R) (query : list vec -> vec -> R * nat).
  Variables (sim : elem prepared -> elem prepared -> Q) (sub gt : @scene prepared) (ts : list Q) (cats : list string) (ev : @evaluator prepared).
  Variables (d : settings) (params : perceptual).
  Hypotheses (Ha : argsort_ok argsort) (L : lognorm_ok lognorm) (HQ : query_ok query).
  Hypotheses (Kd : keyed_by_id sub) (Kg : keyed_by_id gt) (E : evaluator_init sim sub gt ts cats = Ok ev).
  Hypotheses (Wd : well_placed (elements sub)) (Wg : well_placed (elements gt)) (Ht : ts <> []).
  Hypotheses (Ep : perceptual_at d = Ok params) (S : sane params).

  Lemma plausible_part : exists shape pe sem per,
    shape_score argsort ev = Ok shape /\ pose_error lognorm (project placed_part ev) = Ok pe /\
    semantics_score argsort ev = Ok sem /\ perceptual_with d ev = Ok per /\
    plausible (wanted (elements gt)) (wanted_in cats (elements gt)) (of_score shape) (of_error (option_map fst pe))
      (of_error (option_map snd pe)) (of_score sem) (of_mean per) /\ (~ counted sim sub gt ts -> pe = None).
  Proof.
    destruct (shape_part sim sub gt ts cats ev Kd Kg E argsort Ha Ht) as (shape & Es & S1 & S2 & S3).
    destruct (pose_part sim sub gt ts cats ev Kd Kg E lognorm L Wd Wg) as (pe & Epe & P1 & P2).
    destruct (semantics_part sim sub gt ts cats ev Kd Kg E argsort Ha Ht) as (sem & Em & M1).
    destruct (percept_part sim sub gt ts cats ev Kd Kg E d params Ep S Wd Wg Ht) as (per & Er & R1).
    assert (I1 : of_error (option_map fst pe) = Inf <-> pe = None) by (destruct pe as [[a b]|]; cbn; split; congruence).
    assert (I2 : of_error (option_map snd pe) = Inf <-> pe = None) by (destruct pe as [[a b]|]; cbn; split; congruence).
    exists shape, pe, sem, (Some per). do 4 (split; [assumption|]). split; [|intro N; apply P1; exact N].
    split; [exact S1|]. split.
    { destruct pe as [[re te]|]; [right; exists re; split; [reflexivity|apply (P2 re te eq_refl)]|left; reflexivity]. }
    split. { destruct pe as [[re te]|]; [right; exists te; split; [reflexivity|apply (P2 re te eq_refl)]|left; reflexivity]. }
    split; [exact M1|]. split; [exists per; split; [reflexivity|exact R1]|]. split; [rewrite I1, I2; reflexivity|]. split.
    - intros q Eq. rewrite I1, P1. apply S2. destruct shape; cbn in Eq; congruence.
    - intro Eq. rewrite I1, P1. apply S3. destruct shape; [discriminate|reflexivity].
  Qed.

  Lemma report_bb : exists m, evaluate_all_bb argsort lognorm d ev = Ok m /\
    dkeys m = ["shape_score"; "rotation_error"; "translation_error"; "semantics_score"; "perceptual_score"] /\ five cats (elements gt) m.
  Proof.
    destruct plausible_part as (shape & pe & sem & per & E1 & E2 & E3 & E4 & P & _).
    unfold evaluate_all_bb. rewrite E1, E2, E3, E4. cbn [bind]. eexists. split; [reflexivity|]. split; [reflexivity|].
    do 5 eexists. do 5 (split; [reflexivity|]). exact P.
  Qed.

  Lemma report_surface :
    (forall d g t, In d (elements sub) -> In g (elements gt) -> In t ts -> (t <= sim d g)%Q -> pr_points (e_info d) <> [] /\ pr_points (e_info g) <> []) ->
    exists m, evaluate_all_surface argsort lognorm query d ev = Ok m /\
    dkeys m = ["shape_score"; "rotation_error"; "translation_error"; "rms_points_error"; "rms_color_error"; "semantics_score"; "perceptual_score"] /\
    five cats (elements gt) m /\ two_more m.
  Proof.
    intro NE. destruct plausible_part as (shape & pe & sem & per & E1 & E2 & E3 & E4 & P & N).
    destruct (points_part sim sub gt ts cats ev Kd Kg E query HQ) as (po & E5 & A5 & N5).
    destruct (color_part sim sub gt ts cats ev Kd Kg E query HQ NE) as (co & E6 & A6 & N6).
    unfold evaluate_all_surface. rewrite E1, E2, E3, E4, E5, E6. cbn [bind]. eexists. split; [reflexivity|]. split; [reflexivity|]. split.
    { do 5 eexists. do 5 (split; [reflexivity|]). exact P. }
    exists (of_error po), (of_error co). split; [reflexivity|]. split; [exact A5|]. split; [reflexivity|]. split; [exact A6|].
    assert (I1 : of_error po = Inf <-> po = None) by (destruct po; cbn; split; congruence).
    assert (I2 : of_error co = Inf <-> co = None) by (destruct co; cbn; split; congruence).
    split; [rewrite I1, I2, N5, N6; reflexivity|]. intro Z. apply I1, N5 in Z.
    rewrite (N (unmatched_uncounted sim sub gt ts cats ev Kd Kg E Z)). reflexivity.
  Qed.
End Reports.

Lemma surface_positive : forall query tol t d g, (0 < t)%Q -> (t <= surface_similarity query tol d g)%Q ->
  pr_points (e_info d) <> [] /\ pr_points (e_info g) <> [].
Proof.
  intros query tol t d g P H. unfold surface_similarity in H.
  split; intro Z; rewrite C14_empty in H by (rewrite Z; auto); exact (Qlt_not_le _ _ P H).
Qed.

(** * The default settings *)
Definition default_ts : list Q := [1#4; 3#10; 7#20; 2#5; 9#20; 1#2; 11#20; 3#5; 13#20; 7#10; 3#4].
Lemma default_ts_pos : forall t, In t default_ts -> (0 < t)%Q.
Proof. intros t H. unfold default_ts in H. cbn in H. repeat (destruct H as [<-|H]; [reflexivity|]). destruct H. Qed.

Lemma perceptual_default : forall v, perceptual_at (sset "thresholds" v default_settings) = Ok default_perceptual.
Proof.
  intro v. transitivity (Ok (Perceptual (Gaussian (Q2R 100) (Q2R 1) (Q2R (15#100))) (Gaussian (Q2R 5) (Q2R 1) (Q2R (18#100))) (Gaussian (Q2R 5) (Q2R 1) (Q2R (18#100)))
    (Gaussian (Q2R 5) (Q2R 0) (Q2R (5#10))) (Gaussian (Q2R 5) (Q2R 0) (Q2R (5#1000))) (Q2R 25) (Q2R 25))); [reflexivity|].
  unfold default_perceptual, Q2R. cbn [Qnum Qden]. do 2 f_equal; try f_equal; Lra.lra.
Qed.

Lemma base_default : forall (sim : Q -> elem prepared -> elem prepared -> Q) key sub gt tol,
  tolerance key sub gt default_settings = Ok tol -> keyed_by_id sub -> keyed_by_id gt ->
  exists st o ev d, base_init sim key sub gt (Some 0%nat) [(0%nat, default_settings)] = (st, Ok o) /\ current o st = Ok ev /\
    look (i_settings o) st = Ok d /\ evaluator_init (sim tol) sub gt default_ts default_categories = Ok ev /\ perceptual_at d = Ok default_perceptual.
Proof.
  intros sim key sub gt tol T Kd Kg. destruct C56_default_values as (HT & _ & HC & _).
  assert (X := base_object sim key sub gt 0%nat [(0%nat, default_settings)] default_settings default_ts default_categories tol eq_refl HT HC T).
  assert (Y := base_store sim key sub gt 0%nat [(0%nat, default_settings)]). cbv zeta in X, Y.
  destruct (keyed_init_ok (sim tol) sub gt default_ts default_categories Kd Kg) as (ev & Ee & _). rewrite Ee in X.
  destruct (base_init sim key sub gt (Some 0%nat) [(0%nat, default_settings)]) as [st [o|e]]; cbn [fst snd bind] in X, Y; [|discriminate].
  destruct Y as [(_ & e & Z)|(d & ts & D & _ & -> & Hi)]; [discriminate|]. injection D as <-.
  exists (dset Nat.eqb 0%nat (sset "thresholds" (Array (isort Qle_bool ts)) default_settings) [(0%nat, default_settings)]), o, ev, (sset "thresholds" (Array (isort Qle_bool ts)) default_settings).
  split; [reflexivity|]. split; [exact X|]. split; [|split; [exact Ee|apply perceptual_default]].
  rewrite (Hi o eq_refl). reflexivity.
Qed.

(** * Prepared scenes *)
Section Dressed.
  Context {S : Type}.
  Definition dressed (s : @scene (object S)) (s' : @scene prepared) : Prop :=
    Forall2 (fun x y => fst x = fst y /\ e_id (snd x) = e_id (snd y) /\ e_category (snd x) = e_category (snd y) /\ e_evaluated (snd x) = e_evaluated (snd y) /\
      ob_pose (e_info (snd x)) = pr_pose (e_info (snd y)) /\ ob_bounds (e_info (snd x)) = pr_bounds (e_info (snd y))) s s'.

  Lemma dressed_keyed : forall s s', dressed s s' -> keyed_by_id s -> keyed_by_id s'.
  Proof.
    intros s s' D [N K]. split.
    - replace (map fst s') with (map fst s); [exact N|]. clear -D. induction D as [|x y s s' (F & _) D IH]; [reflexivity|]. cbn [map]. rewrite F, IH. reflexivity.
    - clear N. induction D as [|[k0 x] [k1 y] s s' (F & I & _) D IH]; intros k e H; [destruct H|]. cbn [fst snd] in *. destruct H as [H|H].
      + injection H as <- <-. rewrite <- F, <- I. apply K. left. reflexivity.
      + apply IH; [|exact H]. intros k' e' H'. apply K. right. exact H'.
  Qed.
  Lemma dressed_in : forall s s', dressed s s' -> forall e', In e' (elements s') -> exists e, In e (elements s) /\ e_category e = e_category e' /\ e_evaluated e = e_evaluated e' /\
    ob_pose (e_info e) = pr_pose (e_info e') /\ ob_bounds (e_info e) = pr_bounds (e_info e').
  Proof.
    intros s s' D. induction D as [|x y s s' (_ & _ & F) D IH]; intros e' I; [destruct I|]. destruct I as [<-|I].
    - exists (snd x). split; [left; reflexivity|exact F].
    - destruct (IH e' I) as (e & I' & R). exists e. split; [right; exact I'|exact R].
  Qed.
  Lemma dressed_in' : forall s s', dressed s s' -> forall e, In e (elements s) -> exists e', In e' (elements s') /\ e_category e = e_category e' /\ e_evaluated e = e_evaluated e'.
  Proof.
    intros s s' D. induction D as [|x y s s' (_ & _ & F1 & F2 & _) D IH]; intros e' I; [destruct I|]. destruct I as [<-|I].
    - exists (snd y). split; [left; reflexivity|auto].
    - destruct (IH e' I) as (e & I' & R). exists e. split; [right; exact I'|exact R].
  Qed.
  Lemma dressed_wanted : forall s s', dressed s s' -> (wanted (elements s') <-> wanted (elements s)).
  Proof.
    intros s s' D. split; intros (g & G & Ev).
    - destruct (dressed_in s s' D g G) as (e & I & _ & X & _). exists e. rewrite X. auto.
    - destruct (dressed_in' s s' D g G) as (e & I & _ & X). exists e. rewrite <- X. auto.
  Qed.
  Lemma dressed_wanted_in : forall s s' cats, dressed s s' -> (wanted_in cats (elements s') <-> wanted_in cats (elements s)).
  Proof.
    intros s s' cats D. split; intros (g & G & Ev & C).
    - destruct (dressed_in s s' D g G) as (e & I & X & Y & _). exists e. rewrite X, Y. auto.
    - destruct (dressed_in' s s' D g G) as (e & I & X & Y). exists e. rewrite <- X, <- Y. auto.
  Qed.
  Lemma dressed_placed : forall s s', dressed s s' -> in_order (elements s) -> well_placed (elements s').
  Proof. intros s s' D W e' I. destruct (dressed_in s s' D e' I) as (e & I' & _ & _ & P & B). rewrite <- P, <- B. exact (W e I'). Qed.

  Definition faithful_prep (prep : elem (object S) -> res prepared) : Prop :=
    forall e p, prep e = Ok p -> ob_pose (e_info e) = pr_pose p /\ ob_bounds (e_info e) = pr_bounds p.
  Lemma plain_dressed : forall prep s, faithful_prep prep -> (forall e, In e (elements s) -> exists p, prep e = Ok p) ->
    exists s', plain_prepare prep s = Ok s' /\ dressed s s'.
  Proof.
    intros prep s FP. induction s as [|[k e] s IH]; intro H; [exists []; split; [reflexivity|constructor]|].
    destruct (H e (or_introl eq_refl)) as (p & Ep). destruct IH as (s' & Es & D); [intros e' I; apply H; right; exact I|].
    exists ((k, with_info e p) :: s'). unfold plain_prepare in *. cbn [mapM snd fst]. rewrite Ep. cbn [bind]. rewrite Es. split; [reflexivity|].
    constructor; [|exact D]. cbn. destruct (FP e p Ep). auto 6.
  Qed.
End Dressed.
