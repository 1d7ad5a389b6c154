(** Property C79: a submission that copies the ground truth. *)
From Coq Require Import Reals List Bool String QArith ZArith Permutation Lia Lra Lqa.
From Verif.Base Require Import Py PyFacts Vec Sort.
From Verif.Geom Require Import Model Spec.
From Verif.Symm Require Import Model.
From Verif.Assoc Require Import Model Spec Proofs Props.
From Verif.AP Require Import Model Spec Proofs.
From Verif.Scores Require Import Model Spec Proofs Props.
From Verif.Points Require Import Model Spec Proofs Props.
From Verif.PoseErr Require Import Model Spec Proofs Props.
From Verif.Frame Require Import Spec Props.
From Verif.Copy Require Import Spec Proofs.
Import ListNotations.
Local Open Scope Q_scope.
Open Scope string_scope.

Lemma copies_length : forall A (sub gt : list (elem A)), copies sub gt -> List.length sub = List.length gt.
Proof. intros A sub gt C. induction C; cbn; congruence. Qed.

Lemma copies_original : forall A (sub gt : list (elem A)), copies sub gt -> forall d g, original sub gt d g -> e_category d = e_category g /\ e_info d = e_info g.
Proof.
  intros A sub gt C. induction C as [|d g sub gt H C IH]; intros x y I; [destruct I|]. destruct I as [I|I]; [injection I as <- <-; exact H|exact (IH x y I)].
Qed.

Lemma apart_at : forall A (sim : elem A -> elem A -> Q) sub gt ts t, told_apart sim sub gt ts -> In t ts -> told_apart sim sub gt [t].
Proof. intros A sim sub gt ts t TA I d g O. destruct (TA d g O) as (X & Y). split; [|exact Y]. intros t' [<-|[]]. exact (X _ I). Qed.

(** At every threshold a detection is matched to its original and to nothing else. *)
Theorem C79_matches : forall A (sim : elem A -> elem A -> Q) (sub gt : scene) ts cats ev,
  keyed_by_id sub -> keyed_by_id gt -> evaluator_init sim sub gt ts cats = Ok ev ->
  copies (elements sub) (elements gt) -> told_apart sim (elements sub) (elements gt) ts ->
  forall t, In t ts -> exists assoc, dget Qeq_bool t (ev_agnostic ev) = Some assoc /\
    (forall d g, pairs (elements sub) (elements gt) assoc d g <-> original (elements sub) (elements gt) d g).
Proof.
  intros A sim sub gt ts cats ev Kd Kg H C TA t Ht. exists (assoc_at sim sub gt t).
  split; [exact (keyed_agnostic sim sub gt ts cats ev t Kd Kg H Ht)|]. intros d g.
  assert (ST := stable_at sim sub gt t Kd Kg). assert (TT := apart_at _ _ _ _ _ _ TA Ht).
  assert (Nd := keyed_nodup _ Kd). assert (Ng := keyed_nodup _ Kg). change (NoDup (map e_id (elements sub))) in Nd. change (NoDup (map e_id (elements gt))) in Ng.
  assert (L := copies_length _ _ _ C). split.
  - exact (match_original sim _ _ t Nd Ng L TT _ ST d g).
  - intro O. assert (X := original_matched sim _ _ t Nd Ng L TT _ ST d g O).
    assert (D : In d (elements sub)) by (eapply in_combine_l; exact O).
    destruct (sget (e_id d) (assoc_at sim sub gt t)) as [c|] eqn:E; [|exfalso; apply X; intros g' (_ & _ & c & E' & _); congruence].
    destruct (faithful_at sim sub gt t Kd Kg _ _ E) as (d' & g' & _ & G & _ & _ & Ec & _).
    assert (P : pairs (elements sub) (elements gt) (assoc_at sim sub gt t) d g') by (split; [exact D|]; split; [exact G|]; exists c; auto).
    assert (O' := match_original sim _ _ t Nd Ng L TT _ ST d g' P). assert (g = g') by exact (combine_fun _ _ _ e_id (elements sub) (elements gt) d g g' Nd O O'). subst g'. exact P.
Qed.

(** Means. *)
Lemma sum_const : forall l v, (forall a, In a l -> a == v) -> fold_right Qplus 0 l == v * inject_Z (Z.of_nat (List.length l)).
Proof.
  intros l v H. induction l as [|a l IH]; [cbn; ring|]. cbn [fold_right List.length]. rewrite IH by (intros; apply H; right; assumption).
  rewrite (H a (or_introl eq_refl)), Nat2Z.inj_succ. unfold Z.succ. rewrite inject_Z_plus. ring.
Qed.

Lemma len_pos : forall (l : list Q), l <> [] -> 0 < inject_Z (Z.of_nat (List.length l)).
Proof. intros [|a l] H; [contradiction|]. change 0 with (inject_Z 0). rewrite <- Zlt_Qlt. cbn [List.length]. lia. Qed.

Lemma mean_const : forall l s v, is_mean l s -> (forall a, In a l -> a == v) -> s == v.
Proof.
  intros l s v (N & E) H. rewrite (sum_const l v H) in E. apply Qmult_inj_r in E; [exact E|]. assert (P := len_pos l N). intro Z0. rewrite Z0 in P. inversion P.
Qed.

Lemma sum_le : forall l m, Forall2 Qle l m -> fold_right Qplus 0 l <= fold_right Qplus 0 m.
Proof. intros l m F. induction F; cbn [fold_right]; [apply Qle_refl|]. apply Qplus_le_compat; assumption. Qed.

Lemma mean_at_most : forall l s v, is_mean l s -> (forall a, In a l -> a <= v) -> s <= v.
Proof.
  intros l s v (N & E) H. assert (P := len_pos l N). apply (Qmult_le_r _ _ _ P). rewrite E. clear -H.
  induction l as [|a l IH]; [cbn [fold_right List.length]; change (inject_Z (Z.of_nat 0)) with 0; lra|]. cbn [fold_right List.length]. rewrite Nat2Z.inj_succ. unfold Z.succ. rewrite inject_Z_plus.
  assert (A := H a (or_introl eq_refl)). assert (B := IH (fun x Hx => H x (or_intror Hx))). change (inject_Z 1) with 1. lra.
Qed.

Lemma positive_evaluated : forall A (gts : list (elem A)), (exists g, In g gts /\ e_evaluated g = true) -> (0 < n_evaluated gts)%nat.
Proof.
  intros A gts (g & I & E). unfold n_evaluated. assert (X : In g (filter e_evaluated gts)) by (apply filter_In; auto).
  destruct (filter e_evaluated gts); [destruct X|cbn; lia].
Qed.

(** The shape score is n / (n + epsilon), n the number of evaluated objects. *)
Theorem C79_shape : forall A (sim : elem A -> elem A -> Q) argsort (sub gt : scene) ts cats ev,
  argsort_ok argsort -> keyed_by_id sub -> keyed_by_id gt -> evaluator_init sim sub gt ts cats = Ok ev ->
  copies (elements sub) (elements gt) -> told_apart sim (elements sub) (elements gt) ts ->
  ts <> [] -> (exists g, In g (elements gt) /\ e_evaluated g = true) ->
  exists s, shape_score argsort ev = Ok (Some s) /\ s == full_marks (n_evaluated (elements gt)).
Proof.
  intros A sim argsort sub gt ts cats ev Ha Kd Kg H C TA Nt G. assert (N := positive_evaluated _ _ G).
  destruct (C13_shape_score_is_mean_ap A sim argsort sub gt ts cats ev Ha Kd Kg H) as (r & E & H1 & _).
  destruct (H1 N) as (order & aps & P & F & B & M).
  assert (Nd := keyed_nodup _ Kd). assert (Ng := keyed_nodup _ Kg). change (NoDup (map e_id (elements sub))) in Nd. change (NoDup (map e_id (elements gt))) in Ng.
  assert (V : forall a, In a aps -> a == full_marks (n_evaluated (elements gt))).
  { assert (I : forall t, In t order -> In t ts) by (intros t; apply Permutation_in; exact P). clear -F I Nd Ng C TA N.
    induction F as [|t ap order aps S F IH]; intros a Ia; [destruct Ia|]. destruct Ia as [<-|Ia]; [|apply IH; [intros; apply I; right; assumption|exact Ia]].
    apply (ap_copies sim (elements sub) (elements gt) t Nd Ng (copies_length _ _ _ C)); [|exact N|exact S].
    eapply apart_at; [exact TA|]. apply I. left. reflexivity. }
  destruct aps as [|a aps]; [inversion F; subst; apply Permutation_nil in P; contradiction|].
  destruct r as [s|]; [|destruct M]. exists s. split; [exact E|]. exact (mean_const _ _ _ M V).
Qed.

Lemma copies_category : forall A c (sub gt : list (elem A)), copies sub gt -> copies (of_category c sub) (of_category c gt).
Proof.
  intros A c sub gt C. induction C as [|d g sub gt (H1 & H2) C IH]; [constructor|]. unfold of_category. cbn [filter]. rewrite H1.
  destruct (string_dec (e_category g) c); [constructor; auto|exact IH].
Qed.

Lemma original_category : forall A c (sub gt : list (elem A)), copies sub gt -> forall d g,
  original (of_category c sub) (of_category c gt) d g -> original sub gt d g.
Proof.
  intros A c sub gt C. induction C as [|d g sub gt (H1 & H2) C IH]; intros x y O; [exact O|]. unfold original, of_category in *. cbn [filter] in O. rewrite H1 in O.
  destruct (string_dec (e_category g) c); [destruct O as [O|O]; [left; exact O|right; exact (IH x y O)]|right; exact (IH x y O)].
Qed.

Lemma apart_category : forall A (sim : elem A -> elem A -> Q) c sub gt ts, copies sub gt -> told_apart sim sub gt ts ->
  told_apart sim (of_category c sub) (of_category c gt) ts.
Proof.
  intros A sim c sub gt ts C TA d g O. destruct (TA d g (original_category _ c _ _ C d g O)) as (X & Y). split; [exact X|].
  intros g' I. apply Y. apply filter_In in I. tauto.
Qed.

Lemma category_ids : forall A c (l : list (elem A)), NoDup (map e_id l) -> NoDup (map e_id (of_category c l)).
Proof. intros. apply NoDup_map_filter. assumption. Qed.

Lemma scored_positive : forall A cats (gts : list (elem A)) c, In c (scored_categories cats gts) -> (0 < n_evaluated (of_category c gts))%nat.
Proof. intros A cats gts c I. apply filter_In in I as [_ I]. apply Nat.ltb_lt. exact I. Qed.

Lemma rows_eq : forall {T} (order : list T) rows (m : list Q), Forall2 (fun _ row => Forall2 Qeq row m) order rows ->
  fold_right Qplus 0 (List.concat rows) == inject_Z (Z.of_nat (List.length order)) * fold_right Qplus 0 m /\
  List.length (List.concat rows) = (List.length order * List.length m)%nat.
Proof.
  intros T order rows m F. induction F as [|t row order rows E F (IH1 & IH2)]; [cbn; split; [ring|reflexivity]|]. cbn [List.concat List.length].
  rewrite fold_right_app. split.
  - assert (X : forall l z, fold_right Qplus z l == fold_right Qplus 0 l + z) by (clear; intros l z; induction l as [|a l IH]; cbn [fold_right]; [ring|rewrite IH; ring]).
    rewrite X, IH1, Nat2Z.inj_succ. unfold Z.succ. rewrite inject_Z_plus.
    assert (Y : fold_right Qplus 0 row == fold_right Qplus 0 m) by (clear -E; induction E as [|a b l m H E IH]; cbn [fold_right]; [reflexivity|rewrite H, IH; reflexivity]).
    rewrite Y. change (inject_Z 1) with 1. ring.
  - rewrite app_length, IH2. assert (Y : List.length row = List.length m) by (clear -E; induction E; cbn; congruence). rewrite Y. lia.
Qed.

(** The semantics score is the mean of these over the scored categories. *)
Theorem C79_semantics : forall A (sim : elem A -> elem A -> Q) argsort (sub gt : scene) ts cats ev,
  argsort_ok argsort -> keyed_by_id sub -> keyed_by_id gt -> evaluator_init sim sub gt ts cats = Ok ev ->
  copies (elements sub) (elements gt) -> told_apart sim (elements sub) (elements gt) ts ->
  ts <> [] -> (exists g, In g (elements gt) /\ e_evaluated g = true /\ In (e_category g) cats) ->
  exists s, semantics_score argsort ev = Ok (Some s) /\
    is_mean (map (fun c => full_marks (n_evaluated (of_category c (elements gt)))) (scored_categories cats (elements gt))) s.
Proof.
  intros A sim argsort sub gt ts cats ev Ha Kd Kg H C TA Nt G.
  destruct (C13_semantics_score_is_mean_ap A sim argsort sub gt ts cats ev Ha Kd Kg H) as (r & order & rows & E & P & F & B & M).
  destruct (proj1 (C13_semantics_score_bounds A sim argsort sub gt ts cats ev Ha Kd Kg H) Nt G) as (s & E' & _).
  rewrite E' in E. injection E as <-. exists s. split; [exact E'|].
  assert (Nd := keyed_nodup _ Kd). assert (Ng := keyed_nodup _ Kg). change (NoDup (map e_id (elements sub))) in Nd. change (NoDup (map e_id (elements gt))) in Ng.
  set (fm := map _ _). assert (I : forall t, In t order -> In t ts) by (intros t; apply Permutation_in; exact P).
  assert (R : Forall2 (fun _ row => Forall2 Qeq row fm) order rows).
  { clear -F I Nd Ng C TA. induction F as [|t row order rows S F IH]; constructor; [|apply IH; intros; apply I; right; assumption].
    assert (TT := apart_at _ _ _ _ _ _ TA (I t (or_introl eq_refl))). subst fm. clear -S TT C Nd Ng.
    assert (X : forall c, In c (scored_categories cats (elements gt)) -> (0 < n_evaluated (of_category c (elements gt)))%nat) by apply scored_positive.
    induction S as [|c ap cs row S0 S IH]; cbn [map]; constructor.
    - eapply ap_copies; [apply category_ids, Nd|apply category_ids, Ng|apply copies_length, copies_category, C|apply apart_category; [exact C|exact TT]|apply X; left; reflexivity|exact S0].
    - apply IH. intros; apply X; right; assumption. }
  destruct (rows_eq _ _ _ R) as (R1 & R2). unfold mean_or_nan in M. destruct (List.concat rows) as [|a l] eqn:Er; [destruct M|]. rewrite <- Er in *.
  destruct M as (M1 & M2). assert (O : order <> []) by (intros ->; inversion R; subst; discriminate).
  split; [intro Z0; rewrite Z0 in R2; cbn in R2; rewrite Er in R2; cbn in R2; lia|].
  rewrite R1, R2, Nat2Z.inj_mul, inject_Z_mult in M2.
  assert (Po := Nt). assert (Pp : 0 < inject_Z (Z.of_nat (List.length order))) by (destruct order; [contradiction|]; change 0 with (inject_Z 0); rewrite <- Zlt_Qlt; cbn [List.length]; lia).
  apply (Qmult_inj_r _ _ (inject_Z (Z.of_nat (List.length order)))); [intro Z0; rewrite Z0 in Pp; inversion Pp|].
  rewrite (Qmult_comm (fold_right _ _ _)), <- M2. ring.
Qed.

Lemma upper_bounds : forall A (sim : elem A -> elem A -> Q) argsort (sub gt : scene) ts cats ev,
  argsort_ok argsort -> keyed_by_id sub -> keyed_by_id gt -> evaluator_init sim sub gt ts cats = Ok ev ->
  (forall s, shape_score argsort ev = Ok (Some s) -> s <= full_marks (n_evaluated (elements gt))) /\
  (forall s b, semantics_score argsort ev = Ok (Some s) ->
    is_mean (map (fun c => full_marks (n_evaluated (of_category c (elements gt)))) (scored_categories cats (elements gt))) b -> s <= b).
Proof.
  intros A sim argsort sub gt ts cats ev Ha Kd Kg H.
  assert (Nd := keyed_nodup _ Kd). change (NoDup (map e_id (elements sub))) in Nd. split.
  - intros s E. destruct (C13_shape_score_is_mean_ap A sim argsort sub gt ts cats ev Ha Kd Kg H) as (r & E' & H1 & H2).
    rewrite E in E'. injection E' as <-. destruct (Nat.eq_dec (n_evaluated (elements gt)) 0) as [Z0|Z0]; [specialize (H2 Z0); discriminate|].
    destruct H1 as (order & aps & P & F & B & M); [lia|]. destruct aps as [|a aps]; [destruct M|]. apply (mean_at_most _ _ _ M).
    assert (N : (0 < n_evaluated (elements gt))%nat) by lia. clear -F Nd N. remember (a :: aps) as l. clear a aps Heql.
    induction F as [|t ap order aps S F IH]; intros a Ia; [destruct Ia|]. destruct Ia as [<-|Ia]; [|exact (IH a Ia)].
    exact (scene_at_most _ sim _ _ t ap (NoDup_map_inv _ _ Nd) N S).
  - intros s b E (Nb & Mb). destruct (C13_semantics_score_is_mean_ap A sim argsort sub gt ts cats ev Ha Kd Kg H) as (r & order & rows & E' & P & F & B & M).
    rewrite E in E'. injection E' as <-. set (fm := map (fun c => full_marks (n_evaluated (of_category c (elements gt)))) (scored_categories cats (elements gt))) in *.
    assert (X : Forall2 (fun _ row => Forall2 Qle row fm) order rows).
    { clear -F Nd. induction F as [|t row order rows S F IH]; constructor; [|exact IH]. subst fm. clear -S Nd.
      assert (X : forall c, In c (scored_categories cats (elements gt)) -> (0 < n_evaluated (of_category c (elements gt)))%nat) by apply scored_positive.
      induction S as [|c ap cs row S0 S IH]; cbn [map]; constructor; [|apply IH; intros; apply X; right; assumption].
      refine (scene_at_most _ sim _ _ t ap _ (X c (or_introl eq_refl)) S0). apply (NoDup_map_inv e_id), category_ids, Nd. }
    assert (Y : Forall2 (fun _ row => Forall2 Qeq row fm) order (map (fun _ => fm) order)).
    { assert (RF : forall l, Forall2 Qeq l l) by (clear; intro l; induction l as [|x l IH]; [constructor|constructor; [reflexivity|exact IH]]).
      clear -RF. induction order; constructor; [apply RF|assumption]. }
    destruct (rows_eq _ _ _ Y) as (R1 & R2).
    assert (W : Forall2 Qle (List.concat rows) (List.concat (map (fun _ => fm) order))).
    { clear -X. induction X as [|t row order rows S X IH]; [constructor|]. cbn [map List.concat]. apply Forall2_app; assumption. }
    assert (S1 := sum_le _ _ W). assert (L : List.length (List.concat rows) = List.length (List.concat (map (fun _ => fm) order))) by (clear -W; induction W; cbn; congruence).
    unfold mean_or_nan in M. destruct (List.concat rows) as [|a l] eqn:Er; [destruct M|]. rewrite <- Er in *. destruct M as (M1 & M2).
    assert (Pl := len_pos _ M1). apply (Qmult_le_r _ _ _ Pl). rewrite M2, L, R2, Nat2Z.inj_mul, inject_Z_mult.
    eapply Qle_trans; [exact S1|]. rewrite R1, <- Mb. apply Qle_lteq. right. ring.
Qed.

Lemma at_most_mean : forall A (sim : elem A -> elem A -> Q) argsort (sub gt : scene) ts cats ev s,
  argsort_ok argsort -> keyed_by_id sub -> keyed_by_id gt -> evaluator_init sim sub gt ts cats = Ok ev ->
  semantics_score argsort ev = Ok (Some s) -> ts <> [] /\ exists g, In g (elements gt) /\ e_evaluated g = true /\ In (e_category g) cats.
Proof.
  intros A sim argsort sub gt ts cats ev s Ha Kd Kg H E.
  destruct (C13_semantics_score_bounds A sim argsort sub gt ts cats ev Ha Kd Kg H) as (_ & N).
  split; [intros ->; rewrite N in E by auto; discriminate|].
  destruct (existsb (fun g => e_evaluated g && str_in (e_category g) cats) (elements gt)) eqn:X.
  - apply existsb_exists in X. destruct X as (g & I & X). apply andb_true_iff in X as [X1 X2]. exists g. split; [exact I|]. split; [exact X1|]. apply str_in_In. exact X2.
  - rewrite N in E; [discriminate|]. right. intros g I C. destruct (e_evaluated g) eqn:Ev; [|reflexivity].
    assert (existsb (fun g => e_evaluated g && str_in (e_category g) cats) (elements gt) = true); [|congruence].
    apply existsb_exists. exists g. split; [exact I|]. rewrite Ev. apply str_in_In in C. rewrite C. reflexivity.
Qed.

(** No submission is scored higher than a copy, whatever its similarities are. *)
Theorem C79_best : forall A (sim sim' : elem A -> elem A -> Q) argsort (sub sub' gt : scene) ts cats ev ev',
  argsort_ok argsort -> keyed_by_id sub -> keyed_by_id sub' -> keyed_by_id gt ->
  evaluator_init sim sub gt ts cats = Ok ev -> evaluator_init sim' sub' gt ts cats = Ok ev' ->
  copies (elements sub) (elements gt) -> told_apart sim (elements sub) (elements gt) ts ->
  (forall s', shape_score argsort ev' = Ok (Some s') -> exists s, shape_score argsort ev = Ok (Some s) /\ s' <= s) /\
  (forall s', semantics_score argsort ev' = Ok (Some s') -> exists s, semantics_score argsort ev = Ok (Some s) /\ s' <= s).
Proof.
  intros A sim sim' argsort sub sub' gt ts cats ev ev' Ha Kd Kd' Kg H H' C TA.
  destruct (upper_bounds A sim' argsort sub' gt ts cats ev' Ha Kd' Kg H') as (U1 & U2). split; intros s' E.
  - assert (N : ts <> [] /\ exists g, In g (elements gt) /\ e_evaluated g = true).
    { destruct (C13_shape_score_bounds A sim' argsort sub' gt ts cats ev' Ha Kd' Kg H') as (_ & N).
      split; [intros ->; rewrite N in E by auto; discriminate|]. destruct (existsb e_evaluated (elements gt)) eqn:X.
      - apply existsb_exists in X. exact X.
      - rewrite N in E; [discriminate|]. right. intros g I. destruct (e_evaluated g) eqn:Ev; [|reflexivity].
        assert (existsb e_evaluated (elements gt) = true); [|congruence]. apply existsb_exists. exists g. auto. }
    destruct N as (N1 & N2). destruct (C79_shape A sim argsort sub gt ts cats ev Ha Kd Kg H C TA N1 N2) as (s & Es & V). exists s. split; [exact Es|].
    rewrite V. exact (U1 s' E).
  - destruct (at_most_mean A sim' argsort sub' gt ts cats ev' s' Ha Kd' Kg H' E) as (N1 & N2).
    destruct (C79_semantics A sim argsort sub gt ts cats ev Ha Kd Kg H C TA N1 N2) as (s & Es & V). exists s. split; [exact Es|]. exact (U2 s' s E V).
Qed.

Lemma entry_pair : forall A (sim : elem A -> elem A -> Q) (sub gt : scene) t k c, keyed_by_id sub -> keyed_by_id gt ->
  In (k, c) (assoc_at sim sub gt t) -> exists d g, pairs (elements sub) (elements gt) (assoc_at sim sub gt t) d g /\
    In d (elements sub) /\ In g (elements gt) /\ k = e_id d /\ c_det c = e_id d /\ c_gt c = e_id g.
Proof.
  intros A sim sub gt t k c Kd Kg I. assert (I0 := I). unfold assoc_at, enc_result in I. apply in_map_iff in I. destruct I as ([d g] & E & I). cbn [fst snd] in E. injection E as <- <-.
  exists d, g. assert (P := proj2 (pairs_run sim sub gt t Kd Kg d g) I). split; [exact P|]. destruct P as (P1 & P2 & _). auto.
Qed.

(** What an entry of a table is about. *)
Lemma entry_original : forall A (sim : elem A -> elem A -> Q) (sub gt : scene) ts cats ev,
  keyed_by_id sub -> keyed_by_id gt -> evaluator_init sim sub gt ts cats = Ok ev ->
  copies (elements sub) (elements gt) -> told_apart sim (elements sub) (elements gt) ts ->
  forall t table k c, In t ts -> dget Qeq_bool t (ev_agnostic ev) = Some table -> In (k, c) table ->
  exists d g, original (elements sub) (elements gt) d g /\ sgetE k sub = Ok d /\ sgetE (c_det c) sub = Ok d /\ sgetE (c_gt c) gt = Ok g.
Proof.
  intros A sim sub gt ts cats ev Kd Kg H C TA t table k c Ht E I.
  destruct (C79_matches A sim sub gt ts cats ev Kd Kg H C TA t Ht) as (assoc & E' & X). rewrite E in E'. injection E' as <-.
  rewrite (keyed_agnostic sim sub gt ts cats ev t Kd Kg H Ht) in E. injection E as <-.
  destruct (entry_pair A sim sub gt t k c Kd Kg I) as (d & g & P & D & G & -> & Ed & Eg). exists d, g. apply X in P. split; [exact P|].
  rewrite Ed, Eg, (keyed_get sub d Kd D), (keyed_get gt g Kg G). auto.
Qed.

(** A table lists an evaluated pair for every evaluated object. *)
Lemma original_entry : forall A (sim : elem A -> elem A -> Q) (sub gt : scene) ts cats ev,
  keyed_by_id sub -> keyed_by_id gt -> evaluator_init sim sub gt ts cats = Ok ev ->
  copies (elements sub) (elements gt) -> told_apart sim (elements sub) (elements gt) ts ->
  forall t table g, In t ts -> dget Qeq_bool t (ev_agnostic ev) = Some table -> In g (elements gt) ->
  exists k c, In (k, c) table /\ sgetE (c_gt c) gt = Ok g.
Proof.
  intros A sim sub gt ts cats ev Kd Kg H C TA t table g Ht E I.
  destruct (C79_matches A sim sub gt ts cats ev Kd Kg H C TA t Ht) as (assoc & E' & X). rewrite E in E'. injection E' as <-.
  destruct (combine_r _ _ (elements sub) (elements gt) g (copies_length _ _ _ C) I) as (d & O). apply X in O. destruct O as (_ & G & c & Ec & Eg).
  exists (e_id d), c. split; [exact (dget_In _ str_eqb_spec _ _ _ Ec)|]. rewrite Eg. apply keyed_get; assumption.
Qed.

(** Surface distances are zero. *)
Theorem C79_points : forall query, query_ok query -> forall A (sim : elem A -> elem A -> Q) (pts : A -> list row) (sub gt : scene) ts cats ev,
  keyed_by_id sub -> keyed_by_id gt -> evaluator_init sim sub gt ts cats = Ok ev ->
  copies (elements sub) (elements gt) -> told_apart sim (elements sub) (elements gt) ts ->
  ts <> [] -> elements gt <> [] -> points_rmsssd query pts ev = Ok (Some 0%R).
Proof.
  intros query HQ A sim pts sub gt ts cats ev Kd Kg H C TA Nt Ng.
  destruct (C16_reported query HQ A sim pts sub gt ts cats ev Kd Kg H) as (r & E & E1 & E2). rewrite E. f_equal.
  destruct r as [m|].
  - f_equal. destruct (E2 m eq_refl) as (_ & vals & Ev & Nv & M & _).
    assert (Z : forall v, In v vals -> v = 0%R).
    { intros v Hv. unfold direct_values in Ev. destruct (init_fields sim _ _ _ _ _ H) as (F1 & F2 & F3 & F4).
      assert (MM : forall B C (f : B -> res C) l cs, mapM f l = Ok cs -> forall c, In c cs -> exists b, In b l /\ f b = Ok c).
      { clear. intros B C f. induction l as [|b l IH]; intros cs E c Hc; cbn [mapM] in E.
        - injection E as <-. destruct Hc.
        - destruct (f b) as [c0|] eqn:Eb; [|discriminate]. cbn [bind] in E.
          destruct (mapM f l) as [cs'|] eqn:El; [|discriminate]. cbn [bind] in E. injection E as <-.
          destruct Hc as [<-|Hc]; [exists b; split; [left; reflexivity|exact Eb]|].
          destruct (IH cs' eq_refl c Hc) as (b' & Ib & E'). exists b'. split; [right; exact Ib|exact E']. }
      destruct (mapM _ (ev_thresholds ev)) as [vss|] eqn:Em; [|discriminate]. cbn [bind] in Ev. injection Ev as <-.
      apply in_concat in Hv. destruct Hv as (vs & Hvs & Hv). destruct (MM _ _ _ _ _ Em vs Hvs) as (t & Ht & Et).
      rewrite F1 in Ht. apply (proj1 (sort_thresholds_In _ _)) in Ht.
      destruct (dget Qeq_bool t (ev_agnostic ev)) as [table|] eqn:Ed; [|unfold dgetE at 1 in Et; rewrite Ed in Et; discriminate].
      unfold dgetE at 1 in Et. rewrite Ed in Et. cbn [bind] in Et. destruct (MM _ _ _ _ _ Et v Hv) as ([k c] & Hin & Ek). cbn [fst snd] in Ek.
      destruct (entry_original A sim sub gt ts cats ev Kd Kg H C TA t table k c Ht Ed Hin) as (d & g & O & G1 & _ & G2).
      rewrite F3, F4, G1, G2 in Ek. cbn [bind] in Ek. rewrite (proj2 (copies_original _ _ _ C d g O)) in Ek.
      rewrite (proj2 (C16_pair_zero query HQ _ _)) in Ek by (right; right; intro; tauto). congruence. }
    assert (S0 : fold_right Rplus 0%R vals = 0%R).
    { clear -Z. induction vals as [|v vals IH]; [reflexivity|]. cbn [fold_right]. rewrite (Z v (or_introl eq_refl)), IH by (intros; apply Z; right; assumption). apply Rplus_0_l. }
    rewrite S0 in M. apply Rmult_integral in M. destruct M as [M|M]; [exact M|]. exfalso. destruct vals; [contradiction|]. revert M. apply not_0_INR. discriminate.
  - exfalso. destruct ts as [|t ts]; [contradiction|]. destruct (elements gt) as [|g gs] eqn:Eg; [contradiction|].
    assert (G : In g (elements gt)) by (rewrite Eg; left; reflexivity). rewrite <- Eg in *. clear Eg.
    destruct (C79_matches A sim sub gt _ cats ev Kd Kg H C TA t (or_introl eq_refl)) as (assoc & Ea & _).
    destruct (original_entry A sim sub gt _ cats ev Kd Kg H C TA t assoc g (or_introl eq_refl) Ea G) as (k & c & I & _).
    rewrite (proj1 E1 eq_refl t assoc (or_introl eq_refl) Ea) in I. destruct I.
Qed.

(** Pose errors are zero, if no object has a cylindrical axis (see [C28_identical_refuted]). *)
Theorem C79_pose : forall lognorm, lognorm_ok lognorm ->
  forall (sim : placed -> placed -> Q) sub gt ts cats ev,
  keyed_by_id sub -> keyed_by_id gt -> evaluator_init sim sub gt ts cats = Ok ev ->
  copies (elements sub) (elements gt) -> told_apart sim (elements sub) (elements gt) ts ->
  (forall g, In g (elements gt) -> rotation (pR (fst (e_info g))) /\ accepted (snd (e_info g)) /\
     forall axis, (axis < 3)%nat -> sym_of (snd (e_info g)) axis <> cylindrical) ->
  ts <> [] -> (exists g, In g (elements gt) /\ e_evaluated g = true) -> pose_error lognorm ev = Ok (Some (0, 0)%R).
Proof.
  intros lognorm L sim sub gt ts cats ev Kd Kg H C TA W Nt (g0 & G0 & Ev0).
  assert (RG : forall g, In g (elements gt) -> rotation (pR (fst (e_info g)))) by (intros g G; apply W, G).
  assert (RD : forall d, In d (elements sub) -> rotation (pR (fst (e_info d)))).
  { intros d D. destruct (combine_l _ _ (elements sub) (elements gt) d (copies_length _ _ _ C) D) as (g & O).
    rewrite (proj2 (copies_original _ _ _ C d g O)). apply RG. eapply in_combine_r. exact O. }
  destruct (C57_identical_poses lognorm L sim sub gt ts cats ev Kd Kg H RD RG) as [E|E]; [| |exact E].
  - intros t table k c d g Ht Et I Gd Gg. destruct (entry_original _ sim sub gt ts cats ev Kd Kg H C TA t table k c Ht Et I) as (d' & g' & O & _ & G1 & G2).
    unfold dgetE in G1, G2. rewrite Gd in G1. rewrite Gg in G2. injection G1 as <-. injection G2 as <-.
    rewrite (proj2 (copies_original _ _ _ C d g O)). split; [reflexivity|]. apply W. eapply in_combine_r. exact O.
  - exfalso. destruct (C57_pose_error lognorm L sim sub gt ts cats ev Kd Kg H RD RG) as (r & ll & E' & F & _ & N & _). rewrite E in E'. injection E' as <-.
    assert (Z := proj1 N eq_refl). destruct (init_fields sim _ _ _ _ _ H) as (F1 & F2 & F3 & F4).
    destruct (ev_thresholds ev) as [|t rest] eqn:Eth.
    { destruct ts as [|t ts]; [contradiction|]. assert (I : In t (sort_thresholds (t :: ts))) by (apply (proj2 (sort_thresholds_In _ _)); left; reflexivity). rewrite <- F1 in I. destruct I. }
    assert (Ht : In t ts) by (apply (proj1 (sort_thresholds_In _ _)); rewrite <- F1; left; reflexivity).
    inversion F as [|? l ? ll' (table & Et & fl & Ff & El) F']; subst ll. specialize (Z l (or_introl eq_refl)).
    destruct (original_entry _ sim sub gt ts cats ev Kd Kg H C TA t table g0 Ht Et G0) as (k & c & I & Gg).
    assert (X : exists p, In p l).
    { rewrite El. clear -Ff I Gg Ev0 F4. induction Ff as [|[k' c'] ps table fl (d & g & X1 & X2 & X3) Ff IH]; [destruct I|]. destruct I as [I|I].
      - injection I as -> ->. cbn [snd] in X2. unfold dgetE in Gg. rewrite <- F4, X2 in Gg. injection Gg as ->. rewrite Ev0 in X3. subst ps. eexists. left. reflexivity.
      - destruct (IH I) as (p & P). exists p. cbn [List.concat]. apply in_or_app. right. exact P. }
    destruct X as (p & P). rewrite Z in P. destruct P.
Qed.

Local Open Scope R_scope.

Lemma similarity_one : forall query, query_ok query -> forall thresh (e1 e2 : elem (list row)),
  (mesh_similarity query thresh e1 e2 == 1)%Q <->
  (e_info e1 <> [] \/ e_info e2 <> []) /\ (forall r, In r (e_info e1) -> near thresh (map r_pos (e_info e2)) (r_pos r)) /\
  (forall r, In r (e_info e2) -> near thresh (map r_pos (e_info e1)) (r_pos r)).
Proof. intros query HQ thresh e1 e2. apply (C14_one_iff query HQ); apply mesh_bbox_encloses. Qed.

(** Spread objects are told apart by the mesh track. *)
Lemma mesh_apart : forall query, query_ok query -> forall thresh sub gt ts, 0 <= thresh ->
  copies sub gt -> spread thresh gt -> (forall t, In t ts -> (t <= 1)%Q) -> told_apart (mesh_similarity query thresh) sub gt ts.
Proof.
  intros query HQ thresh sub gt ts Hth C (S1 & S2) T d g O. assert (G : In g gt) by (eapply in_combine_r; exact O).
  assert (E := proj2 (copies_original _ _ _ C d g O)).
  assert (one : (mesh_similarity query thresh d g == 1)%Q).
  { apply (similarity_one query HQ). rewrite E. split; [left; apply S1, G|].
    assert (X : forall r, In r (e_info g) -> near thresh (map r_pos (e_info g)) (r_pos r)) by (intros r I; exists (r_pos r); split; [apply in_map, I|rewrite dist_self; exact Hth]). auto. }
  split; [intros t It; rewrite one; exact (T t It)|]. intros g' G' N. rewrite one.
  assert (B := proj2 (C14_bounds query (e_info d) (mesh_bbox (e_info d)) (e_info g') (mesh_bbox (e_info g')) thresh)).
  change (mesh_similarity query thresh d g' <= 1)%Q in B. apply Qle_lteq in B. destruct B as [B|B]; [exact B|]. exfalso.
  apply (similarity_one query HQ) in B. rewrite E in B. destruct B as (_ & B1 & B2).
  destruct (S2 g g' G G' (fun e => N (eq_sym e))) as (r & [[I X]|[I X]]); apply X; [exact (B1 r I)|exact (B2 r I)].
Qed.

(** The mesh track: a copy of a scene of spread objects is matched to its originals,
    gets scores no submission exceeds, and has no surface error. *)
Theorem C79_mesh : forall query argsort, query_ok query -> argsort_ok argsort -> forall thresh sub gt ts cats ev,
  0 <= thresh -> (forall t, In t ts -> (t <= 1)%Q) -> keyed_by_id sub -> keyed_by_id gt ->
  copies (elements sub) (elements gt) -> spread thresh (elements gt) ->
  evaluator_init (mesh_similarity query thresh) sub gt ts cats = Ok ev ->
  (forall t, In t ts -> exists assoc, dget Qeq_bool t (ev_agnostic ev) = Some assoc /\
    (forall d g, pairs (elements sub) (elements gt) assoc d g <-> original (elements sub) (elements gt) d g)) /\
  (ts <> [] -> elements gt <> [] -> points_rmsssd query (fun p => p) ev = Ok (Some 0)) /\
  (ts <> [] -> (exists g, In g (elements gt) /\ e_evaluated g = true) ->
    exists s, shape_score argsort ev = Ok (Some s) /\ (s == full_marks (n_evaluated (elements gt)))%Q) /\
  (forall sub' ev' s', keyed_by_id sub' -> evaluator_init (mesh_similarity query thresh) sub' gt ts cats = Ok ev' ->
    (shape_score argsort ev' = Ok (Some s') -> exists s, shape_score argsort ev = Ok (Some s) /\ (s' <= s)%Q) /\
    (semantics_score argsort ev' = Ok (Some s') -> exists s, semantics_score argsort ev = Ok (Some s) /\ (s' <= s)%Q)).
Proof.
  intros query argsort HQ Ha thresh sub gt ts cats ev Hth T Kd Kg C S H.
  assert (TA := mesh_apart query HQ thresh _ _ ts Hth C S T).
  split; [exact (C79_matches _ _ sub gt ts cats ev Kd Kg H C TA)|]. split; [exact (C79_points query HQ _ _ (fun p => p) sub gt ts cats ev Kd Kg H C TA)|].
  split; [exact (C79_shape _ _ argsort sub gt ts cats ev Ha Kd Kg H C TA)|]. intros sub' ev' s' Kd' H'.
  destruct (C79_best _ _ _ argsort sub sub' gt ts cats ev ev' Ha Kd Kd' Kg H H' C TA) as (B1 & B2). split; [apply B1|apply B2].
Qed.

(** Three points one apart, as objects of one point each. *)
Definition dot_at (id : string) (x : R) : string * elem (list row) := (id, mkElem id "lamp" 1%Q true [Row (V x 0 0) [0; 0; 0]]).
Definition ex_dots : @scene (list row) := [dot_at "a" 0; dot_at "b" 1; dot_at "c" 2].

Lemma dots_dist : forall x y, dist (V x 0 0) (V y 0 0) = Rabs (x - y).
Proof. intros x y. unfold dist, norm, dot, vsub. cbn. rewrite <- sqrt_Rsqr_abs. f_equal. unfold Rsqr. ring. Qed.

Lemma ex_dots_keyed : keyed_by_id ex_dots.
Proof. split; [repeat constructor; cbn; intuition discriminate|]. intros k e I. repeat (destruct I as [I|I]; [injection I as <- <-; reflexivity|]). destruct I. Qed.

Lemma copy_itself : forall A (l : list (elem A)), copies l l.
Proof. intros A l. induction l; constructor; auto. Qed.

(** Two thresholds on the distance of the dots: at 1/2 they are told apart, at 1 not. *)
Lemma dots_near : forall thresh x y, near thresh (map r_pos [Row (V y 0 0) [0; 0; 0]]) (V x 0 0) <-> Rabs (x - y) <= thresh.
Proof.
  intros thresh x y. split.
  - intros (q & [<-|[]] & D). cbn [r_pos] in D. rewrite dots_dist in D. exact D.
  - intro D. exists (V y 0 0). split; [left; reflexivity|]. rewrite dots_dist. exact D.
Qed.

Lemma dots_spread : spread (1 / 2) (elements ex_dots).
Proof.
  split; [intros g I; repeat (destruct I as [<-|I]; [discriminate|]); destruct I|].
  intros g g' I I' N. cbn [ex_dots elements map snd dot_at] in I, I'.
  repeat (destruct I as [<-|I]; [|]); try destruct I; repeat (destruct I' as [<-|I']; [|]); try destruct I'; try contradiction;
    (eexists; left; split; [left; reflexivity|]; cbn [r_pos e_info]; rewrite dots_near; unfold Rabs; destruct (Rcase_abs _); Lra.lra).
Qed.

Definition dots_sim (d g : elem (list row)) : Q :=
  if (String.eqb (e_id d) "a" && String.eqb (e_id g) "c" || String.eqb (e_id d) "c" && String.eqb (e_id g) "a")%bool then 0%Q else 1%Q.

Lemma dots_similar : forall query, query_ok query -> forall d g, In d (elements ex_dots) -> In g (elements ex_dots) ->
  (mesh_similarity query 1 d g == dots_sim d g)%Q.
Proof.
  intros query HQ d g D G.
  assert (V1 : forall i j x y, Rabs (x - y) <= 1 -> (mesh_similarity query 1 (snd (dot_at i x)) (snd (dot_at j y)) == 1)%Q).
  { intros i j x y E. apply (similarity_one query HQ). cbn [dot_at snd e_info]. split; [left; discriminate|].
    split; intros r [<-|[]]; cbn [r_pos]; apply dots_near; [exact E|rewrite Rabs_minus_sym; exact E]. }
  assert (V0 : forall i j x y, ~ Rabs (x - y) <= 1 -> (mesh_similarity query 1 (snd (dot_at i x)) (snd (dot_at j y)) == 0)%Q).
  { intros i j x y E. assert (X := C15_mesh_similarity query HQ 1 (snd (dot_at i x)) (snd (dot_at j y)) 0 0). cbn [dot_at snd e_info List.length map r_pos] in X |- *. rewrite X; [reflexivity| |].
    - apply counts_no; [rewrite (dots_near 1 x y); exact E|constructor].
    - apply counts_no; [rewrite (dots_near 1 y x), Rabs_minus_sym; exact E|constructor]. }
  cbn [ex_dots elements map] in D, G.
  repeat (destruct D as [<-|D]; [|]); try destruct D; repeat (destruct G as [<-|G]; [|]); try destruct G; unfold dots_sim; cbn [e_id dot_at snd];
    first [apply V1; unfold Rabs; destruct (Rcase_abs _); Lra.lra | apply V0; unfold Rabs; destruct (Rcase_abs _); Lra.lra].
Qed.

(** Objects closer than the distance threshold: the scene compared with itself is not
    matched to itself, and gets less than full marks. *)
Theorem C79_mesh_refuted : exists query argsort thresh gt ts cats ev s,
  query_ok query /\ argsort_ok argsort /\ 0 <= thresh /\ keyed_by_id gt /\ (forall t, In t ts -> (t <= 1)%Q) /\
  (forall g, In g (elements gt) -> e_info g <> [] /\ e_evaluated g = true) /\
  (forall g g', In g (elements gt) -> In g' (elements gt) -> g <> g' -> map r_pos (e_info g) <> map r_pos (e_info g')) /\
  evaluator_init (mesh_similarity query thresh) gt gt ts cats = Ok ev /\
  shape_score argsort ev = Ok (Some s) /\ (s < full_marks (n_evaluated (elements gt)))%Q.
Proof.
  exists brute, stable_argsort, 1, ex_dots, [1 # 2]%Q, ["lamp"].
  assert (X := C78_scores stable_argsort (list row) (list row) (fun x => x) (fun x => x) (mesh_similarity brute 1) dots_sim ex_dots ex_dots ex_dots ex_dots [1 # 2]%Q ["lamp"]
    (fun x y e => e) (fun x y e => e)).
  assert (RS : relabelled_scene (fun x => x) ex_dots ex_dots) by (repeat constructor).
  specialize (X RS RS).
  assert (PT : forall e e' : elem (list row), partners ex_dots ex_dots e e' -> e = e' /\ In e (elements ex_dots)).
  { intros e e' (k & k' & I). cbn [combine ex_dots] in I.
    repeat (destruct I as [I|I]; [inversion I; subst; split; [reflexivity|cbn; tauto]|]); destruct I. }
  specialize (X (fun d d' g g' P Q => match PT d d' P, PT g g' Q with conj E i, conj F j =>
    eq_ind d (fun x => mesh_similarity brute 1 d g == dots_sim x g')%Q (eq_ind g (fun y => mesh_similarity brute 1 d g == dots_sim d y)%Q (dots_similar brute brute_ok d g i j) g' F) d' E end)).
  destruct (keyed_init_ok (mesh_similarity brute 1) ex_dots ex_dots [1 # 2]%Q ["lamp"] ex_dots_keyed ex_dots_keyed) as (ev & E & _). rewrite E in X.
  destruct (evaluator_init dots_sim ex_dots ex_dots [1 # 2]%Q ["lamp"]) as [ev'|] eqn:E'; [|destruct X]. destruct X as (X & _).
  assert (Y : exists s, shape_score stable_argsort ev' = Ok (Some s) /\ (s < full_marks 3)%Q).
  { assert (Z : (let* e := evaluator_init dots_sim ex_dots ex_dots [1 # 2]%Q ["lamp"] in shape_score stable_argsort e) = shape_score stable_argsort ev') by (rewrite E'; reflexivity).
    rewrite <- Z. eexists. split; [vm_compute; reflexivity|]. vm_compute. reflexivity. }
  destruct Y as (s & Y1 & Y2). exists ev, s. rewrite <- X. split; [exact brute_ok|]. split; [exact stable_argsort_ok|]. split; [Lra.lra|].
  split; [exact ex_dots_keyed|]. split; [intros t [<-|[]]; discriminate|].
  split; [intros g I; repeat (destruct I as [<-|I]; [split; [discriminate|reflexivity]|]); destruct I|].
  split; [|split; [exact E|]; split; [exact Y1|exact Y2]].
  intros g g' I I' N. cbn [ex_dots elements map] in I, I'.
  repeat (destruct I as [<-|I]; [|]); try destruct I; repeat (destruct I' as [<-|I']; [|]); try destruct I'; try contradiction;
    (cbn; intro e; injection e; intros; Lra.lra).
Qed.

(** The same three dots with threshold 1/2: spread, hence full marks 3 / (3 + epsilon). *)
Example C79_example : exists ev s,
  keyed_by_id ex_dots /\ spread (1 / 2) (elements ex_dots) /\
  evaluator_init (mesh_similarity brute (1 / 2)) ex_dots ex_dots [1 # 2; 95 # 100]%Q ["lamp"] = Ok ev /\
  shape_score stable_argsort ev = Ok (Some s) /\ (s == full_marks 3)%Q /\ (s < 1)%Q /\
  points_rmsssd brute (fun p => p) ev = Ok (Some 0).
Proof.
  destruct (keyed_init_ok (mesh_similarity brute (1 / 2)) ex_dots ex_dots [1 # 2; 95 # 100]%Q ["lamp"] ex_dots_keyed ex_dots_keyed) as (ev & E & _).
  assert (T : forall t, In t [1 # 2; 95 # 100]%Q -> (t <= 1)%Q) by (intros t [<-|[<-|[]]]; discriminate).
  destruct (C79_mesh brute stable_argsort brute_ok stable_argsort_ok (1 / 2) ex_dots ex_dots _ _ ev ltac:(Lra.lra) T ex_dots_keyed ex_dots_keyed (copy_itself _ _) dots_spread E)
    as (_ & P & S & _).
  destruct (S ltac:(discriminate)) as (s & S1 & S2); [eexists; split; [left; reflexivity|reflexivity]|].
  exists ev, s. split; [exact ex_dots_keyed|]. split; [exact dots_spread|]. split; [exact E|]. split; [exact S1|]. split; [exact S2|].
  split; [rewrite S2; vm_compute; reflexivity|apply P; discriminate].
Qed.

Print Assumptions C79_matches.
Print Assumptions C79_shape.
Print Assumptions C79_semantics.
Print Assumptions C79_best.
Print Assumptions C79_points.
Print Assumptions C79_pose.
Print Assumptions C79_mesh.
Print Assumptions C79_mesh_refuted.
