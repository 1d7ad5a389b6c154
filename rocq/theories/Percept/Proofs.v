(** Lemmas about the perceptual score. *)
From Coq Require Import Reals List Bool String QArith Lra Lia.
From Verif.Base Require Import Py PyFacts Vec Sort.
From Verif.Geom Require Import Model.
From Verif.Box Require Import Model Spec.
From Verif.Assoc Require Import Model Spec Proofs.
From Verif.Scores Require Import Proofs.
From Verif.Percept Require Import Model Spec.
Import ListNotations.
Local Open Scope string_scope.
Local Open Scope list_scope.
Local Open Scope R_scope.

(** * Sums *)

Lemma total_app : forall A (f : A -> R) a b, total f (a ++ b) = total f a + total f b.
Proof. intros A f a b. unfold total. induction a as [|x a IH]; cbn; [ring|]. rewrite IH. ring. Qed.

Lemma total_le : forall A (f g : A -> R) l, (forall x, In x l -> f x <= g x) -> total f l <= total g l.
Proof.
  intros A f g l. induction l as [|x l IH]; intros H; cbn; [lra|]. assert (H1 := H x (or_introl eq_refl)).
  assert (H2 : total f l <= total g l) by (apply IH; intros; apply H; right; assumption). unfold total in *. lra.
Qed.

Lemma total_ext : forall A (f g : A -> R) l, (forall x, In x l -> f x = g x) -> total f l = total g l.
Proof. intros A f g l H. apply Rle_antisym; apply total_le; intros x I; rewrite H by exact I; lra. Qed.

Lemma total_ge0 : forall A (f : A -> R) l, (forall x, In x l -> 0 <= f x) -> 0 <= total f l.
Proof.
  intros A f l H. replace 0 with (total (fun _ : A => 0) l); [apply total_le; exact H|]. unfold total. clear H. induction l; cbn; lra.
Qed.

(** Equal sums of ordered terms: all terms are equal. *)
Lemma total_eq : forall A (f g : A -> R) l, (forall x, In x l -> f x <= g x) -> total f l = total g l -> forall x, In x l -> f x = g x.
Proof.
  intros A f g l. induction l as [|y l IH]; intros H E x I; [destruct I|].
  assert (H1 := H y (or_introl eq_refl)). assert (H2 : total f l <= total g l) by (apply total_le; intros; apply H; right; assumption).
  unfold total in E. cbn in E. fold (total f l) (total g l) in E. destruct I as [<-|I]; [lra|]. apply IH; [intros; apply H; right; assumption|lra|exact I].
Qed.

Lemma total_zero : forall A (f : A -> R) l, (forall x, In x l -> 0 <= f x) -> (total f l = 0 <-> forall x, In x l -> f x = 0).
Proof.
  intros A f l H. assert (Z : total (fun _ : A => 0) l = 0) by (unfold total; clear H; induction l; cbn; lra). split.
  - intros E x I. symmetry. apply (total_eq _ (fun _ => 0) f l H); [congruence|exact I].
  - intros E. rewrite <- Z. apply total_ext. exact E.
Qed.

Lemma total_scale : forall A (f : A -> R) c l, total (fun x => c * f x) l = c * total f l.
Proof. intros A f c l. unfold total. induction l; cbn; [ring|]. rewrite IHl. ring. Qed.

(** * The curve *)

Lemma gaussian_ok : forall g x, std_dev g <> 0 -> _gaussian_function g x = Ok (bell g x).
Proof.
  intros g x S. unfold _gaussian_function, bell. destruct (Req_EM_T (std_dev g) 0); [contradiction|].
  do 3 f_equal. field. exact S.
Qed.

Lemma bell_bounds : forall g x, 0 <= weight g -> std_dev g <> 0 -> 0 <= bell g x <= weight g.
Proof.
  intros g x W S. unfold bell. assert (E := exp_pos (- ((x - mean g) * (x - mean g)) / (2 * (std_dev g * std_dev g)))).
  assert (P : 0 < std_dev g * std_dev g) by (apply Rsqr_pos_lt; exact S).
  assert (L : exp (- ((x - mean g) * (x - mean g)) / (2 * (std_dev g * std_dev g))) <= 1).
  { rewrite <- exp_0. destruct (Req_dec (x - mean g) 0) as [Z|Z].
    - rewrite Z. right. f_equal. field. exact S.
    - left. apply exp_increasing. assert (Q : 0 < (x - mean g) * (x - mean g)) by (apply Rsqr_pos_lt; exact Z).
      assert (I : 0 < / (2 * (std_dev g * std_dev g))) by (apply Rinv_0_lt_compat; lra). unfold Rdiv. nra. }
  split; [nra|]. nra.
Qed.

Lemma bell_top : forall g x, 0 < weight g -> std_dev g <> 0 -> (bell g x = weight g <-> x = mean g).
Proof.
  intros g x W S. unfold bell. assert (P : 0 < std_dev g * std_dev g) by (apply Rsqr_pos_lt; exact S). split.
  - intros E. destruct (Req_dec (x - mean g) 0) as [Z|Z]; [lra|]. exfalso.
    assert (L : exp (- ((x - mean g) * (x - mean g)) / (2 * (std_dev g * std_dev g))) < exp 0).
    { apply exp_increasing. assert (Q : 0 < (x - mean g) * (x - mean g)) by (apply Rsqr_pos_lt; exact Z).
      assert (I : 0 < / (2 * (std_dev g * std_dev g))) by (apply Rinv_0_lt_compat; lra). unfold Rdiv. nra. }
    rewrite exp_0 in L. nra.
  - intros ->. replace (- ((mean g - mean g) * (mean g - mean g)) / (2 * (std_dev g * std_dev g))) with 0 by (field; exact S).
    rewrite exp_0. ring.
Qed.

(** * The room *)

Lemma area_footprint : forall e, area e = footprint (e_bounds e).
Proof. reflexivity. Qed.

Lemma fold_area : forall (p : solid -> bool) (f : solid -> R) l a, (forall e, In e l -> f e = if p e then area e else 0) ->
  fold_left (fun a e => if p e then a + area e else a) l a = a + total f l.
Proof.
  intros p f l. induction l as [|e l IH]; intros a H; cbn [fold_left]; [unfold total; cbn; ring|].
  rewrite IH by (intros; apply H; right; assumption). unfold total. cbn [fold_right]. rewrite (H e (or_introl eq_refl)). destruct (p e); ring.
Qed.

Lemma floor_evaluated : forall l, floor_area (filter e_evaluated l) =
  total (fun e => if (String.eqb (e_category e) "floor" && e_evaluated e)%bool then area e else 0) l.
Proof.
  intros l. unfold floor_area, total. induction l as [|e l IH]; [reflexivity|]. cbn [filter fold_right]. rewrite <- IH.
  destruct (String.eqb_spec (e_category e) "floor") as [E|E], (e_evaluated e); cbn [andb fold_right];
    try destruct (string_dec (e_category e) "floor"); try contradiction; rewrite ?area_footprint; ring.
Qed.

Lemma room_ok : forall ev, _room_scale ev = room_ratio (elements (ev_submission ev)) (elements (ev_ground_truth ev)).
Proof.
  intros ev. unfold _room_scale, room_ratio.
  rewrite (fold_area (fun e => (String.eqb (e_category e) "floor" && e_evaluated e)%bool)
     (fun e => if (String.eqb (e_category e) "floor" && e_evaluated e)%bool then area e else 0)) by reflexivity.
  rewrite (fold_area (fun e => String.eqb (e_category e) "floor") (fun e => if string_dec (e_category e) "floor" then footprint (e_bounds e) else 0)).
  - rewrite floor_evaluated, !Rplus_0_l. reflexivity.
  - intros e _. destruct (String.eqb_spec (e_category e) "floor"), (string_dec (e_category e) "floor"); try contradiction; reflexivity.
Qed.

(** * One threshold *)

Section One.
  Variables (sim : solid -> solid -> Q) (sub gt : @scene (box * pose)) (ts : list Q) (cats : list string) (ev : @evaluator (box * pose)).
  Hypotheses (Kd : keyed_by_id sub) (Kg : keyed_by_id gt) (Hev : evaluator_init sim sub gt ts cats = Ok ev).
  Variable params : perceptual.
  Hypothesis SA : sane params.

  Lemma lookup : forall (s : @scene (box * pose)) d, keyed_by_id s -> In d (elements s) -> sget (e_id d) s = Some d.
  Proof.
    intros s d [N K] H. unfold elements in H. apply in_map_iff in H. destruct H as ([k e] & E & Hin). simpl in E. subst e.
    rewrite <- (K k d Hin). rewrite (dget_NoDup String.eqb str_eqb_spec s k d); [reflexivity|exact N|exact Hin].
  Qed.

  Lemma curve : forall g, In g (curves params) -> std_dev g <> 0.
  Proof. intros g I. apply (proj1 SA g I). Qed.

  Lemma matches_fold : forall room l st, (forall d g, In (d, g) l -> In d (elements sub) /\ In g (elements gt)) ->
    foldM (match_step ev params room) st (map (fun p => corr_of sim (fst p) (snd p)) l) =
    let terms := flat_map (pair_terms params room) (filter (fun p => e_evaluated (snd p)) l) in
    Ok (fst st + total (fun t => bell (fst t) (snd t)) terms, snd st + total (fun t => weight (fst t)) terms).
  Proof.
    destruct (init_fields sim _ _ _ _ _ Hev) as (_ & _ & F3 & F4).
    intros room l. induction l as [|[d g] l IH]; intros st H; cbn [map foldM filter flat_map].
    - destruct st. cbn. do 2 f_equal; ring.
    - destruct (H d g (or_introl eq_refl)) as (Hd & Hg).
      assert (ST : match_step ev params room st (corr_of sim d g) =
        let terms := if e_evaluated g then pair_terms params room (d, g) else [] in
        Ok (fst st + total (fun t => bell (fst t) (snd t)) terms, snd st + total (fun t => weight (fst t)) terms)).
      { unfold match_step. rewrite F3, F4. cbn [c_gt c_det corr_of]. unfold dgetE. rewrite (lookup gt g Kg Hg), (lookup sub d Kd Hd). cbn [bind].
        destruct (e_evaluated g); cbn [negb]; [|destruct st; cbn; do 2 f_equal; ring].
        unfold pair_terms. cbv zeta. change (volume (e_bounds g)) with (size_of g). change (volume (e_bounds d)) with (size_of d).
        assert (GD : sqrt (vx (vsub (e_t d) (e_t g)) * vx (vsub (e_t d) (e_t g)) + vz (vsub (e_t d) (e_t g)) * vz (vsub (e_t d) (e_t g))) =
                     ground_distance (e_t d) (e_t g)) by (unfold ground_distance; f_equal; unfold vsub; cbn; ring).
        assert (EL : vy (vsub (e_t d) (e_t g)) = vy (e_t d) - vy (e_t g)) by reflexivity.
        rewrite GD, EL.
        rewrite !gaussian_ok by (apply curve; cbn; tauto).
        destruct (Rlt_dec 0 (size_of g)); destruct (Rlt_dec 0 (size_of g * room)); cbn [bind fst snd app];
          unfold total; cbn [fold_right fst snd]; do 2 f_equal; ring. }
      cbn [fst snd]. rewrite ST. cbv zeta. cbn [bind]. rewrite IH by (intros; apply H; right; assumption). cbv zeta. cbn [fst snd].
      destruct (e_evaluated g); cbn [flat_map]; rewrite ?total_app; cbn [total fold_right]; do 2 f_equal; unfold total; cbn; ring.
  Qed.

  Lemma missed_fold : forall l s, (forall g, In g l -> In g (elements gt)) ->
    foldM (fun s gt_id => let* e := sgetE gt_id (ev_ground_truth ev) in
        Ok (if e_evaluated e then s - p_missed_weight params * volume (e_bounds e) else s)) s (map e_id l) =
    Ok (s - p_missed_weight params * total size_of (filter e_evaluated l)).
  Proof.
    destruct (init_fields sim _ _ _ _ _ Hev) as (_ & _ & _ & F4).
    intros l. induction l as [|g l IH]; intros s H; cbn [map foldM filter]; [unfold total; cbn; f_equal; ring|].
    rewrite F4 in *. unfold dgetE in *. rewrite (lookup gt g Kg (H g (or_introl eq_refl))). cbn [bind].
    rewrite IH by (intros; apply H; right; assumption). destruct (e_evaluated g); unfold total; cbn [fold_right]; [|reflexivity].
    f_equal. change (volume (e_bounds g)) with (size_of g). ring.
  Qed.

  Lemma extra_fold : forall l s, (forall d, In d l -> In d (elements sub)) ->
    foldM (fun s det_id => let* e := sgetE det_id (ev_submission ev) in
        Ok (s - p_extra_weight params * volume (e_bounds e))) s (map e_id l) =
    Ok (s - p_extra_weight params * total size_of l).
  Proof.
    destruct (init_fields sim _ _ _ _ _ Hev) as (_ & _ & F3 & _).
    intros l. induction l as [|d l IH]; intros s H; cbn [map foldM]; [unfold total; cbn; f_equal; ring|].
    rewrite F3 in *. unfold dgetE in *. rewrite (lookup sub d Kd (H d (or_introl eq_refl))). cbn [bind].
    rewrite IH by (intros; apply H; right; assumption). unfold total; cbn [fold_right]. f_equal. change (volume (e_bounds d)) with (size_of d). ring.
  Qed.

  Lemma terms_sane : forall room matched t, In t (all_terms params room matched) -> In (fst t) (curves params).
  Proof.
    intros room matched t [<-|I]; [cbn; auto|]. apply in_flat_map in I. destruct I as ([d g] & _ & I). unfold pair_terms in I.
    apply in_app_or in I. destruct I as [I|I]; [destruct (Rlt_dec 0 (size_of g)); [destruct I as [<-|[]]; cbn; auto|destruct I]|].
    apply in_app_or in I. destruct I as [I|I]; [destruct (Rlt_dec 0 (size_of g * room)); [destruct I as [<-|[]]; cbn; auto|destruct I]|].
    destruct I as [<-|[<-|[]]]; cbn; tauto.
  Qed.

  Lemma bells_le : forall room matched,
    total (fun t => bell (fst t) (snd t)) (all_terms params room matched) <= best_score params room matched.
  Proof.
    intros room matched. apply total_le. intros t I. apply terms_sane in I. destruct (proj1 SA _ I). apply bell_bounds; assumption.
  Qed.

  Hypotheses (BXd : proper (elements sub)) (BXg : proper (elements gt)).
  Local Lemma BX : forall e, In e (elements sub) \/ In e (elements gt) -> normalized (e_bounds e).
  Proof. intros e [I|I]; [apply BXd|apply BXg]; exact I. Qed.

  Lemma size_ge0 : forall e, normalized (e_bounds e) -> 0 <= size_of e.
  Proof.
    intros e (X & Y & Z). unfold size_of, volume. cbn. apply Rmult_le_pos; [apply Rmult_le_pos|]; lra.
  Qed.

  Lemma raw_le : forall room matched missed extra, (forall e, In e missed -> In e (elements gt)) -> (forall e, In e extra -> In e (elements sub)) ->
    raw_score params room matched missed extra <= total (fun t => bell (fst t) (snd t)) (all_terms params room matched).
  Proof.
    intros room matched missed extra M E. unfold raw_score. destruct SA as (_ & P1 & P2).
    assert (0 <= total size_of missed) by (apply total_ge0; intros e I; apply size_ge0, BX; auto).
    assert (0 <= total size_of extra) by (apply total_ge0; intros e I; apply size_ge0, BX; auto).
    nra.
  Qed.

  Lemma parts_at : forall t, In t ts ->
    let l := run sim (dvalues gt) t (sort_dets sub) in
    parts (elements sub) (elements gt) (assoc_at sim sub gt t)
      (filter (fun p => e_evaluated (snd p)) l)
      (filter e_evaluated (filter (fun g => negb (str_in (e_id g) (map (fun p => e_id (snd p)) l))) (elements gt)))
      (filter (fun d => negb (str_in (e_id d) (map (fun p => e_id (fst p)) l))) (elements sub)).
  Proof.
    intros t Ht l.
    assert (Hd := keyed_nodup _ Kd). assert (Hg := keyed_nodup _ Kg).
    assert (Hsn : NoDup (sort_dets sub)) by (eapply NoDup_map_NoDup, sort_dets_ids_nodup, Hd).
    destruct (run_inv sim (dvalues gt) Hg t (sort_dets sub) Hsn) as [I1 I2 I3 I4 I5]. fold l in I1, I2, I3, I4, I5.
    assert (PR := pairs_run sim sub gt t Kd Kg). fold l in PR.
    assert (ID : forall d, In d (elements sub) -> (In (e_id d) (map (fun p => e_id (fst p)) l) <-> exists g, In (d, g) l)).
    { intros d D. split.
      - intros I. apply in_map_iff in I. destruct I as ([d' g] & E & I). cbn in E. assert (d' = d); [|subst; eauto].
        eapply NoDup_map_inj; [exact Hd| |exact D|exact E]. apply sort_dets_In. eapply I1. exact I.
      - intros (g & I). apply in_map_iff. exists (d, g). auto. }
    assert (IG : forall g, In g (elements gt) -> (In (e_id g) (map (fun p => e_id (snd p)) l) <-> exists d, In (d, g) l)).
    { intros g G. split.
      - intros I. apply in_map_iff in I. destruct I as ([d g'] & E & I). cbn in E. assert (g' = g); [|subst; eauto].
        eapply NoDup_map_inj; [exact Hg| |exact G|exact E]. eapply I2. exact I.
      - intros (d & I). apply in_map_iff. exists (d, g). auto. }
    split; [|split]; (split; [|]).
    - apply NoDup_filter. eapply NoDup_map_NoDup. exact I4.
    - intros [d g]. rewrite filter_In. cbn [fst snd]. rewrite PR. reflexivity.
    - apply NoDup_filter, NoDup_filter. eapply NoDup_map_NoDup. exact Hg.
    - intros g. rewrite !filter_In, negb_true_iff. rewrite <- not_true_iff_false, str_in_In. split.
      + intros ((G & N) & E). split; [exact G|]. split; [exact E|]. intros d P. apply N, IG; [exact G|]. apply PR in P. eauto.
      + intros (G & E & N). split; [|exact E]. split; [exact G|]. intros I. apply IG in I; [|exact G]. destruct I as (d & I). apply (N d), PR, I.
    - apply NoDup_filter. eapply NoDup_map_NoDup. exact Hd.
    - intros d. rewrite filter_In, negb_true_iff. rewrite <- not_true_iff_false, str_in_In. split.
      + intros (D & N). split; [exact D|]. intros g P. apply N, ID; [exact D|]. apply PR in P. eauto.
      + intros (D & N). split; [exact D|]. intros I. apply ID in I; [|exact D]. destruct I as (g & I). apply (N g), PR, I.
  Qed.

  Lemma step_ok : forall t, In t ts -> exists s,
    scored params (elements sub) (elements gt) (assoc_at sim sub gt t) s /\ perceptual_step ev params t = Ok s.
  Proof.
    intros t Ht. assert (PA := parts_at t Ht). cbv zeta in PA. set (l := run sim (dvalues gt) t (sort_dets sub)) in *.
    destruct (init_fields sim _ _ _ _ _ Hev) as (_ & _ & F3 & F4).
    eexists. split; [eexists; eexists; eexists; split; [exact PA|reflexivity]|].
    unfold perceptual_step, dgetE. rewrite (keyed_agnostic sim sub gt ts cats ev t Kd Kg Hev Ht). cbn [bind].
    assert (DV : dvalues (assoc_at sim sub gt t) = map (fun p => corr_of sim (fst p) (snd p)) l).
    { unfold assoc_at, enc_result, dvalues. rewrite map_map. fold (dvalues gt). fold l. reflexivity. }
    rewrite DV, !map_map. cbn [c_det c_gt corr_of].
    unfold _perceptual_score_1. rewrite room_ok, F3, F4, DV. set (room := room_ratio (elements sub) (elements gt)).
    rewrite gaussian_ok by (apply curve; cbn; auto). cbn [bind].
    rewrite matches_fold.
    2: { intros d g I. apply (pairs_run sim sub gt t Kd Kg) in I. destruct I as (A & B & _). auto. }
    cbv zeta. cbn [bind fst snd].
    replace (dkeys gt) with (map e_id (elements gt)) by (apply keyed_ids; exact Kg).
    replace (dkeys sub) with (map e_id (elements sub)) by (apply keyed_ids; exact Kd).
    rewrite !filter_map_comm.
    assert (MF := missed_fold (filter (fun g => negb (str_in (e_id g) (map (fun p => e_id (snd p)) l))) (elements gt))).
    rewrite F4 in MF. rewrite MF by (intros g I; apply filter_In in I; apply I). cbn [bind].
    assert (EF := extra_fold (filter (fun d => negb (str_in (e_id d) (map (fun p => e_id (fst p)) l))) (elements sub))).
    rewrite F3 in EF. rewrite EF by (intros g I; apply filter_In in I; apply I). cbn [bind].
    set (matched := filter (fun p => e_evaluated (snd p)) l) in *.
    set (missed := filter e_evaluated _) in *. set (extra := filter _ (elements sub)) in *.
    assert (RW : bell (p_room_scale params) room + total (fun t0 => bell (fst t0) (snd t0)) (flat_map (pair_terms params room) matched)
       - p_missed_weight params * total size_of missed - p_extra_weight params * total size_of extra = raw_score params room matched missed extra) by reflexivity.
    assert (BW : weight (p_room_scale params) + total (fun t0 => weight (fst t0)) (flat_map (pair_terms params room) matched) = best_score params room matched) by reflexivity.
    rewrite RW, BW. unfold final_score. destruct (Rle_dec (raw_score params room matched missed extra) 0); [reflexivity|].
    destruct (Req_EM_T (best_score params room matched) 0) as [Z|_]; [|reflexivity]. exfalso.
    assert (L := bells_le room matched). assert (L' := raw_le room matched missed extra). destruct PA as (_ & (_ & P2) & _ & P3).
    specialize (L' ltac:(intros e I; apply P2; exact I) ltac:(intros e I; apply P3; exact I)). lra.
  Qed.

  Lemma all_ok : exists scores, perceptual_score ev params = Ok (match scores with [] => None | _ => Some (fold_right Rplus 0 scores / INR (List.length scores)) end) /\
    Forall2 (fun t s => scored params (elements sub) (elements gt) (assoc_at sim sub gt t) s) (ev_thresholds ev) scores.
  Proof.
    destruct (init_fields sim _ _ _ _ _ Hev) as (F1 & _).
    assert (ALL : forall l, (forall t, In t l -> In t ts) -> exists scores, mapM (perceptual_step ev params) l = Ok scores /\
       Forall2 (fun t s => scored params (elements sub) (elements gt) (assoc_at sim sub gt t) s) l scores).
    { intros l. induction l as [|t l IH]; intros H; [exists []; split; [reflexivity|constructor]|].
      destruct (step_ok t (H t (or_introl eq_refl))) as (s & S & E). destruct IH as (ss & E' & F); [intros; apply H; right; assumption|].
      exists (s :: ss). cbn [mapM]. rewrite E. cbn [bind]. rewrite E'. split; [reflexivity|constructor; assumption]. }
    destruct (ALL (ev_thresholds ev)) as (scores & E & F).
    { intros t I. rewrite F1 in I. apply isort_In in I. exact I. }
    exists scores. split; [|exact F]. unfold perceptual_score. rewrite E. reflexivity.
  Qed.

  (** * Bounds *)

  Lemma scored_bounds : forall assoc s, scored params (elements sub) (elements gt) assoc s -> 0 <= s <= 1.
  Proof.
    intros assoc s (matched & missed & extra & (_ & (_ & P2) & _ & P3) & ->). set (room := room_ratio _ _).
    assert (L := bells_le room matched). assert (L' := raw_le room matched missed extra).
    specialize (L' ltac:(intros e I; apply P2; exact I) ltac:(intros e I; apply P3; exact I)).
    unfold final_score. destruct (Rle_dec _ 0) as [|N]; [lra|]. assert (B : 0 < best_score params room matched) by lra.
    split; [apply Rlt_le, Rdiv_lt_0_compat; lra|]. apply Rmult_le_reg_r with (best_score params room matched); [exact B|].
    unfold Rdiv. rewrite Rmult_assoc, Rinv_l by lra. lra.
  Qed.

  Lemma scored_one : (forall g, In g (curves params) -> 0 < weight g) -> forall assoc s, scored params (elements sub) (elements gt) assoc s ->
    (s = 1 <-> perfect params (elements sub) (elements gt) assoc).
  Proof.
    intros W assoc s (matched & missed & extra & PA & ->). set (room := room_ratio _ _).
    destruct SA as (S1 & S2 & S3).
    assert (GEN : forall matched missed extra, parts (elements sub) (elements gt) assoc matched missed extra ->
      (raw_score params room matched missed extra = best_score params room matched <->
       (forall t, In t (all_terms params room matched) -> snd t = mean (fst t)) /\
       (forall g, In g missed -> p_missed_weight params * size_of g = 0) /\ (forall d, In d extra -> p_extra_weight params * size_of d = 0))).
    { clear PA matched missed extra. intros matched missed extra (_ & (_ & P2) & _ & P3).
      assert (Z1 : forall g, In g missed -> 0 <= p_missed_weight params * size_of g).
      { intros g I. apply Rmult_le_pos; [exact S2|]. apply size_ge0, BX. right. apply P2. exact I. }
      assert (Z2 : forall d, In d extra -> 0 <= p_extra_weight params * size_of d).
      { intros g I. apply Rmult_le_pos; [exact S3|]. apply size_ge0, BX. left. apply P3. exact I. }
      assert (N1 := total_ge0 _ _ _ Z1). assert (N2 := total_ge0 _ _ _ Z2).
      rewrite <- (total_zero _ _ _ Z1), <- (total_zero _ _ _ Z2). unfold raw_score. rewrite <- !total_scale.
      assert (L := bells_le room matched). unfold best_score in *. split.
      - intros E. split; [|split; lra]. intros t I.
        assert (C := terms_sane room matched t I). destruct (S1 _ C). assert (W' := W _ C).
        apply (bell_top (fst t) (snd t)); [assumption|assumption|].
        apply (total_eq _ (fun t => bell (fst t) (snd t)) (fun t => weight (fst t)) (all_terms params room matched)); [|lra|exact I].
        intros t' I'. apply terms_sane in I'. destruct (S1 _ I'). apply bell_bounds; assumption.
      - intros (T & -> & ->). rewrite !Rminus_0_r. apply total_ext. intros t I. assert (C := terms_sane room matched t I). destruct (S1 _ C).
        apply bell_top; [apply W; exact C|assumption|]. apply T. exact I. }
    assert (B : 0 < best_score params room matched).
    { unfold best_score. cbn [all_terms total fold_right fst]. assert (W1 : 0 < weight (p_room_scale params)) by (apply W; cbn; auto).
      assert (0 <= total (fun t => weight (fst t)) (flat_map (pair_terms params room) matched)); [|unfold total in *; lra].
      apply total_ge0. intros t I. apply (proj1 (S1 _ (terms_sane room matched t (or_intror I)))). }
    assert (UN : final_score params room matched missed extra = 1 <-> raw_score params room matched missed extra = best_score params room matched).
    { unfold final_score. destruct (Rle_dec _ 0) as [N|N]; [split; lra|]. split; intros E.
      - apply (f_equal (fun x => x * best_score params room matched)) in E. unfold Rdiv in E. rewrite Rmult_assoc, Rinv_l in E by lra. lra.
      - rewrite E. unfold Rdiv. apply Rinv_r. lra. }
    rewrite UN, GEN by exact PA. split.
    - intros H. exists matched, missed, extra. split; [exact PA|exact H].
    - intros (matched' & missed' & extra' & ((_ & Q1) & (_ & Q2) & _ & Q3) & T & M & E). destruct PA as ((_ & R1) & (_ & R2) & _ & R3).
      split; [|split].
      + intros t [<-|I]; [apply T; left; reflexivity|]. apply T. right. apply in_flat_map in I. destruct I as (p & I & J). apply in_flat_map. exists p.
        split; [apply Q1, R1, I|exact J].
      + intros g I. apply M, Q2, R2, I.
      + intros d I. apply E, Q3, R3, I.
  Qed.
End One.

(** * Means of scores *)

Lemma sum_bounds : forall l, (forall s, In s l -> 0 <= s <= 1) -> 0 <= fold_right Rplus 0 l <= INR (List.length l).
Proof.
  intros l. induction l as [|s l IH]; intros H; [cbn; lra|]. cbn [fold_right List.length]. rewrite S_INR.
  assert (H1 := H s (or_introl eq_refl)). assert (H2 := IH (fun x I => H x (or_intror I))). lra.
Qed.

Lemma sum_one : forall l, (forall s, In s l -> 0 <= s <= 1) -> fold_right Rplus 0 l = INR (List.length l) -> forall s, In s l -> s = 1.
Proof.
  intros l. induction l as [|s l IH]; intros H E x I; [destruct I|]. cbn [fold_right List.length] in E. rewrite S_INR in E.
  assert (H1 := H s (or_introl eq_refl)). assert (H2 := sum_bounds l (fun x I => H x (or_intror I))).
  destruct I as [<-|I]; [lra|]. apply IH; [intros; apply H; right; assumption|lra|exact I].
Qed.

Lemma sum_ones : forall l, (forall s, In s l -> s = 1) -> fold_right Rplus 0 l = INR (List.length l).
Proof.
  intros l. induction l as [|s l IH]; intros H; [reflexivity|]. cbn [fold_right List.length]. rewrite S_INR, IH by (intros; apply H; right; assumption).
  rewrite (H s (or_introl eq_refl)). ring.
Qed.

Lemma mean_bounds : forall l, l <> [] -> (forall s, In s l -> 0 <= s <= 1) ->
  0 <= fold_right Rplus 0 l / INR (List.length l) <= 1 /\
  (fold_right Rplus 0 l / INR (List.length l) = 1 <-> forall s, In s l -> s = 1).
Proof.
  intros l N H. assert (P : 0 < INR (List.length l)) by (apply lt_0_INR; destruct l; [contradiction|cbn; lia]).
  assert (B := sum_bounds l H). assert (I : 0 < / INR (List.length l)) by (apply Rinv_0_lt_compat; exact P).
  assert (E1 : / INR (List.length l) * INR (List.length l) = 1) by (apply Rinv_l; lra). split; [unfold Rdiv; split; nra|]. split.
  - intros E. apply sum_one; [exact H|]. apply (f_equal (fun x => x * INR (List.length l))) in E. unfold Rdiv in E.
    rewrite Rmult_assoc, E1 in E. lra.
  - intros A. rewrite (sum_ones l A). unfold Rdiv. rewrite Rmult_comm. exact E1.
Qed.

(** * The same objects *)

Section Same.
  Variables (sim : solid -> solid -> Q) (sub gt : @scene (box * pose)) (ts : list Q).
  Hypotheses (Kd : keyed_by_id sub) (Kg : keyed_by_id gt) (SO : same_objects (elements sub) (elements gt))
    (RE : recognises sim (elements sub) (elements gt) ts).

  Lemma same_l : forall d, In d (elements sub) -> exists g, In g (elements gt) /\ same_object d g.
  Proof.
    intros d. unfold same_objects in SO. clear RE Kd Kg. revert SO. generalize (elements sub) (elements gt). intros a b F.
    induction F as [|x y a b S F IH]; intros I; [destruct I|]. destruct I as [<-|I]; [exists y; split; [left; reflexivity|exact S]|].
    destruct (IH I) as (g & G & E). exists g. split; [right; exact G|exact E].
  Qed.
  Lemma same_r : forall g, In g (elements gt) -> exists d, In d (elements sub) /\ same_object d g.
  Proof.
    intros g. unfold same_objects in SO. clear RE Kd Kg. revert SO. generalize (elements sub) (elements gt). intros a b F.
    induction F as [|x y a b S F IH]; intros I; [destruct I|]. destruct I as [<-|I]; [exists x; split; [left; reflexivity|exact S]|].
    destruct (IH I) as (d & G & E). exists d. split; [right; exact G|exact E].
  Qed.

  Lemma same_floor : floor_area (elements sub) = floor_area (elements gt).
  Proof.
    unfold same_objects in SO. clear RE Kd Kg. revert SO. unfold floor_area, total. generalize (elements sub) (elements gt). intros a b F.
    induction F as [|x y a b (S1 & S2 & S3) F IH]; [reflexivity|]. cbn [fold_right]. rewrite IH, S2. unfold e_bounds. rewrite S3. reflexivity.
  Qed.

  Lemma by_id : forall s (x y : solid), keyed_by_id s -> In x (elements s) -> In y (elements s) -> e_id x = e_id y -> x = y.
  Proof. intros s x y K I J E. eapply NoDup_map_inj; [apply (keyed_nodup _ K)|exact I|exact J|exact E]. Qed.

  Lemma pairs_same : forall t, In t ts -> forall d g, pairs (elements sub) (elements gt) (assoc_at sim sub gt t) d g <->
    In d (elements sub) /\ In g (elements gt) /\ same_object d g.
  Proof.
    intros t Ht.
    assert (IDS : forall d g, In d (elements sub) -> In g (elements gt) -> e_id d = e_id g -> same_object d g).
    { intros d g D G E. destruct (same_l d D) as (g' & G' & S). assert (g' = g); [|subst; exact S].
      apply (by_id gt); auto. rewrite <- E. symmetry. apply S. }
    destruct (stable_at sim sub gt t Kd Kg) as ([O1 O2 O3 O4 O5] & NB).
    set (M := pairs (elements sub) (elements gt) (assoc_at sim sub gt t)) in *.
    assert (NO : forall pre post, sort_dets sub = pre ++ post -> forall d g, In d pre -> M d g -> same_object d g).
    { intros pre. induction pre as [|x pre IH] using rev_ind; intros post E d g I Md; [destruct I|].
      rewrite <- app_assoc in E. cbn [app] in E. apply in_app_or in I. destruct I as [I|[<-|[]]]; [eapply IH; eassumption|].
      assert (D := O1 _ _ Md). assert (G := O2 _ _ Md).
      destruct (string_dec (e_id x) (e_id g)) as [Ei|Ei]; [apply IDS; assumption|]. exfalso.
      destruct (same_l x D) as (g0 & G0 & S0). destruct (RE x g0 D G0 S0) as (R1 & R2).
      assert (NE : g <> g0) by (intros ->; apply Ei; apply S0).
      apply (NB x g0). split; [exact D|]. split; [exact G0|]. split; [apply R1; exact Ht|]. split.
      - intros g' Mg. rewrite (O4 _ _ _ Mg Md). left. apply R2; assumption.
      - intros d' Md'. assert (D' := O1 _ _ Md'). assert (In d' (sort_dets sub)) as J by (apply sort_dets_In; exact D').
        rewrite E in J. apply in_app_or in J. destruct J as [J|[->|J]].
        + exfalso. assert (S' := IH _ E d' g0 J Md'). assert (d' = x) by (apply (by_id sub); auto; rewrite (proj1 S'); symmetry; apply S0).
          subst d'. apply NE. eapply O4; eassumption.
        + exfalso. apply NE. eapply O4; eassumption.
        + apply in_split in J. destruct J as (l2 & l3 & ->).
          apply (proj1 (sort_dets_prio sub (NoDup_map_NoDup _ _ _ _ (keyed_nodup _ Kd)) x d')). exists pre, l2, l3. exact E. }
    assert (NO' : forall d g, M d g -> same_object d g).
    { intros d g Md. apply (NO (sort_dets sub) [] (eq_sym (app_nil_r _)) d g); [|exact Md]. apply sort_dets_In. eapply O1. exact Md. }
    intros d g. split.
    - intros Md. split; [eapply O1; exact Md|]. split; [eapply O2; exact Md|]. apply NO'. exact Md.
    - intros (D & G & S). destruct (sget (e_id d) (assoc_at sim sub gt t)) as [c|] eqn:C.
      + destruct (faithful_at sim sub gt t Kd Kg _ _ C) as (d' & g' & D' & G' & E1 & E2 & E3 & _).
        assert (d' = d) by (apply (by_id sub); auto). subst d'.
        assert (Mg : M d g') by (split; [exact D|]; split; [exact G'|]; exists c; auto).
        assert (g' = g); [|subst; exact Mg]. apply (by_id gt); auto. rewrite <- (proj1 (NO' _ _ Mg)). apply S.
      + exfalso. destruct (RE d g D G S) as (R1 & _). apply (NB d g). split; [exact D|]. split; [exact G|]. split; [apply R1; exact Ht|]. split.
        * intros g' (_ & _ & c & C' & _). congruence.
        * intros d' Md. exfalso. assert (d' = d).
          { apply (by_id sub); auto; [eapply O1; exact Md|]. rewrite (proj1 (NO' _ _ Md)). symmetry. apply S. }
          subst d'. destruct Md as (_ & _ & c & C' & _). congruence.
  Qed.

  Lemma floor_split : forall l, floor_area l = floor_area (filter e_evaluated l) + floor_area (filter (fun e => negb (e_evaluated e)) l).
  Proof.
    intros l. induction l as [|e l IH]; [unfold floor_area, total; cbn; ring|]. unfold floor_area, total in *. cbn [filter fold_right]. rewrite IH.
    destruct (e_evaluated e); cbn [negb fold_right]; ring.
  Qed.

  Lemma ratio_one : room_ratio (elements sub) (elements gt) = 1 <->
    0 < floor_area (filter e_evaluated (elements gt)) /\ floor_area (filter (fun e => negb (e_evaluated e)) (elements gt)) = 0.
  Proof.
    unfold room_ratio. rewrite same_floor, (floor_split (elements gt)).
    set (a := floor_area (filter e_evaluated (elements gt))). set (b := floor_area (filter (fun e => negb (e_evaluated e)) (elements gt))). destruct (Rlt_dec 0 a) as [P|P].
    - split.
      + intros E. split; [exact P|]. apply (f_equal (fun x => x * a)) in E. unfold Rdiv in E. rewrite Rmult_assoc, Rinv_l in E by lra. lra.
      + intros (_ & ->). field. lra.
    - split; [lra|tauto].
  Qed.

  Lemma perfect_same : forall params t, centred params -> In t ts ->
    (perfect params (elements sub) (elements gt) (assoc_at sim sub gt t) <->
     0 < floor_area (filter e_evaluated (elements gt)) /\ floor_area (filter (fun e => negb (e_evaluated e)) (elements gt)) = 0).
  Proof.
    intros params t (C1 & C2 & C3 & C4 & C5) Ht. rewrite <- ratio_one. assert (PS := pairs_same t Ht). split.
    - intros (matched & missed & extra & _ & T & _). specialize (T _ (or_introl eq_refl)). cbn [fst snd] in T. congruence.
    - intros E. assert (PA := parts_at sim sub gt ts Kd Kg t Ht). cbv zeta in PA. eexists. eexists. eexists. split; [exact PA|].
      destruct PA as ((_ & P1) & (_ & P2) & _ & P3). rewrite E. split; [|split].
      + intros x [<-|I]; [symmetry; exact C1|]. apply in_flat_map in I. destruct I as ((d & g) & I & J). apply P1 in I. cbn [fst snd] in I.
        destruct I as (I & _). apply PS in I. destruct I as (_ & _ & _ & _ & S).
        assert (Z : size_of d = size_of g) by (unfold size_of, e_bounds; rewrite S; reflexivity).
        assert (Y : e_t d = e_t g) by (unfold e_t; rewrite S; reflexivity).
        unfold pair_terms in J. rewrite Z, Y in J. apply in_app_or in J. destruct J as [J|J].
        { destruct (Rlt_dec 0 (size_of g)); [destruct J as [<-|[]]|destruct J]. cbn. rewrite C2. field. lra. }
        apply in_app_or in J. destruct J as [J|J].
        { destruct (Rlt_dec 0 (size_of g * 1)); [destruct J as [<-|[]]|destruct J]. cbn. rewrite C3. field. lra. }
        destruct J as [<-|[<-|[]]]; cbn [fst snd].
        * rewrite C4. unfold ground_distance. rewrite !Rminus_diag_eq by reflexivity. replace (0 ^ 2 + 0 ^ 2) with 0 by ring. apply sqrt_0.
        * rewrite C5. ring.
      + intros g I. exfalso. apply P2 in I. destruct I as (G & _ & N). destruct (same_r g G) as (d & D & S). apply (N d), PS. auto.
      + intros d I. exfalso. apply P3 in I. destruct I as (D & N). destruct (same_l d D) as (g & G & S). apply (N g), PS. auto.
  Qed.
End Same.
