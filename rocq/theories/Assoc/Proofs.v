(** Proofs about data association. *)
From Coq Require Import List Bool String QArith Qminmax Permutation Sorting.Sorted Lia Lqa.
From Verif.Base Require Import Py PyFacts Sort.
From Verif.Assoc Require Import Model Spec.
Import ListNotations.

(** * Generic lemmas *)

Lemma Qle_bool_total : forall x y : Q, Qle_bool x y = true \/ Qle_bool y x = true.
Proof.
  intros x y. destruct (Qlt_le_dec x y) as [H|H].
  - left; apply Qle_bool_iff; lra.
  - right; apply Qle_bool_iff; exact H.
Qed.

Lemma Qle_bool_trans : forall x y z : Q,
  Qle_bool x y = true -> Qle_bool y z = true -> Qle_bool x z = true.
Proof. intros x y z; rewrite !Qle_bool_iff; lra. Qed.

Lemma Qltb_false : forall x y, negb (Qltb x y) = true <-> (y <= x)%Q.
Proof.
  intros x y; unfold Qltb. rewrite negb_involutive. apply Qle_bool_iff.
Qed.

Lemma Qle_bool_false : forall x y, Qle_bool x y = false <-> (y < x)%Q.
Proof.
  intros x y; split; intro H.
  - destruct (Qlt_le_dec y x) as [H1|H1]; [exact H1|].
    apply Qle_bool_iff in H1; congruence.
  - destruct (Qle_bool x y) eqn:E; [|reflexivity]. apply Qle_bool_iff in E; lra.
Qed.

Lemma isort_map : forall A B (f : A -> B) (lebB : B -> B -> bool) (l : list A),
  isort lebB (map f l) = map f (isort (fun a b => lebB (f a) (f b)) l).
Proof.
  intros A B f lebB; induction l as [|x t IH]; simpl; [reflexivity|].
  unfold isort in *. rewrite IH. generalize (fold_right (insert (fun a b => lebB (f a) (f b))) [] t) as s.
  induction s as [|y s IHs]; simpl; [reflexivity|].
  destruct (lebB (f x) (f y)); simpl; [reflexivity|]. rewrite IHs; reflexivity.
Qed.

Lemma filter_map_comm : forall A B (f : A -> B) (p : B -> bool) l,
  filter p (map f l) = map f (filter (fun x => p (f x)) l).
Proof.
  induction l as [|x t IH]; simpl; [reflexivity|].
  destruct (p (f x)); simpl; rewrite IH; reflexivity.
Qed.

Lemma last_opt_map : forall A B (f : A -> B) l,
  last_opt (map f l) = option_map f (last_opt l).
Proof.
  intros A B f l; unfold last_opt. rewrite <- map_rev. destruct (rev l); reflexivity.
Qed.

Lemma last_opt_Some : forall A (l : list A) x,
  last_opt l = Some x -> exists l', l = l' ++ [x].
Proof.
  intros A l x H. unfold last_opt in H. destruct (rev l) as [|y r] eqn:E; [discriminate|].
  injection H as ->. exists (rev r).
  apply (f_equal (@rev A)) in E. rewrite rev_involutive in E. exact E.
Qed.

Lemma last_opt_None : forall A (l : list A), last_opt l = None -> l = [].
Proof.
  intros A l H. unfold last_opt in H. destruct (rev l) as [|y r] eqn:E; [|discriminate].
  apply (f_equal (@rev A)) in E. rewrite rev_involutive in E. exact E.
Qed.

Lemma before_last_False : forall A (l : list A) x y,
  NoDup (l ++ [x]) -> ~ before (l ++ [x]) x y.
Proof.
  intros A l x y Hnd (l1 & l2 & l3 & E).
  assert (Hx : ~ In x l).
  { apply NoDup_remove_2 in Hnd. rewrite app_nil_r in Hnd. exact Hnd. }
  destruct (@exists_last _ (x :: l2 ++ y :: l3)) as (m & z & Em); [discriminate|].
  rewrite Em in E. rewrite app_assoc in E. apply app_inj_tail in E as [E <-].
  subst l. destruct m as [|w m]; simpl in Em.
  - destruct l2; discriminate.
  - injection Em as -> _. apply Hx. apply in_or_app; right; left; reflexivity.
Qed.

Lemma before_filter : forall A (p : A -> bool) l x y,
  before (filter p l) x y -> before l x y.
Proof.
  induction l as [|z t IH]; intros x y H; simpl in H; [exact H|].
  destruct (p z).
  - apply before_cons_inv in H as [[-> Hy]|H].
    + apply before_head. apply filter_In in Hy; tauto.
    + apply before_cons, IH; exact H.
  - apply before_cons, IH; exact H.
Qed.

Lemma before_filter_inv : forall A (p : A -> bool) l x y,
  before l x y -> p x = true -> p y = true -> before (filter p l) x y.
Proof.
  induction l as [|z t IH]; intros x y H Hx Hy; simpl; [exact H|].
  apply before_cons_inv in H as [[-> Hin]|H].
  - rewrite Hx. apply before_head. apply filter_In; tauto.
  - destruct (p z); [apply before_cons|]; apply IH; assumption.
Qed.

Lemma NoDup_map_inj : forall A B (f : A -> B) l x y,
  NoDup (map f l) -> In x l -> In y l -> f x = f y -> x = y.
Proof.
  induction l as [|z t IH]; intros x y Hnd Hx Hy E; [contradiction|].
  simpl in Hnd; inversion Hnd as [|? ? Hni Hnd']; subst.
  destruct Hx as [->|Hx]; destruct Hy as [->|Hy].
  - reflexivity.
  - exfalso; apply Hni. rewrite E. apply in_map; exact Hy.
  - exfalso; apply Hni. rewrite <- E. apply in_map; exact Hx.
  - eapply IH; eassumption.
Qed.

Lemma NoDup_app_l : forall A (l1 l2 : list A), NoDup (l1 ++ l2) -> NoDup l1.
Proof.
  induction l1 as [|x l1 IH]; intros l2 H; [constructor|].
  simpl in H; inversion H as [|? ? Hni Hnd]; subst. constructor; [|eapply IH; exact Hnd].
  intro Hc; apply Hni, in_or_app; left; exact Hc.
Qed.

Lemma NoDup_map_NoDup : forall A B (f : A -> B) l, NoDup (map f l) -> NoDup l.
Proof.
  induction l as [|z t IH]; intros Hnd; [constructor|].
  simpl in Hnd; inversion Hnd as [|? ? Hni Hnd']; subst. constructor; [|apply IH; exact Hnd'].
  intro H; apply Hni, in_map, H.
Qed.

Lemma NoDup_map_filter : forall A B (f : A -> B) p l,
  NoDup (map f l) -> NoDup (map f (filter p l)).
Proof.
  induction l as [|z t IH]; intros Hnd; simpl; [constructor|].
  simpl in Hnd; inversion Hnd as [|? ? Hni Hnd']; subst.
  destruct (p z); simpl; [|apply IH; exact Hnd'].
  constructor; [|apply IH; exact Hnd'].
  intro H; apply Hni. apply in_map_iff in H as (w & <- & Hw). apply in_map. apply filter_In in Hw; tauto.
Qed.

(** The last element of a stable ascending sort is the best one. *)
Lemma best_last : forall A (key : A -> Q) (l : list A) x,
  NoDup l ->
  last_opt (isort (fun a b => Qle_bool (key a) (key b)) l) = Some x ->
  In x l /\ forall y, In y l -> y <> x ->
    (key y < key x)%Q \/ (key x == key y /\ before l y x)%Q.
Proof.
  intros A key l x Hnd H.
  set (le0 := fun a b => Qle_bool (key a) (key b)) in *.
  assert (Htot : forall a b, le0 a b = true \/ le0 b a = true) by (intros; apply Qle_bool_total).
  assert (Htr : forall a b c, le0 a b = true -> le0 b c = true -> le0 a c = true)
    by (intros a b c; apply Qle_bool_trans).
  apply last_opt_Some in H as (l' & E).
  assert (Hnd' : NoDup (l' ++ [x])).
  { rewrite <- E. eapply Permutation_NoDup; [apply isort_perm|exact Hnd]. }
  assert (Hx : In x l).
  { apply (isort_In le0). rewrite E. apply in_or_app; right; left; reflexivity. }
  split; [exact Hx|]. intros y Hy Hne.
  destruct (Qlt_le_dec (key x) (key y)) as [Hlt|Hle].
  - exfalso. apply (before_last_False _ l' x y Hnd'). rewrite <- E.
    apply isort_before_lt; [exact Htot|exact Htr|exact Hx|exact Hy|].
    unfold le0; apply Qle_bool_false; exact Hlt.
  - destruct (Qlt_le_dec (key y) (key x)) as [Hlt|Hge]; [left; exact Hlt|right].
    assert (Heq : (key x == key y)%Q) by lra. split; [exact Heq|].
    destruct (before_total _ l x y Hx Hy) as [Hb|Hb]; [congruence| |exact Hb].
    exfalso. apply (before_last_False _ l' x y Hnd'). rewrite <- E.
    apply isort_before; [exact Htot|exact Htr|exact Hb|].
    unfold le0; apply Qle_bool_iff; lra.
Qed.

(** * The greedy matching on elements *)

Section Greedy.
  Context {A : Type}.
  Variable sim : elem A -> elem A -> Q.
  Variable gts : list (elem A).

  Definition taken (st : list (elem A * elem A)) (g : elem A) : bool :=
    existsb (fun dg => String.eqb (e_id g) (e_id (snd dg))) st.

  Definition cands (t : Q) (st : list (elem A * elem A)) (d : elem A) : list (elem A) :=
    filter (fun g => negb (Qltb (sim d g) t) && negb (taken st g)) gts.

  Definition gstep (t : Q) (st : list (elem A * elem A)) (d : elem A) :=
    match last_opt (isort (fun a b => Qle_bool (sim d a) (sim d b)) (cands t st d)) with
    | Some g => st ++ [(d, g)]
    | None => st
    end.

  Definition run (t : Q) (ds : list (elem A)) := fold_left (gstep t) ds [].

  Hypothesis gts_nd : NoDup (map e_id gts).

  Lemma taken_true : forall st g,
    (forall d g', In (d, g') st -> In g' gts) -> In g gts ->
    (taken st g = true <-> exists d, In (d, g) st).
  Proof.
    intros st g Hin Hg. unfold taken. rewrite existsb_exists. split.
    - intros ([d g'] & Hdg & E). simpl in E. apply String.eqb_eq in E.
      assert (g = g') by (eapply NoDup_map_inj; [exact gts_nd|exact Hg|eapply Hin; exact Hdg|exact E]).
      subst. exists d; exact Hdg.
    - intros (d & Hd). exists (d, g); split; [exact Hd|]. apply String.eqb_refl.
  Qed.

  Lemma gstep_Some : forall t st d,
    (forall d g', In (d, g') st -> In g' gts) ->
    (exists g, gstep t st d = st ++ [(d, g)] /\ In g gts /\ (t <= sim d g)%Q /\
       (forall d', ~ In (d', g) st) /\
       (forall g', In g' gts -> (t <= sim d g')%Q -> (forall d', ~ In (d', g') st) ->
          g' = g \/ prefers sim gts d g g'))
    \/ (gstep t st d = st /\
        forall g', In g' gts -> (t <= sim d g')%Q -> exists d', In (d', g') st).
  Proof.
    intros t st d Hst.
    assert (Hnd : NoDup (cands t st d)).
    { eapply NoDup_filter, NoDup_map_NoDup; exact gts_nd. }
    assert (Hc : forall g, In g (cands t st d) <->
              In g gts /\ (t <= sim d g)%Q /\ forall d', ~ In (d', g) st).
    { intro g. unfold cands. rewrite filter_In, andb_true_iff, Qltb_false, negb_true_iff.
      split.
      - intros (H1 & H2 & H3). repeat split; auto. intros d' Hd'.
        assert (taken st g = true) by (apply taken_true; eauto). congruence.
      - intros (H1 & H2 & H3). repeat split; auto.
        destruct (taken st g) eqn:E; [|reflexivity]. apply taken_true in E as (d' & Hd'); auto.
        exfalso; eapply H3; exact Hd'. }
    unfold gstep.
    destruct (last_opt (isort (fun a b => Qle_bool (sim d a) (sim d b)) (cands t st d))) as [g|] eqn:E.
    - left. exists g. apply best_last in E as (Hin & Hbest); [|exact Hnd].
      apply Hc in Hin as (H1 & H2 & H3). repeat split; auto.
      intros g' Hg' Ht' Hf'.
      destruct (string_dec (e_id g') (e_id g)) as [Ee|Ene].
      + left. eapply NoDup_map_inj; eauto.
      + right. destruct (Hbest g') as [Hlt|[Heq Hb]].
        * apply Hc; auto.
        * intros ->; congruence.
        * left; exact Hlt.
        * right; split; [exact Heq|]. eapply before_filter; exact Hb.
    - right. apply last_opt_None in E. split; [reflexivity|].
      intros g' Hg' Ht'. destruct (taken st g') eqn:Et; [apply taken_true in Et; auto|].
      exfalso. assert (In g' (cands t st d)).
      { unfold cands. apply filter_In. rewrite andb_true_iff, Qltb_false, negb_true_iff. auto. }
      assert (In g' (isort (fun a b => Qle_bool (sim d a) (sim d b)) (cands t st d)))
        by (apply isort_In; assumption).
      rewrite E in H0; contradiction.
  Qed.

  (** Invariant of the run. *)
  Record ginv (t : Q) (ds : list (elem A)) (st : list (elem A * elem A)) : Prop := {
    gi_det : forall d g, In (d, g) st -> In d ds;
    gi_gt : forall d g, In (d, g) st -> In g gts;
    gi_thr : forall d g, In (d, g) st -> (t <= sim d g)%Q;
    gi_nd1 : NoDup (map fst st);
    gi_nd2 : NoDup (map snd st)
  }.

  Lemma run_app : forall t ds1 ds2, run t (ds1 ++ ds2) = fold_left (gstep t) ds2 (run t ds1).
  Proof. intros; unfold run; apply fold_left_app. Qed.

  Lemma NoDup_snoc : forall B (l : list B) x, NoDup l -> ~ In x l -> NoDup (l ++ [x]).
  Proof.
    intros B l x Hl Hx. apply (Permutation_NoDup (l := x :: l)).
    - apply Permutation_cons_append.
    - constructor; assumption.
  Qed.

  Lemma run_inv : forall t ds, NoDup ds -> ginv t ds (run t ds).
  Proof.
    intros t ds. induction ds as [|d ds IH] using rev_ind; intro Hnd.
    - constructor; simpl; try (intros; contradiction); constructor.
    - assert (Hnd' : NoDup ds) by (apply NoDup_remove_1 in Hnd; rewrite app_nil_r in Hnd; exact Hnd).
      assert (Hd : ~ In d ds) by (apply NoDup_remove_2 in Hnd; rewrite app_nil_r in Hnd; exact Hnd).
      specialize (IH Hnd'). destruct IH as [I1 I2 I3 I4 I5].
      rewrite run_app; simpl. set (st := run t ds) in *.
      destruct (gstep_Some t st d I2) as [(g & E & Hg & Ht & Hf & _)|(E & _)]; rewrite E.
      + constructor.
        * intros d' g' H. apply in_app_or in H as [H|[H|[]]]; apply in_or_app.
          -- left; eapply I1; exact H.
          -- injection H as -> ->; right; left; reflexivity.
        * intros d' g' H. apply in_app_or in H as [H|[H|[]]]; [eapply I2; exact H|].
          injection H as -> ->; exact Hg.
        * intros d' g' H. apply in_app_or in H as [H|[H|[]]]; [eapply I3; exact H|].
          injection H as -> ->; exact Ht.
        * rewrite map_app; simpl. apply NoDup_snoc; [exact I4|].
          intro H. apply in_map_iff in H as ([d' g'] & E' & H); simpl in E'; subst.
          apply Hd; eapply I1; exact H.
        * rewrite map_app; simpl. apply NoDup_snoc; [exact I5|].
          intro H. apply in_map_iff in H as ([d' g'] & E' & H); simpl in E'; subst.
          eapply Hf; exact H.
      + constructor; auto. intros d' g' H; apply in_or_app; left; eapply I1; exact H.
  Qed.

  (** What has been matched stays matched. *)
  Lemma run_mono : forall t ds2 ds1 x, In x (run t ds1) -> In x (run t (ds1 ++ ds2)).
  Proof.
    intros t ds2. induction ds2 as [|d ds2 IH] using rev_ind; intros ds1 x H.
    - rewrite app_nil_r; exact H.
    - rewrite app_assoc, run_app; simpl. specialize (IH ds1 x H).
      unfold gstep. destruct (last_opt _); [apply in_or_app; left|]; exact IH.
  Qed.

  Lemma map_fst_fun : forall (st : list (elem A * elem A)) d g g',
    NoDup (map fst st) -> In (d, g) st -> In (d, g') st -> g = g'.
  Proof.
    intros st d g g' Hnd H1 H2.
    assert (E : (d, g) = (d, g')) by (eapply (NoDup_map_inj _ _ fst); eauto).
    congruence.
  Qed.

  Lemma map_snd_inj : forall (st : list (elem A * elem A)) d d' g,
    NoDup (map snd st) -> In (d, g) st -> In (d', g) st -> d = d'.
  Proof.
    intros st d d' g Hnd H1 H2.
    assert (E : (d, g) = (d', g)) by (eapply (NoDup_map_inj _ _ snd); eauto).
    congruence.
  Qed.

  Lemma run_one_to_one : forall t ds, NoDup ds ->
    one_to_one sim ds gts t (fun d g => In (d, g) (run t ds)).
  Proof.
    intros t ds Hnd. destruct (run_inv t ds Hnd) as [I1 I2 I3 I4 I5].
    constructor; eauto.
    - intros d g g' H1 H2; exact (map_fst_fun _ d g g' I4 H1 H2).
    - intros d d' g H1 H2; exact (map_snd_inj _ d d' g I5 H1 H2).
  Qed.

  Lemma prefers_asym : forall d g g', NoDup gts ->
    prefers sim gts d g g' -> ~ prefers sim gts d g' g.
  Proof.
    intros d g g' Hnd [H1|[H1 B1]] [H2|[H2 B2]]; try lra.
    exact (before_asym_NoDup _ _ _ _ Hnd B1 B2).
  Qed.

  (** * Stability, for a processing order that follows priority *)
  Variable dets : list (elem A).
  Variable ds : list (elem A).
  Hypothesis ds_nd : NoDup ds.
  Hypothesis ds_in : forall d, In d ds <-> In d dets.
  Hypothesis ds_prio : forall d d', before ds d d' <->
     In d dets /\ In d' dets /\ higher_priority dets d d'.

  Lemma gts_nodup : NoDup gts.
  Proof. eapply NoDup_map_NoDup; exact gts_nd. Qed.

  Lemma run_stable : forall t, stable sim dets gts t (fun d g => In (d, g) (run t ds)).
  Proof.
    intro t. split.
    - destruct (run_one_to_one t ds ds_nd) as [O1 O2 O3 O4 O5]. constructor; auto.
      intros d g H; apply ds_in; eauto.
    - intros d g (Hd & Hg & Ht & Hp & Hh).
      apply ds_in in Hd. destruct (in_split _ _ Hd) as (ds1 & ds2 & E).
      assert (Hnd1 : NoDup ds1).
      { rewrite E in ds_nd. apply NoDup_app_l in ds_nd. exact ds_nd. }
      destruct (run_inv t ds1 Hnd1) as [I1 I2 I3 I4 I5].
      destruct (gstep_Some t (run t ds1) d I2) as [(g0 & Es & Hg0 & Ht0 & Hf0 & Hbest)|(Es & Hall)].
      + assert (HM0 : In (d, g0) (run t ds)).
        { rewrite E. replace (ds1 ++ d :: ds2) with ((ds1 ++ [d]) ++ ds2) by (rewrite <- app_assoc; reflexivity).
          apply run_mono. rewrite run_app; simpl. rewrite Es. apply in_or_app; right; left; reflexivity. }
        assert (Hpref := Hp g0 HM0).
        destruct (in_dec (fun x y => string_dec x y) (e_id g) (map (fun dg => e_id (snd dg)) (run t ds1))) as [Hin|Hni].
        * apply in_map_iff in Hin as ([d' g'] & Eid & Hin); simpl in Eid.
          assert (g' = g) by (eapply NoDup_map_inj; [exact gts_nd| |exact Hg|exact Eid]; eauto). subst g'.
          assert (HM : In (d', g) (run t ds)).
          { rewrite E. apply run_mono; exact Hin. }
          specialize (Hh _ HM). assert (Hd' : In d' ds1) by (eapply I1; exact Hin).
          assert (B1 : before ds d' d).
          { rewrite E. apply in_split in Hd' as (a & b & ->). exists a, b, ds2. rewrite <- app_assoc; reflexivity. }
          assert (B2 : before ds d d').
          { apply ds_prio. repeat split; [apply ds_in; exact Hd| |exact Hh].
            apply ds_in. rewrite E; apply in_or_app; left; exact Hd'. }
          exact (before_asym_NoDup _ _ _ _ ds_nd B1 B2).
        * destruct (Hbest g Hg Ht) as [->|Hpr].
          -- intros d' Hd'. apply Hni. apply in_map_iff. exists (d', g); split; [reflexivity|exact Hd'].
          -- exact (prefers_asym _ _ _ gts_nodup Hpref Hpref).
          -- exact (prefers_asym _ _ _ gts_nodup Hpref Hpr).
      + destruct (Hall g Hg Ht) as (d' & Hin).
        assert (HM : In (d', g) (run t ds)) by (rewrite E; apply run_mono; exact Hin).
        specialize (Hh _ HM). assert (Hd' : In d' ds1) by (eapply I1; exact Hin).
        assert (B1 : before ds d' d).
        { rewrite E. apply in_split in Hd' as (a & b & ->). exists a, b, ds2. rewrite <- app_assoc; reflexivity. }
        assert (B2 : before ds d d').
        { apply ds_prio. repeat split; [apply ds_in; exact Hd| |exact Hh].
          apply ds_in. rewrite E; apply in_or_app; left; exact Hd'. }
        exact (before_asym_NoDup _ _ _ _ ds_nd B1 B2).
  Qed.

  (** Uniqueness. *)
  Lemma run_unique_prefix : forall t (m : elem A -> option (elem A)),
    stable sim dets gts t (fun d g => m d = Some g) ->
    forall ds1 ds2, ds = ds1 ++ ds2 ->
    forall d g, In d ds1 -> (m d = Some g <-> In (d, g) (run t ds1)).
  Proof.
    intros t m [[O1 O2 O3 O4 O5] Hnb]. intro ds1.
    induction ds1 as [|d ds1 IH] using rev_ind; intros ds2 E; [intros ? ? []|].
    rewrite <- app_assoc in E; simpl in E.
    specialize (IH _ E).
    assert (Hnd1 : NoDup ds1).
    { rewrite E in ds_nd. apply NoDup_app_l in ds_nd. exact ds_nd. }
    assert (Hdn : ~ In d ds1).
    { rewrite E in ds_nd. apply NoDup_remove_2 in ds_nd. intro Hc; apply ds_nd, in_or_app; left; exact Hc. }
    destruct (run_inv t ds1 Hnd1) as [I1 I2 I3 I4 I5].
    assert (Hfree : forall g', m d = Some g' -> forall d', ~ In (d', g') (run t ds1)).
    { intros g' Hm d' Hin. assert (Hd' : In d' ds1) by (eapply I1; exact Hin).
      apply IH in Hin; [|exact Hd']. assert (d' = d) by (eapply O5; eauto). subst; contradiction. }
    assert (Hdd : In d dets).
    { apply ds_in. rewrite E; apply in_or_app; right; left; reflexivity. }
    intros d0 g Hd0. rewrite run_app; simpl.
    apply in_app_or in Hd0 as [Hd0|[<-|[]]].
    - assert (Hne : d0 <> d) by (intros ->; contradiction).
      rewrite (IH d0 g Hd0).
      destruct (gstep_Some t (run t ds1) d I2) as [(g0 & Es & _)|(Es & _)]; rewrite Es; [|tauto].
      split; intro H; [apply in_or_app; left; exact H|].
      apply in_app_or in H as [H|[H|[]]]; [exact H|]. congruence.
    - destruct (gstep_Some t (run t ds1) d I2) as [(g0 & Es & Hg0 & Ht0 & Hf0 & Hbest)|(Es & Hall)]; rewrite Es.
      + (* the step matches g0 *)
        assert (Hm : m d = Some g0).
        { destruct (m d) as [g'|] eqn:Em.
          - destruct (string_dec (e_id g') (e_id g0)) as [Ee|Ene].
            + f_equal. eapply NoDup_map_inj; [exact gts_nd| |exact Hg0|exact Ee]. eapply O2; exact Em.
            + exfalso. apply (Hnb d g0). repeat split; auto.
              * intros g'' Em'. assert (g'' = g') by congruence. subst g''.
                destruct (Hbest g') as [->|Hp]; [eapply O2; exact Em|eapply O3; exact Em|apply Hfree; reflexivity|congruence|exact Hp].
              * intros d' Hm'. assert (Hd' : In d' dets) by (eapply O1; exact Hm').
                assert (d' <> d) by (intros ->; congruence).
                assert (Hn1 : ~ In d' ds1).
                { intro Hc. apply (Hf0 d'). apply IH; assumption. }
                assert (B : before ds d d').
                { apply ds_in in Hd'. rewrite E in Hd'. apply in_app_or in Hd' as [Hc|[Hc|Hc]]; [contradiction|congruence|].
                  rewrite E. apply in_split in Hc as (a & b & ->). exists ds1, a, b; reflexivity. }
                apply ds_prio in B; tauto.
          - exfalso. apply (Hnb d g0). repeat split; auto.
            + intros g'' Em'. congruence.
            + intros d' Hm'. assert (Hd' : In d' dets) by (eapply O1; exact Hm').
              assert (d' <> d) by (intros ->; congruence).
              assert (Hn1 : ~ In d' ds1).
              { intro Hc. apply (Hf0 d'). apply IH; assumption. }
              assert (B : before ds d d').
              { apply ds_in in Hd'. rewrite E in Hd'. apply in_app_or in Hd' as [Hc|[Hc|Hc]]; [contradiction|congruence|].
                rewrite E. apply in_split in Hc as (a & b & ->). exists ds1, a, b; reflexivity. }
              apply ds_prio in B; tauto. }
        split; intro H.
        * assert (g = g0) by congruence. subst. apply in_or_app; right; left; reflexivity.
        * apply in_app_or in H as [H|[H|[]]]; [exfalso; apply Hdn; eapply I1; exact H|].
          congruence.
      + (* the step matches nothing *)
        split; intro H.
        * exfalso. destruct (Hall g) as (d' & Hin); [eapply O2; exact H|eapply O3; exact H|].
          eapply Hfree; eauto.
        * exfalso; apply Hdn; eapply I1; exact H.
  Qed.

  Lemma run_unique : forall t (m : elem A -> option (elem A)),
    stable sim dets gts t (fun d g => m d = Some g) ->
    forall d g, m d = Some g <-> In (d, g) (run t ds).
  Proof.
    intros t m Hs d g. split; intro H.
    - apply (run_unique_prefix t m Hs ds []); [rewrite app_nil_r; reflexivity| |exact H].
      apply ds_in. destruct Hs as [[O1 _ _ _ _] _]. eapply O1; exact H.
    - apply (run_unique_prefix t m Hs ds []); [rewrite app_nil_r; reflexivity| |exact H].
      destruct (run_inv t ds ds_nd) as [I1 _ _ _ _]. eapply I1; exact H.
  Qed.
End Greedy.

(** * Monotonicity in the threshold *)
Section Mono.
  Context {A : Type}.
  Variable sim : elem A -> elem A -> Q.
  Variable gts : list (elem A).
  Hypothesis gts_nd : NoDup (map e_id gts).

  Lemma run_threshold_mono : forall t1 t2 ds, (t1 <= t2)%Q -> NoDup ds ->
    forall g, In g (map snd (run sim gts t2 ds)) -> In g (map snd (run sim gts t1 ds)).
  Proof.
    intros t1 t2 ds Ht. induction ds as [|d ds IH] using rev_ind; intros Hnd g Hg; [exact Hg|].
    assert (Hnd' : NoDup ds) by (apply NoDup_remove_1 in Hnd; rewrite app_nil_r in Hnd; exact Hnd).
    specialize (IH Hnd').
    destruct (run_inv sim gts gts_nd t1 ds Hnd') as [_ G1 _ _ _].
    destruct (run_inv sim gts gts_nd t2 ds Hnd') as [_ G2 _ _ _].
    rewrite run_app in Hg; rewrite run_app; simpl in *.
    set (s1 := run sim gts t1 ds) in *. set (s2 := run sim gts t2 ds) in *.
    assert (Hmono : forall x, In x (map snd s1) -> In x (map snd (gstep sim gts t1 s1 d))).
    { intros x Hx. unfold gstep. destruct (last_opt _); [rewrite map_app; apply in_or_app; left|]; exact Hx. }
    destruct (gstep_Some sim gts gts_nd t2 s2 d G2) as [(g2 & E2 & Hg2 & Hth2 & Hf2 & Hb2)|(E2 & _)];
      rewrite E2 in Hg; [|apply Hmono, IH; exact Hg].
    rewrite map_app in Hg. apply in_app_or in Hg as [Hg|[<-|[]]]; [apply Hmono, IH; exact Hg|]. simpl.
    destruct (in_dec string_dec (e_id g2) (map (fun dg => e_id (snd dg)) s1)) as [Hin|Hni].
    - apply Hmono. apply in_map_iff in Hin as ([d' g'] & Eid & Hin); simpl in Eid.
      assert (g' = g2) by (eapply NoDup_map_inj; [exact gts_nd| |exact Hg2|exact Eid]; eauto). subst g'.
      apply in_map_iff. exists (d', g2); split; [reflexivity|exact Hin].
    - assert (Hfree1 : forall d', ~ In (d', g2) s1).
      { intros d' H. apply Hni. apply in_map_iff. exists (d', g2); split; [reflexivity|exact H]. }
      destruct (gstep_Some sim gts gts_nd t1 s1 d G1) as [(g1 & E1 & Hg1 & Hth1 & Hf1 & Hb1)|(E1 & Hall)].
      + rewrite E1. rewrite map_app; apply in_or_app; right; left. simpl.
        destruct (Hb1 g2 Hg2) as [->|Hp]; [lra|exact Hfree1|reflexivity|].
        exfalso.
        assert (Hth : (t2 <= sim d g1)%Q) by (destruct Hp as [Hp|[Hp _]]; lra).
        destruct (Hb2 g1 Hg1 Hth) as [->|Hp2].
        * intros d' Hc. assert (In g1 (map snd s1)).
          { apply IH. apply in_map_iff. exists (d', g1); split; [reflexivity|exact Hc]. }
          apply in_map_iff in H as ([d'' g''] & Eg & H); simpl in Eg; subst.
          exact (Hf1 _ H).
        * exact (prefers_asym sim gts d g2 g2 (NoDup_map_NoDup _ _ _ _ gts_nd) Hp Hp).
        * exact (prefers_asym sim gts d g1 g2 (NoDup_map_NoDup _ _ _ _ gts_nd) Hp Hp2).
      + exfalso. destruct (Hall g2 Hg2) as (d' & Hd'); [lra|]. exact (Hfree1 _ Hd').
  Qed.

  Lemma run_count_mono : forall t1 t2 ds, (t1 <= t2)%Q -> NoDup ds ->
    (List.length (run sim gts t2 ds) <= List.length (run sim gts t1 ds))%nat.
  Proof.
    intros t1 t2 ds Ht Hnd.
    rewrite <- (map_length snd (run sim gts t2 ds)), <- (map_length snd (run sim gts t1 ds)).
    apply NoDup_incl_length.
    - destruct (run_inv sim gts gts_nd t2 ds Hnd); assumption.
    - intros g Hg; eapply run_threshold_mono; eauto.
  Qed.
End Mono.

(** * From the code's dictionaries to the greedy run *)
Section Link.
  Context {A : Type}.
  Variable sim : elem A -> elem A -> Q.

  Definition corr_of (d g : elem A) : corr :=
    mkCorr (e_id d) (e_id g) (sim d g) (e_score d) (e_evaluated g).

  Lemma keyed_ids : forall (s : @scene A), keyed_by_id s -> map e_id (dvalues s) = map fst s.
  Proof.
    intros s [_ H]. unfold dvalues. rewrite map_map. apply map_ext_in. intros [k e] Hin.
    simpl. symmetry; apply H; exact Hin.
  Qed.

  Lemma keyed_nodup : forall (s : @scene A), keyed_by_id s -> NoDup (map e_id (dvalues s)).
  Proof. intros s H. rewrite keyed_ids by exact H. apply H. Qed.

  Lemma cache_row_eq : forall d (gts : @scene A), NoDup (map e_id (dvalues gts)) ->
    cache_row sim d gts = map (fun g => (e_id g, corr_of d g)) (dvalues gts).
  Proof.
    intros d gts Hnd. unfold cache_row.
    rewrite (fold_dset_fresh String.eqb str_eqb_spec (elem A) e_id (corr_of d)); [reflexivity|].
    simpl; exact Hnd.
  Qed.

  Lemma cache_eq : forall dets gts : @scene A,
    NoDup (map e_id (dvalues dets)) -> NoDup (map e_id (dvalues gts)) ->
    make_similarity_cache sim dets gts =
    map (fun d => (e_id d, map (fun g => (e_id g, corr_of d g)) (dvalues gts))) (dvalues dets).
  Proof.
    intros dets gts Hd Hg. unfold make_similarity_cache.
    rewrite (fold_dset_fresh String.eqb str_eqb_spec (elem A) e_id (fun d => cache_row sim d gts)); [|simpl; exact Hd].
    simpl. apply map_ext_in. intros d _. rewrite cache_row_eq by exact Hg. reflexivity.
  Qed.

  Lemma prune_prune : forall t1 t2 c, (t1 <= t2)%Q -> prune t2 (prune t1 c) = prune t2 c.
  Proof.
    intros t1 t2 c H. unfold prune. rewrite map_map. apply map_ext. intros [k r]; simpl. f_equal.
    induction r as [|[g x] r IH]; simpl; [reflexivity|].
    destruct (negb (Qltb (c_sim x) t1)) eqn:E1; simpl.
    - destruct (negb (Qltb (c_sim x) t2)); rewrite IH; reflexivity.
    - rewrite IH. destruct (negb (Qltb (c_sim x) t2)) eqn:E2; [|reflexivity].
      apply Qltb_false in E2. assert (E3 : negb (Qltb (c_sim x) t1) = true) by (apply Qltb_false; lra).
      congruence.
  Qed.

  Lemma prune_eq : forall t1 t2 c, (t1 == t2)%Q -> prune t1 c = prune t2 c.
  Proof.
    intros t1 t2 c H. unfold prune. apply map_ext. intros [k r]; simpl. f_equal.
    apply filter_ext. intros [g x]; simpl. unfold Qltb. rewrite !negb_involutive.
    destruct (Qle_bool t1 (c_sim x)) eqn:E1, (Qle_bool t2 (c_sim x)) eqn:E2; try reflexivity.
    - apply Qle_bool_iff in E1. apply Qle_bool_false in E2. lra.
    - apply Qle_bool_iff in E2. apply Qle_bool_false in E1. lra.
  Qed.

  (** The state of the code's loop mirrors the run on elements. *)
  Definition enc_result (st : list (elem A * elem A)) : sdict corr :=
    map (fun dg => (e_id (fst dg), corr_of (fst dg) (snd dg))) st.
  Definition enc_assigned (st : list (elem A * elem A)) : sdict string :=
    map (fun dg => (e_id (snd dg), e_id (fst dg))) st.

  Lemma smem_taken : forall (st : list (elem A * elem A)) g,
    smem (e_id g) (enc_assigned st) = taken st g.
  Proof.
    intros st g. induction st as [|[d' g'] st IH]; [reflexivity|].
    unfold dmem in *; simpl. destruct (String.eqb (e_id g) (e_id g')); [reflexivity|exact IH].
  Qed.

  Lemma assoc_step_sim : forall (dets gts : @scene A) t st d,
    NoDup (map e_id (dvalues dets)) -> NoDup (map e_id (dvalues gts)) ->
    In d (dvalues dets) ->
    ~ In (e_id d) (map (fun dg => e_id (fst dg)) st) ->
    assoc_step (prune t (make_similarity_cache sim dets gts)) (enc_result st, enc_assigned st) d
    = Ok (enc_result (gstep sim (dvalues gts) t st d), enc_assigned (gstep sim (dvalues gts) t st d)).
  Proof.
    intros dets gts t st d Hd Hg Hin Hfresh.
    assert (Hrow : sgetE (e_id d) (prune t (make_similarity_cache sim dets gts)) =
       Ok (map (fun g => (e_id g, corr_of d g)) (filter (fun g => negb (Qltb (sim d g) t)) (dvalues gts)))).
    { unfold dgetE. rewrite (dget_NoDup String.eqb str_eqb_spec _ (e_id d)
        (map (fun g => (e_id g, corr_of d g)) (filter (fun g => negb (Qltb (sim d g) t)) (dvalues gts)))); [reflexivity| |].
      - unfold prune, dkeys. rewrite map_map; simpl. rewrite cache_eq by assumption.
        rewrite map_map; simpl. exact Hd.
      - unfold prune. apply in_map_iff.
        exists (e_id d, map (fun g => (e_id g, corr_of d g)) (dvalues gts)); simpl. split.
        + f_equal. rewrite filter_map_comm. reflexivity.
        + rewrite cache_eq by assumption. apply in_map_iff. exists d; split; [reflexivity|exact Hin]. }
    unfold assoc_step. rewrite Hrow. simpl.
    assert (Hposs : sort_corrs (filter (fun c => negb (smem (c_gt c) (enc_assigned st)))
        (dvalues (map (fun g => (e_id g, corr_of d g)) (filter (fun g => negb (Qltb (sim d g) t)) (dvalues gts)))))
      = map (corr_of d) (isort (fun a b => Qle_bool (sim d a) (sim d b)) (cands sim (dvalues gts) t st d))).
    { unfold sort_corrs, cands, dvalues at 1. rewrite map_map; simpl.
      rewrite filter_map_comm. rewrite isort_map. simpl. f_equal. f_equal.
      rewrite (filter_ext _ (fun g => negb (taken st g))) by (intro g; simpl; rewrite smem_taken; reflexivity).
      clear Hrow Hg. induction (dvalues gts) as [|g l IH]; simpl; [reflexivity|].
      destruct (negb (Qltb (sim d g) t)) eqn:E1; simpl; [|exact IH].
      destruct (negb (taken st g)); rewrite IH; reflexivity. }
    rewrite Hposs, last_opt_map. unfold gstep.
    destruct (last_opt (isort (fun a b => Qle_bool (sim d a) (sim d b)) (cands sim (dvalues gts) t st d))) as [g|] eqn:E; simpl; [|reflexivity].
    assert (Hnt : taken st g = false).
    { apply last_opt_Some in E as (l' & E).
      assert (Hi : In g (isort (fun a b => Qle_bool (sim d a) (sim d b)) (cands sim (dvalues gts) t st d)))
        by (rewrite E; apply in_or_app; right; left; reflexivity).
      apply isort_In in Hi. unfold cands in Hi. apply filter_In in Hi as (_ & Hi).
      apply andb_true_iff in Hi as (_ & Hi). apply negb_true_iff in Hi. exact Hi. }
    rewrite (dset_fresh String.eqb str_eqb_spec) by
      (unfold dkeys, enc_result; rewrite map_map; simpl; exact Hfresh).
    rewrite (dset_fresh String.eqb str_eqb_spec) by
      (apply (dmem_false String.eqb str_eqb_spec); rewrite smem_taken; exact Hnt).
    unfold enc_result, enc_assigned. rewrite !map_app. reflexivity.
  Qed.

  Lemma foldM_app : forall B S (f : S -> B -> res S) l1 l2 s,
    foldM f s (l1 ++ l2) = let* s' := foldM f s l1 in foldM f s' l2.
  Proof.
    induction l1 as [|x l1 IH]; intros l2 s; simpl; [reflexivity|].
    destruct (f s x); simpl; [apply IH|reflexivity].
  Qed.

  Lemma assoc_run : forall (dets gts : @scene A) t ds,
    NoDup (map e_id (dvalues dets)) -> NoDup (map e_id (dvalues gts)) ->
    NoDup (map e_id ds) -> (forall d, In d ds -> In d (dvalues dets)) ->
    foldM (assoc_step (prune t (make_similarity_cache sim dets gts))) ([], []) ds
    = Ok (enc_result (run sim (dvalues gts) t ds), enc_assigned (run sim (dvalues gts) t ds)).
  Proof.
    intros dets gts t ds Hd Hg. induction ds as [|d ds IH] using rev_ind; intros Hnd Hin; [reflexivity|].
    rewrite map_app in Hnd; simpl in Hnd.
    assert (Hnd' : NoDup (map e_id ds)) by (apply NoDup_remove_1 in Hnd; rewrite app_nil_r in Hnd; exact Hnd).
    rewrite foldM_app. rewrite IH; [|exact Hnd'|intros x Hx; apply Hin, in_or_app; left; exact Hx].
    cbn [bind foldM]. rewrite assoc_step_sim; [|exact Hd|exact Hg|apply Hin, in_or_app; right; left; reflexivity|].
    - simpl. rewrite run_app. reflexivity.
    - intro Hc. apply in_map_iff in Hc as ([d' g'] & E & Hc); simpl in E.
      apply NoDup_remove_2 in Hnd. rewrite app_nil_r in Hnd. apply Hnd. rewrite <- E. apply in_map.
      assert (Hnds : NoDup ds) by (eapply NoDup_map_NoDup; exact Hnd').
      destruct (run_inv sim (dvalues gts) Hg t ds Hnds) as [I1 _ _ _ _]. eapply I1; exact Hc.
  Qed.

  Lemma sort_dets_perm : forall dets : @scene A, Permutation (dvalues dets) (sort_dets dets).
  Proof. intros; apply isort_perm. Qed.

  Lemma sort_dets_ids_nodup : forall dets : @scene A,
    NoDup (map e_id (dvalues dets)) -> NoDup (map e_id (sort_dets dets)).
  Proof.
    intros dets H. eapply Permutation_NoDup; [|exact H]. apply Permutation_map, sort_dets_perm.
  Qed.

  Lemma sort_dets_In : forall (dets : @scene A) d, In d (sort_dets dets) <-> In d (dvalues dets).
  Proof. intros; apply isort_In. Qed.

  Lemma sort_dets_prio : forall dets : @scene A, NoDup (dvalues dets) ->
    forall d d', before (sort_dets dets) d d' <->
      In d (dvalues dets) /\ In d' (dvalues dets) /\ higher_priority (dvalues dets) d d'.
  Proof.
    intros dets Hnd d d'. unfold sort_dets.
    set (le0 := fun a b : elem A => Qle_bool (e_score b) (e_score a)).
    assert (Htot : forall a b, le0 a b = true \/ le0 b a = true) by (intros; apply Qle_bool_total).
    assert (Htr : forall a b c, le0 a b = true -> le0 b c = true -> le0 a c = true).
    { intros a b c H1 H2; unfold le0 in *; eapply Qle_bool_trans; eassumption. }
    assert (Hnds : NoDup (isort le0 (dvalues dets))).
    { eapply Permutation_NoDup; [apply isort_perm|exact Hnd]. }
    assert (Hfwd : forall a b, In a (dvalues dets) -> In b (dvalues dets) ->
              higher_priority (dvalues dets) a b -> before (isort le0 (dvalues dets)) a b).
    { intros a b Ha Hb [Hlt|[Heq Hbf]].
      - apply isort_before_lt; auto. unfold le0. apply Qle_bool_false; exact Hlt.
      - apply isort_before; auto. unfold le0. apply Qle_bool_iff; lra. }
    split.
    - intro H. assert (Hi := before_In _ _ _ H). rewrite !isort_In in Hi. destruct Hi as [H1 H2].
      repeat split; auto.
      assert (Hne : d <> d') by (eapply before_neq_NoDup; eassumption).
      destruct (Qlt_le_dec (e_score d') (e_score d)) as [Hlt|Hle]; [left; exact Hlt|].
      destruct (Qlt_le_dec (e_score d) (e_score d')) as [Hlt|Hge].
      + exfalso. apply (before_asym_NoDup _ _ _ _ Hnds H). apply Hfwd; auto. left; exact Hlt.
      + right. split; [lra|].
        destruct (before_total _ (dvalues dets) d d' H1 H2 Hne) as [Hb|Hb]; [exact Hb|].
        exfalso. apply (before_asym_NoDup _ _ _ _ Hnds H). apply Hfwd; auto. right; split; [lra|exact Hb].
    - intros (H1 & H2 & H3). apply Hfwd; assumption.
  Qed.

  (** One threshold of the code = encoding of the greedy run. *)
  Lemma assoc_one_eq : forall (dets gts : @scene A) t,
    NoDup (map e_id (dvalues dets)) -> NoDup (map e_id (dvalues gts)) ->
    assoc_one dets (prune t (make_similarity_cache sim dets gts))
    = Ok (enc_result (run sim (dvalues gts) t (sort_dets dets))).
  Proof.
    intros dets gts t Hd Hg. unfold assoc_one. rewrite assoc_run; auto.
    - apply sort_dets_ids_nodup; exact Hd.
    - intros d; apply sort_dets_In.
  Qed.

  (** The expected result for one threshold. *)
  Definition assoc_at (dets gts : @scene A) (t : Q) : sdict corr :=
    enc_result (run sim (dvalues gts) t (sort_dets dets)).

  Lemma assoc_at_eq : forall (dets gts : @scene A) t t',
    NoDup (map e_id (dvalues dets)) -> NoDup (map e_id (dvalues gts)) ->
    (t == t')%Q -> assoc_at dets gts t = assoc_at dets gts t'.
  Proof.
    intros dets gts t t' Hd Hg E.
    assert (H1 := assoc_one_eq dets gts t Hd Hg). assert (H2 := assoc_one_eq dets gts t' Hd Hg).
    rewrite (prune_eq t t' _ E) in H1. unfold assoc_at. congruence.
  Qed.

  (** Adding thresholds one by one, starting from an already pruned cache. *)
  Lemma assoc_loop_eq : forall (dets gts : @scene A) ts t0 acc,
    NoDup (map e_id (dvalues dets)) -> NoDup (map e_id (dvalues gts)) ->
    StronglySorted (fun x y => Qle_bool x y = true) ts ->
    (forall t, In t ts -> (t0 <= t)%Q) ->
    forall cache, (cache = make_similarity_cache sim dets gts \/
                   cache = prune t0 (make_similarity_cache sim dets gts)) ->
    assoc_loop dets cache acc ts =
    Ok (fold_left (fun a t => dset Qeq_bool t (assoc_at dets gts t) a) ts acc).
  Proof.
    intros dets gts ts. induction ts as [|t ts IH]; intros t0 acc Hd Hg Hs Hle cache Hc; [reflexivity|].
    simpl. inversion Hs as [|? ? Hs' Hf]; subst.
    assert (Hp : prune t cache = prune t (make_similarity_cache sim dets gts)).
    { destruct Hc as [->| ->]; [reflexivity|]. apply prune_prune. apply Hle; left; reflexivity. }
    rewrite Hp, assoc_one_eq by assumption. simpl.
    apply IH with (t0 := t); auto.
    - intros t' Ht'. rewrite Forall_forall in Hf. apply Qle_bool_iff. apply Hf; exact Ht'.
  Qed.

  Lemma Qeq_bool_false_neq : forall x y, Qeq_bool x y = false -> ~ (x == y)%Q.
  Proof. intros; apply Qeq_bool_neq; assumption. Qed.

  Lemma qget_dset : forall V (d : qdict V) t t' v,
    dget Qeq_bool t' (dset Qeq_bool t v d) =
    if Qeq_bool t' t then Some v else dget Qeq_bool t' d.
  Proof.
    induction d as [|[k w] d IH]; intros t t' v; simpl; [reflexivity|].
    destruct (Qeq_bool t k) eqn:E1; simpl.
    - destruct (Qeq_bool t' k) eqn:E2, (Qeq_bool t' t) eqn:E3; try reflexivity.
      + exfalso. apply Qeq_bool_neq in E3. apply Qeq_bool_iff in E1, E2. apply E3. rewrite E1, E2. reflexivity.
      + exfalso. apply Qeq_bool_neq in E2. apply Qeq_bool_iff in E1, E3. apply E2. rewrite E3, E1. reflexivity.
    - rewrite IH. destruct (Qeq_bool t' k) eqn:E2, (Qeq_bool t' t) eqn:E3; try reflexivity.
      exfalso. apply Qeq_bool_neq in E1. apply Qeq_bool_iff in E2, E3. apply E1. rewrite <- E3, E2. reflexivity.
  Qed.

  Lemma fold_qget : forall (dets gts : @scene A) ts acc t,
    NoDup (map e_id (dvalues dets)) -> NoDup (map e_id (dvalues gts)) ->
    (exists t', In t' ts /\ (t' == t)%Q) \/ dget Qeq_bool t acc = Some (assoc_at dets gts t) ->
    dget Qeq_bool t (fold_left (fun a t => dset Qeq_bool t (assoc_at dets gts t) a) ts acc)
    = Some (assoc_at dets gts t).
  Proof.
    intros dets gts ts. induction ts as [|x ts IH]; intros acc t Hd Hg H; simpl.
    - destruct H as [(t' & [] & _)|H]; exact H.
    - apply IH; auto. destruct H as [(t' & [->|Hin] & E)|H].
      + right. rewrite qget_dset. rewrite (proj2 (Qeq_bool_iff t t')) by (symmetry; exact E).
        f_equal; apply assoc_at_eq; assumption.
      + left; exists t'; auto.
      + right. rewrite qget_dset. destruct (Qeq_bool t x) eqn:E; [|exact H].
        apply Qeq_bool_iff in E. f_equal; apply assoc_at_eq; auto. symmetry; exact E.
  Qed.

  Lemma fold_qget_None : forall (dets gts : @scene A) ts acc t,
    (forall t', In t' ts -> ~ (t' == t)%Q) -> dget Qeq_bool t acc = None ->
    dget Qeq_bool t (fold_left (fun a t => dset Qeq_bool t (assoc_at dets gts t) a) ts acc) = None.
  Proof.
    intros dets gts ts. induction ts as [|x ts IH]; intros acc t H Ha; simpl; [exact Ha|].
    apply IH; [intros t' Ht'; apply H; right; exact Ht'|].
    rewrite qget_dset. destruct (Qeq_bool t x) eqn:E; [|exact Ha].
    apply Qeq_bool_iff in E. exfalso; apply (H x (or_introl eq_refl)). symmetry; exact E.
  Qed.

  Lemma sorted_thresholds : forall ts,
    StronglySorted (fun x y => Qle_bool x y = true) (sort_thresholds ts).
  Proof.
    intros; apply isort_sorted; [apply Qle_bool_total|apply Qle_bool_trans].
  Qed.

  Lemma list_Q_lower : forall ts : list Q, exists t0, forall t, In t ts -> (t0 <= t)%Q.
  Proof.
    induction ts as [|x ts (t0 & IH)]; [exists 0%Q; intros ? []|].
    exists (Qmin x t0). intros t [<-|Ht].
    - apply Q.le_min_l.
    - apply Qle_trans with t0; [apply Q.le_min_r|apply IH; exact Ht].
  Qed.

  Lemma compute_agnostic_eq : forall (dets gts : @scene A) ts,
    NoDup (map e_id (dvalues dets)) -> NoDup (map e_id (dvalues gts)) ->
    compute_agnostic dets (sort_thresholds ts) (make_similarity_cache sim dets gts)
    = Ok (fold_left (fun a t => dset Qeq_bool t (assoc_at dets gts t) a) (sort_thresholds ts) []).
  Proof.
    intros dets gts ts Hd Hg. unfold compute_agnostic.
    destruct (list_Q_lower (sort_thresholds ts)) as (t0 & Ht0).
    eapply assoc_loop_eq with (t0 := t0); auto. apply sorted_thresholds.
  Qed.

  Lemma compute_agnostic_get : forall (dets gts : @scene A) ts t r,
    NoDup (map e_id (dvalues dets)) -> NoDup (map e_id (dvalues gts)) ->
    compute_agnostic dets (sort_thresholds ts) (make_similarity_cache sim dets gts) = Ok r ->
    In t ts -> dget Qeq_bool t r = Some (assoc_at dets gts t).
  Proof.
    intros dets gts ts t r Hd Hg H Ht. rewrite compute_agnostic_eq in H by assumption.
    injection H as <-. apply fold_qget; auto. left. exists t; split; [|reflexivity].
    apply isort_In; exact Ht.
  Qed.

  (** ** Category association *)
  Lemma by_category_keyed : forall cat (s : @scene A), keyed_by_id s -> keyed_by_id (by_category cat s).
  Proof.
    intros cat s [H1 H2]. split.
    - unfold by_category. apply NoDup_map_filter. exact H1.
    - intros k e Hin. apply H2. apply filter_In in Hin; tauto.
  Qed.

  Lemma by_category_In : forall cat (s : @scene A) k e,
    In (k, e) (by_category cat s) <-> In (k, e) s /\ e_category e = cat.
  Proof.
    intros. unfold by_category. rewrite filter_In; simpl. rewrite String.eqb_eq. tauto.
  Qed.

  Lemma foldM_ok : forall B S (f : S -> B -> res S) (g : S -> B -> S) l s,
    (forall s x, In x l -> f s x = Ok (g s x)) -> foldM f s l = Ok (fold_left g l s).
  Proof.
    induction l as [|x l IH]; intros s H; simpl; [reflexivity|].
    rewrite H by (left; reflexivity). simpl. apply IH. intros s' y Hy; apply H; right; exact Hy.
  Qed.

  Lemma cat_cache_eq : forall cat (dets gts : @scene A),
    keyed_by_id dets -> keyed_by_id gts ->
    cat_cache (by_category cat dets) (by_category cat gts) (make_similarity_cache sim dets gts)
    = Ok (make_similarity_cache sim (by_category cat dets) (by_category cat gts)).
  Proof.
    intros cat dets gts Kd Kg.
    assert (Hd := keyed_nodup _ Kd). assert (Hg := keyed_nodup _ Kg).
    set (dc := by_category cat dets). set (gc := by_category cat gts).
    assert (Kdc : keyed_by_id dc) by (apply by_category_keyed; exact Kd).
    assert (Kgc : keyed_by_id gc) by (apply by_category_keyed; exact Kg).
    assert (Hdc := keyed_nodup _ Kdc). assert (Hgc := keyed_nodup _ Kgc).
    assert (Hkeys : dkeys dc = map e_id (dvalues dc)) by (symmetry; apply keyed_ids; exact Kdc).
    assert (Hgkeys : dkeys gc = map e_id (dvalues gc)) by (symmetry; apply keyed_ids; exact Kgc).
    unfold cat_cache. rewrite Hkeys.
    (* process detections as elements *)
    assert (Hgen : forall l acc, (forall d, In d l -> In d (dvalues dc)) ->
      NoDup (dkeys acc ++ map e_id l) ->
      foldM (fun (acc : sdict (sdict corr)) (det_id : string) =>
        match dkeys gc with
        | [] => Ok (sset det_id [] acc)
        | _ => let* row := sgetE det_id (make_similarity_cache sim dets gts) in
          Ok (sset det_id (fold_left (fun r gt_id =>
                match sget gt_id row with Some c => sset gt_id c r | None => r end) (dkeys gc) []) acc)
        end) acc (map e_id l)
      = Ok (acc ++ map (fun d => (e_id d, map (fun g => (e_id g, corr_of d g)) (dvalues gc))) l)).
    { induction l as [|d l IH]; intros acc Hl Hnd; cbn [map foldM]; [rewrite app_nil_r; reflexivity|].
      assert (Hdin : In d (dvalues dets)).
      { specialize (Hl d (or_introl eq_refl)). unfold dvalues in Hl. apply in_map_iff in Hl as ([k e] & E & Hl).
        simpl in E; subst. apply by_category_In in Hl as (Hl & _). apply in_map_iff. exists (k, d); split; auto. }
      assert (Hrow : sgetE (e_id d) (make_similarity_cache sim dets gts) =
                Ok (map (fun g => (e_id g, corr_of d g)) (dvalues gts))).
      { unfold dgetE. rewrite (dget_NoDup String.eqb str_eqb_spec _ (e_id d)
          (map (fun g => (e_id g, corr_of d g)) (dvalues gts))); [reflexivity| |].
        - rewrite cache_eq by assumption. unfold dkeys; rewrite map_map; simpl; exact Hd.
        - rewrite cache_eq by assumption. apply in_map_iff. exists d; auto. }
      assert (Hstep : (match dkeys gc with
        | [] => Ok (sset (e_id d) [] acc)
        | _ => let* row := sgetE (e_id d) (make_similarity_cache sim dets gts) in
          Ok (sset (e_id d) (fold_left (fun r gt_id =>
                match sget gt_id row with Some c => sset gt_id c r | None => r end) (dkeys gc) []) acc)
        end) = Ok (acc ++ [(e_id d, map (fun g => (e_id g, corr_of d g)) (dvalues gc))])).
      { assert (Hset : forall v : sdict corr, sset (e_id d) v acc = acc ++ [(e_id d, v)]).
        { intro v. apply (dset_fresh String.eqb str_eqb_spec).
          simpl in Hnd. apply NoDup_remove_2 in Hnd. intro Hc; apply Hnd, in_or_app; left; exact Hc. }
        destruct (dkeys gc) as [|k0 ks] eqn:Ek.
        - rewrite Hset. symmetry in Hgkeys. apply map_eq_nil in Hgkeys. rewrite Hgkeys. reflexivity.
        - rewrite Hrow. cbn [bind]. rewrite Hset. apply f_equal, f_equal, (f_equal (fun v => [(e_id d, v)])). rewrite Hgkeys.
          rewrite <- (app_nil_l (map (fun g => (e_id g, corr_of d g)) (dvalues gc))).
          assert (Hgs : forall g, In g (dvalues gc) -> In g (dvalues gts)).
          { intros g Hgi. unfold dvalues in Hgi. apply in_map_iff in Hgi as ([k e] & E & Hgi).
            simpl in E; subst. apply by_category_In in Hgi as (Hgi & _). apply in_map_iff. exists (k, g); split; auto. }
          clear Hnd Hset IH Hl Ek k0 ks Hgkeys Kgc.
          assert (Hgen2 : forall gl r, (forall g, In g gl -> In g (dvalues gts)) ->
            NoDup (dkeys r ++ map e_id gl) ->
            fold_left (fun r gt_id => match sget gt_id (map (fun g => (e_id g, corr_of d g)) (dvalues gts)) with
               Some c => sset gt_id c r | None => r end) (map e_id gl) r
            = r ++ map (fun g => (e_id g, corr_of d g)) gl).
          { induction gl as [|g gl IHg]; intros r Hgl Hndr; simpl; [rewrite app_nil_r; reflexivity|].
            rewrite (dget_NoDup String.eqb str_eqb_spec _ (e_id g) (corr_of d g)).
            - rewrite (dset_fresh String.eqb str_eqb_spec).
              + rewrite IHg.
                * rewrite <- app_assoc; reflexivity.
                * intros x Hx; apply Hgl; right; exact Hx.
                * unfold dkeys in *. rewrite map_app; simpl. rewrite <- app_assoc. exact Hndr.
              + simpl in Hndr. apply NoDup_remove_2 in Hndr. intro Hc; apply Hndr, in_or_app; left; exact Hc.
            - unfold dkeys; rewrite map_map; simpl; exact Hg.
            - apply in_map_iff. exists g; split; [reflexivity|apply Hgl; left; reflexivity]. }
          apply Hgen2; [exact Hgs|exact Hgc]. }
      lazymatch goal with |- bind ?x _ = _ =>
        assert (Hs : x = Ok (acc ++ [(e_id d, map (fun g => (e_id g, corr_of d g)) (dvalues gc))]))
          by exact Hstep; rewrite Hs end.
      cbn [bind]. rewrite IH.
      - rewrite <- app_assoc; reflexivity.
      - intros x Hx; apply Hl; right; exact Hx.
      - unfold dkeys in *. rewrite map_app; simpl. rewrite <- app_assoc. exact Hnd. }
    rewrite Hgen; [|auto|simpl; exact Hdc].
    simpl. rewrite cache_eq by assumption. reflexivity.
  Qed.
End Link.

(** * Thresholds are independent (no assumption on keys) *)
Section Thresholds.
  Context {A : Type}.
  Variable sim : elem A -> elem A -> Q.

  Lemma assoc_loop_get : forall (dets : @scene A) cache0 ts t0 cache acc r,
    StronglySorted (fun x y => Qle_bool x y = true) ts ->
    (forall t, In t ts -> (t0 <= t)%Q) ->
    (cache = cache0 \/ cache = prune t0 cache0) ->
    assoc_loop dets cache acc ts = Ok r ->
    forall t,
      ((exists t', In t' ts /\ (t' == t)%Q) ->
         exists a, assoc_one dets (prune t cache0) = Ok a /\ dget Qeq_bool t r = Some a) /\
      ((forall t', In t' ts -> ~ (t' == t)%Q) -> dget Qeq_bool t r = dget Qeq_bool t acc).
  Proof.
    intros dets cache0 ts. induction ts as [|x ts IH]; intros t0 cache acc r Hs Hle Hc H t.
    - simpl in H. injection H as <-. split; [intros (t' & [] & _)|reflexivity].
    - simpl in H. inversion Hs as [|? ? Hs' Hf]; subst.
      assert (Hp : prune x cache = prune x cache0).
      { destruct Hc as [->| ->]; [reflexivity|]. apply prune_prune. apply Hle; left; reflexivity. }
      rewrite Hp in H. destruct (assoc_one dets (prune x cache0)) as [a|e] eqn:Ea; [|discriminate].
      cbn [bind] in H.
      assert (Hle' : forall t', In t' ts -> (x <= t')%Q).
      { intros t' Ht'. rewrite Forall_forall in Hf. apply Qle_bool_iff, Hf, Ht'. }
      destruct (IH x (prune x cache0) _ r Hs' Hle' (or_intror eq_refl) H t) as [IH1 IH2].
      destruct (Exists_dec (fun t' => (t' == t)%Q) ts (fun t' => Qeq_dec t' t)) as [Hex|Hnex].
      + apply Exists_exists in Hex. split; [intros _; apply IH1; exact Hex|].
        intros Hno. destruct Hex as (t' & Hin & E). exfalso; apply (Hno t'); [right|]; assumption.
      + assert (Hno : forall t', In t' ts -> ~ (t' == t)%Q).
        { intros t' Hin E. apply Hnex, Exists_exists. exists t'; auto. }
        rewrite (IH2 Hno). rewrite qget_dset. split.
        * intros (t' & [->|Hin] & E); [|exfalso; eapply Hno; eauto].
          exists a. rewrite <- (prune_eq t' t cache0 E). split; [exact Ea|].
          rewrite (proj2 (Qeq_bool_iff t t')) by (symmetry; exact E). reflexivity.
        * intros Hno'. destruct (Qeq_bool t x) eqn:E; [|reflexivity].
          apply Qeq_bool_iff in E. exfalso; apply (Hno' x (or_introl eq_refl)). symmetry; exact E.
  Qed.

  Lemma compute_agnostic_lookup : forall (dets : @scene A) ts cache r,
    compute_agnostic dets (sort_thresholds ts) cache = Ok r ->
    forall t,
      ((exists t', In t' ts /\ (t' == t)%Q) ->
         exists a, assoc_one dets (prune t cache) = Ok a /\ dget Qeq_bool t r = Some a) /\
      ((forall t', In t' ts -> ~ (t' == t)%Q) -> dget Qeq_bool t r = None).
  Proof.
    intros dets ts cache r H t. unfold compute_agnostic in H.
    destruct (list_Q_lower (sort_thresholds ts)) as (t0 & Ht0).
    destruct (assoc_loop_get dets cache (sort_thresholds ts) t0 cache [] r
                (sorted_thresholds ts) Ht0 (or_introl eq_refl) H t) as [H1 H2].
    unfold sort_thresholds in H1, H2. split.
    - intros (t' & Hin & E). apply H1. exists t'; split; [apply isort_In; exact Hin|exact E].
    - intros Hno. apply H2. intros t' Hin. apply Hno. apply isort_In in Hin; exact Hin.
  Qed.

  Lemma compute_agnostic_single : forall (dets : @scene A) t cache,
    compute_agnostic dets (sort_thresholds [t]) cache =
    (let* a := assoc_one dets (prune t cache) in Ok [(t, a)]).
  Proof. reflexivity. Qed.

  (** Category dictionary of the constructed evaluator. *)
  Lemma compute_category_inv : forall (dets gts : @scene A) ts cache cats m,
    compute_category dets gts ts cats cache = Ok m ->
    forall cat,
      (In cat cats -> by_category cat dets <> [] \/ by_category cat gts <> [] ->
         exists cc r, cat_cache (by_category cat dets) (by_category cat gts) cache = Ok cc /\
           compute_agnostic (by_category cat dets) ts cc = Ok r /\ sget cat m = Some r) /\
      (~ In cat cats \/ (by_category cat dets = [] /\ by_category cat gts = []) -> sget cat m = None).
  Proof.
    intros dets gts ts cache cats. unfold compute_category.
    induction cats as [|c cats IH] using rev_ind; intros m H cat.
    - simpl in H. injection H as <-. split; [intros []|reflexivity].
    - rewrite foldM_app in H.
      match type of H with (bind ?x _) = _ => destruct x as [m'|e] eqn:E end; [|discriminate].
      cbn [bind] in H. specialize (IH m' eq_refl). cbn [foldM] in H. cbv zeta in H.
      destruct (Nat.eqb (List.length (by_category c dets) + List.length (by_category c gts)) 0) eqn:E0.
      + cbn [bind] in H. injection H as <-. apply Nat.eqb_eq in E0.
        assert (Hd : by_category c dets = []) by (destruct (by_category c dets); [reflexivity|simpl in E0; lia]).
        assert (Hg : by_category c gts = []) by (destruct (by_category c gts); [reflexivity|simpl in E0; lia]).
        split.
        * intros Hin Hne. apply in_app_or in Hin as [Hin|[<-|[]]]; [apply IH; assumption|].
          destruct Hne; congruence.
        * intros Hor. apply IH. destruct Hor as [Hor|Hor]; [|right; exact Hor].
          left; intro Hc; apply Hor, in_or_app; left; exact Hc.
      + apply Nat.eqb_neq in E0.
        destruct (cat_cache (by_category c dets) (by_category c gts) cache) as [cc|e] eqn:E1; [|discriminate].
        cbn [bind] in H. destruct (compute_agnostic (by_category c dets) ts cc) as [r|e] eqn:E2; [|discriminate].
        cbn [bind] in H. injection H as <-.
        destruct (string_dec c cat) as [<-|Hne].
        * split.
          -- intros _ _. exists cc, r. repeat split; auto. apply (dget_dset_same String.eqb str_eqb_spec).
          -- intros [Hor|[Ha Hb]].
             ++ exfalso; apply Hor, in_or_app; right; left; reflexivity.
             ++ rewrite Ha, Hb in E0; simpl in E0; lia.
        * rewrite (dget_dset_other String.eqb str_eqb_spec) by exact Hne. split.
          -- intros Hin. apply in_app_or in Hin as [Hin|[Hin|[]]]; [apply IH; exact Hin|congruence].
          -- intros Hor. apply IH. destruct Hor as [Hor|Hor]; [|right; exact Hor].
             left; intro Hc; apply Hor, in_or_app; left; exact Hc.
  Qed.

  (** Success of the category pass. *)
  Lemma compute_category_ok : forall (dets gts : @scene A) ts cache cats,
    (forall cat, In cat cats -> by_category cat dets <> [] \/ by_category cat gts <> [] ->
       exists cc r, cat_cache (by_category cat dets) (by_category cat gts) cache = Ok cc /\
         compute_agnostic (by_category cat dets) ts cc = Ok r) ->
    exists m, compute_category dets gts ts cats cache = Ok m.
  Proof.
    intros dets gts ts cache cats H. unfold compute_category.
    induction cats as [|c cats IH] using rev_ind; [eexists; reflexivity|].
    destruct IH as (m' & E). { intros cat Hin; apply H, in_or_app; left; exact Hin. }
    rewrite foldM_app, E. cbn [bind foldM]. cbv zeta.
    destruct (Nat.eqb (List.length (by_category c dets) + List.length (by_category c gts)) 0) eqn:E0;
      [eexists; reflexivity|].
    destruct (H c) as (cc & r & E1 & E2).
    { apply in_or_app; right; left; reflexivity. }
    { apply Nat.eqb_neq in E0. destruct (by_category c dets); [right|left]; try discriminate.
      destruct (by_category c gts); [simpl in E0; lia|discriminate]. }
    rewrite E1. cbn [bind]. rewrite E2. eexists; reflexivity.
  Qed.

  Lemma evaluator_init_inv : forall sub gt ts cats (ev : @evaluator A),
    evaluator_init sim sub gt ts cats = Ok ev ->
    compute_agnostic sub (sort_thresholds ts) (make_similarity_cache sim sub gt) = Ok (ev_agnostic ev) /\
    compute_category sub gt (sort_thresholds ts) cats (make_similarity_cache sim sub gt) = Ok (ev_category ev) /\
    ev_cache ev = make_similarity_cache sim sub gt.
  Proof.
    intros sub gt ts cats ev H. unfold evaluator_init in H.
    destruct (compute_agnostic sub (sort_thresholds ts) (make_similarity_cache sim sub gt)) as [a|e]; [|discriminate].
    cbn [bind] in H.
    destruct (compute_category sub gt (sort_thresholds ts) cats (make_similarity_cache sim sub gt)) as [c|e]; [|discriminate].
    cbn [bind] in H. injection H as <-. auto.
  Qed.

  Lemma evaluator_init_ok : forall sub gt ts cats (a : qdict (sdict corr)) c,
    compute_agnostic sub (sort_thresholds ts) (make_similarity_cache sim sub gt) = Ok a ->
    compute_category sub gt (sort_thresholds ts) cats (make_similarity_cache sim sub gt) = Ok c ->
    exists ev : @evaluator A, evaluator_init sim sub gt ts cats = Ok ev /\
      ev_agnostic ev = a /\ ev_category ev = c.
  Proof.
    intros sub gt ts cats a c H1 H2. unfold evaluator_init. rewrite H1. cbn [bind]. rewrite H2.
    eexists; repeat split.
  Qed.

  Lemma thresholds_independent : forall sub gt ts cats t (ev : @evaluator A),
    evaluator_init sim sub gt ts cats = Ok ev -> In t ts ->
    exists ev1 : @evaluator A,
      evaluator_init sim sub gt [t] cats = Ok ev1 /\
      dget Qeq_bool t (ev_agnostic ev) = dget Qeq_bool t (ev_agnostic ev1) /\
      (exists a, dget Qeq_bool t (ev_agnostic ev) = Some a) /\
      (forall cat, option_map (dget Qeq_bool t) (sget cat (ev_category ev)) =
                   option_map (dget Qeq_bool t) (sget cat (ev_category ev1))) /\
      ev_cache ev = ev_cache ev1.
  Proof.
    intros sub gt ts cats t ev H Ht.
    destruct (evaluator_init_inv _ _ _ _ _ H) as (Ha & Hc & Hcache).
    assert (Htt : exists t', In t' ts /\ (t' == t)%Q) by (exists t; split; [exact Ht|reflexivity]).
    destruct (proj1 (compute_agnostic_lookup _ _ _ _ Ha t) Htt) as (a & E1 & E2).
    assert (Hinv := compute_category_inv _ _ _ _ _ _ Hc).
    assert (Hs : forall (d : @scene A) cc r, compute_agnostic d (sort_thresholds ts) cc = Ok r ->
       exists r1, compute_agnostic d (sort_thresholds [t]) cc = Ok r1 /\
         dget Qeq_bool t r1 = dget Qeq_bool t r).
    { intros d cc r Hr. destruct (proj1 (compute_agnostic_lookup _ _ _ _ Hr t) Htt) as (b & F1 & F2).
      rewrite compute_agnostic_single, F1. cbn [bind]. eexists; split; [reflexivity|].
      rewrite F2. simpl. rewrite (proj2 (Qeq_bool_iff t t)) by reflexivity. reflexivity. }
    destruct (Hs _ _ _ Ha) as (a1 & Ea1 & Eg1).
    destruct (compute_category_ok sub gt (sort_thresholds [t]) (make_similarity_cache sim sub gt) cats) as (m1 & Em1).
    { intros cat Hin Hne. destruct (proj1 (Hinv cat) Hin Hne) as (cc & r & F1 & F2 & F3).
      destruct (Hs _ _ _ F2) as (r1 & F4 & _). exists cc, r1; auto. }
    destruct (evaluator_init_ok sub gt [t] cats a1 m1 Ea1 Em1) as (ev1 & Eev & Eag & Ecat).
    exists ev1. split; [exact Eev|]. rewrite Eag, Ecat. split; [congruence|]. split; [exists a; exact E2|]. split.
    - intro cat. destruct (in_dec string_dec cat cats) as [Hin|Hni].
      + assert (Hdec : (by_category cat sub <> [] \/ by_category cat gt <> []) \/
                        (by_category cat sub = [] /\ by_category cat gt = [])).
        { destruct (by_category cat sub); [|left; left; discriminate].
          destruct (by_category cat gt); [right; auto|left; right; discriminate]. }
        destruct Hdec as [Hne|He].
        * destruct (proj1 (Hinv cat) Hin Hne) as (cc & r & F1 & F2 & F3).
          destruct (proj1 (compute_category_inv _ _ _ _ _ _ Em1 cat) Hin Hne) as (cc1 & r1 & G1 & G2 & G3).
          assert (cc1 = cc) by congruence. subst cc1.
          destruct (Hs _ _ _ F2) as (r2 & F4 & F5). assert (r2 = r1) by congruence. subst r2.
          rewrite F3, G3. simpl. congruence.
        * rewrite (proj2 (Hinv cat)) by (right; exact He).
          rewrite (proj2 (compute_category_inv _ _ _ _ _ _ Em1 cat)) by (right; exact He). reflexivity.
      + rewrite (proj2 (Hinv cat)) by (left; exact Hni).
        rewrite (proj2 (compute_category_inv _ _ _ _ _ _ Em1 cat)) by (left; exact Hni). reflexivity.
    - rewrite Hcache. apply evaluator_init_inv in Eev as (_ & _ & Eev). congruence.
  Qed.

  (** ** Errors: only KeyError, and when it happens *)
  Definition keyerr {B} (x : res B) : Prop := (exists b, x = Ok b) \/ x = Err KeyError.

  Lemma keyerr_bind : forall B C (x : res B) (f : B -> res C),
    keyerr x -> (forall b, keyerr (f b)) -> keyerr (bind x f).
  Proof.
    intros B C x f [[b ->]| ->] Hf; cbn [bind]; [apply Hf|right; reflexivity].
  Qed.

  Lemma keyerr_foldM : forall B S (f : S -> B -> res S) l s,
    (forall s x, keyerr (f s x)) -> keyerr (foldM f s l).
  Proof.
    induction l as [|x l IH]; intros s H; simpl; [left; eexists; reflexivity|].
    apply keyerr_bind; [apply H|]. intro b; apply IH; exact H.
  Qed.

  Lemma keyerr_sgetE : forall B k (d : sdict B), keyerr (sgetE k d).
  Proof.
    intros B k d. unfold dgetE. destruct (sget k d); [left; eexists; reflexivity|right; reflexivity].
  Qed.

  Lemma keyerr_assoc_one : forall (dets : @scene A) c, keyerr (assoc_one dets c).
  Proof.
    intros dets c. unfold assoc_one. apply keyerr_bind; [|intro b; left; eexists; reflexivity].
    apply keyerr_foldM. intros [r a] d. unfold assoc_step. apply keyerr_bind; [apply keyerr_sgetE|].
    intro row. destruct (last_opt _); left; eexists; reflexivity.
  Qed.

  Lemma keyerr_agnostic : forall (dets : @scene A) ts c, keyerr (compute_agnostic dets ts c).
  Proof.
    intros dets ts c. unfold compute_agnostic. generalize (@nil (Q * sdict corr)) as acc. revert c.
    induction ts as [|t ts IH]; intros c acc; simpl; [left; eexists; reflexivity|].
    apply keyerr_bind; [apply keyerr_assoc_one|]. intro b; apply IH.
  Qed.

  Lemma keyerr_cat_cache : forall (d g : @scene A) c, keyerr (cat_cache d g c).
  Proof.
    intros d g c. unfold cat_cache. apply keyerr_foldM. intros s x.
    destruct (dkeys g); [left; eexists; reflexivity|].
    apply keyerr_bind; [apply keyerr_sgetE|]. intro; left; eexists; reflexivity.
  Qed.

  Lemma keyerr_init : forall sub gt ts cats, keyerr (@evaluator_init A sim sub gt ts cats).
  Proof.
    intros. unfold evaluator_init. cbv zeta. apply keyerr_bind; [apply keyerr_agnostic|]. intro a.
    apply keyerr_bind; [|intro; left; eexists; reflexivity].
    unfold compute_category. apply keyerr_foldM. intros s x. cbv zeta.
    destruct (Nat.eqb _ _); [left; eexists; reflexivity|].
    apply keyerr_bind; [apply keyerr_cat_cache|]. intro cc.
    apply keyerr_bind; [apply keyerr_agnostic|]. intro; left; eexists; reflexivity.
  Qed.

  Lemma cat_cache_keys : forall (d g : @scene A) c cc,
    cat_cache d g c = Ok cc -> forall k, In k (dkeys cc) <-> In k (dkeys d).
  Proof.
    intros d g c cc. unfold cat_cache. generalize (dkeys d) as ks. intros ks. revert cc.
    induction ks as [|k0 ks IH] using rev_ind; intros cc H k.
    - simpl in H. injection H as <-. simpl; tauto.
    - rewrite foldM_app in H.
      match type of H with (bind ?x _) = _ => destruct x as [m'|e] eqn:E end; [|discriminate].
      cbn [bind foldM] in H. specialize (IH m' eq_refl).
      assert (Hk : exists v, cc = sset k0 v m').
      { destruct (dkeys g).
        - cbn [bind] in H. injection H as <-. eexists; reflexivity.
        - destruct (sgetE k0 c); [|discriminate]. cbn [bind] in H. injection H as <-. eexists; reflexivity. }
      destruct Hk as (v & ->). rewrite (dkeys_dset String.eqb str_eqb_spec). rewrite IH, in_app_iff. simpl.
      intuition.
  Qed.

  Lemma prune_keys : forall t c, dkeys (prune t c) = dkeys c.
  Proof. intros t c. unfold prune, dkeys. rewrite map_map. reflexivity. Qed.

  Lemma foldM_Err : forall B S (f : S -> B -> res S) l s x,
    In x l -> (forall s, exists e, f s x = Err e) -> exists e, foldM f s l = Err e.
  Proof.
    induction l as [|y l IH]; intros s x Hin H; [contradiction|].
    simpl. destruct Hin as [->|Hin].
    - destruct (H s) as (e & ->). exists e; reflexivity.
    - destruct (f s y) as [s'|e]; cbn [bind]; [eapply IH; eassumption|exists e; reflexivity].
  Qed.

  Lemma init_keyerror : forall (sub gt : @scene A) ts cats k e,
    In (k, e) sub -> In (e_category e) cats -> ts <> [] ->
    (forall e', ~ In (e_id e, e') (by_category (e_category e) sub)) ->
    evaluator_init sim sub gt ts cats = Err KeyError.
  Proof.
    intros sub gt ts cats k e Hin Hcat Hts Hno.
    destruct (keyerr_init sub gt ts cats) as [(ev & H)|H]; [|exact H]. exfalso.
    destruct (evaluator_init_inv _ _ _ _ _ H) as (_ & Hc & _).
    assert (Hd : In (k, e) (by_category (e_category e) sub)) by (apply by_category_In; auto).
    destruct (proj1 (compute_category_inv _ _ _ _ _ _ Hc (e_category e)) Hcat) as (cc & r & F1 & F2 & _).
    { left. intro E. rewrite E in Hd; contradiction. }
    destruct ts as [|t ts]; [congruence|].
    destruct (proj1 (compute_agnostic_lookup _ _ _ _ F2 t)) as (a & G1 & _).
    { exists t; split; [left|]; reflexivity. }
    unfold assoc_one in G1.
    destruct (foldM_Err _ _ (assoc_step (A := A) (prune t cc)) (sort_dets (by_category (e_category e) sub)) ([], []) e) as (er & G2).
    - apply sort_dets_In. unfold dvalues. apply in_map_iff. exists (k, e); auto.
    - intros [x y]. unfold assoc_step, dgetE.
      destruct (sget (e_id e) (prune t cc)) eqn:Eg; [|eexists; reflexivity].
      exfalso. apply (dget_In String.eqb str_eqb_spec) in Eg.
      assert (Hk : In (e_id e) (dkeys (prune t cc))) by (apply in_map_iff; eexists; split; [|exact Eg]; reflexivity).
      rewrite prune_keys in Hk. apply (cat_cache_keys _ _ _ _ F1) in Hk.
      apply in_map_iff in Hk as ([k' e'] & Ek & Hk). simpl in Ek; subst. exact (Hno _ Hk).
    - rewrite G2 in G1; discriminate.
  Qed.
End Thresholds.

(** * The statements used in Props *)
Section Final.
  Context {A : Type}.
  Variable sim : elem A -> elem A -> Q.

  Lemma keyed_agnostic : forall (sub gt : @scene A) ts cats ev t,
    keyed_by_id sub -> keyed_by_id gt -> evaluator_init sim sub gt ts cats = Ok ev -> In t ts ->
    dget Qeq_bool t (ev_agnostic ev) = Some (assoc_at sim sub gt t).
  Proof.
    intros sub gt ts cats ev t Kd Kg H Ht.
    apply evaluator_init_inv in H as (H & _ & _).
    eapply compute_agnostic_get; eauto using keyed_nodup.
  Qed.

  Lemma restrict_by_category : forall cat (s : @scene A), restrict cat s = by_category cat s.
  Proof.
    intros cat s. apply filter_ext. intros [k e]; simpl.
    destruct (string_dec (e_category e) cat) as [->|Hne].
    - symmetry; apply String.eqb_refl.
    - symmetry; apply String.eqb_neq; exact Hne.
  Qed.

  Lemma keyed_init_ok : forall (sub gt : @scene A) ts cats,
    keyed_by_id sub -> keyed_by_id gt ->
    exists ev, evaluator_init sim sub gt ts cats = Ok ev /\
      forall cat,
        (In cat cats -> by_category cat sub <> [] \/ by_category cat gt <> [] ->
          exists r, compute_agnostic (by_category cat sub) (sort_thresholds ts)
                 (make_similarity_cache sim (by_category cat sub) (by_category cat gt)) = Ok r /\
            sget cat (ev_category ev) = Some r) /\
        (~ In cat cats \/ (by_category cat sub = [] /\ by_category cat gt = []) ->
            sget cat (ev_category ev) = None).
  Proof.
    intros sub gt ts cats Kd Kg.
    assert (Ha := compute_agnostic_eq sim sub gt ts (keyed_nodup _ Kd) (keyed_nodup _ Kg)).
    destruct (compute_category_ok sub gt (sort_thresholds ts) (make_similarity_cache sim sub gt) cats) as (m & Em).
    { intros cat _ _. rewrite cat_cache_eq by assumption. eexists; eexists; split; [reflexivity|].
      apply compute_agnostic_eq; apply keyed_nodup, by_category_keyed; assumption. }
    destruct (evaluator_init_ok sim sub gt ts cats _ _ Ha Em) as (ev & E1 & E2 & E3).
    exists ev. split; [exact E1|]. intro cat. rewrite E3. split.
    - intros Hin Hne. destruct (proj1 (compute_category_inv _ _ _ _ _ _ Em cat) Hin Hne) as (cc & r & F1 & F2 & F3).
      rewrite cat_cache_eq in F1 by assumption. injection F1 as <-. exists r; auto.
    - apply (compute_category_inv _ _ _ _ _ _ Em cat).
  Qed.

  Lemma sget_enc : forall (dets gts : @scene A) t,
    NoDup (map e_id (dvalues dets)) -> NoDup (map e_id (dvalues gts)) ->
    forall k c, sget k (assoc_at sim dets gts t) = Some c <->
      exists d g, In (d, g) (run sim (dvalues gts) t (sort_dets dets)) /\ k = e_id d /\ c = corr_of sim d g.
  Proof.
    intros dets gts t Hd Hg k c. unfold assoc_at, enc_result.
    assert (Hs := sort_dets_ids_nodup dets Hd).
    assert (Hsn : NoDup (sort_dets dets)) by (eapply NoDup_map_NoDup; exact Hs).
    destruct (run_inv sim (dvalues gts) Hg t (sort_dets dets) Hsn) as [I1 I2 I3 I4 I5].
    set (st := run sim (dvalues gts) t (sort_dets dets)) in *.
    split.
    - intro H. apply (dget_In String.eqb str_eqb_spec) in H.
      apply in_map_iff in H as ([d g] & E & H). simpl in E. injection E as <- <-. exists d, g; auto.
    - intros (d & g & Hin & -> & ->). apply (dget_NoDup String.eqb str_eqb_spec).
      + unfold dkeys. rewrite map_map; simpl.
        assert (Hg' : forall l, NoDup (map fst l) -> (forall a b, In (a, b) l -> In a (dvalues dets)) ->
          NoDup (map (fun x : elem A * elem A => e_id (fst x)) l)).
        { induction l as [|[a b] l IH]; intros Hn Hi; simpl; [constructor|].
          simpl in Hn; inversion Hn as [|? ? Hni Hn']; subst. constructor.
          - intro Hc. apply in_map_iff in Hc as ([a' b'] & E & Hc); simpl in E.
            assert (a' = a). { eapply NoDup_map_inj; [exact Hd| | |exact E].
              - eapply Hi; right; exact Hc. - eapply Hi; left; reflexivity. }
            subst. apply Hni. apply in_map_iff. exists (a, b'); auto.
          - apply IH; [exact Hn'|]. intros a' b' Hc; eapply Hi; right; exact Hc. }
        apply Hg'; [exact I4|]. intros a b Hc. apply sort_dets_In. eapply I1; exact Hc.
      + apply in_map_iff. exists (d, g); auto.
  Qed.

  Lemma pairs_run : forall (sub gt : @scene A) t, keyed_by_id sub -> keyed_by_id gt ->
    forall d g, pairs (elements sub) (elements gt) (assoc_at sim sub gt t) d g <->
      In (d, g) (run sim (dvalues gt) t (sort_dets sub)).
  Proof.
    intros sub gt t Kd Kg d g.
    assert (Hd := keyed_nodup _ Kd). assert (Hg := keyed_nodup _ Kg).
    assert (Hsn : NoDup (sort_dets sub)) by (eapply NoDup_map_NoDup, sort_dets_ids_nodup, Hd).
    destruct (run_inv sim (dvalues gt) Hg t (sort_dets sub) Hsn) as [I1 I2 I3 I4 I5].
    unfold pairs. split.
    - intros (H1 & H2 & c & H3 & H4). apply sget_enc in H3 as (d' & g' & Hin & E1 & ->); auto.
      simpl in H4.
      assert (g' = g) by (eapply NoDup_map_inj; [exact Hg|eapply I2; exact Hin|exact H2|exact H4]).
      assert (d = d').
      { eapply NoDup_map_inj; [exact Hd|exact H1| |exact E1]. apply sort_dets_In; eapply I1; exact Hin. }
      subst; exact Hin.
    - intro H. split; [apply sort_dets_In; eapply I1; exact H|]. split; [eapply I2; exact H|].
      exists (corr_of sim d g). split; [|reflexivity]. apply sget_enc; auto. exists d, g; auto.
  Qed.

  Lemma faithful_at : forall (sub gt : @scene A) t, keyed_by_id sub -> keyed_by_id gt ->
    faithful sim (elements sub) (elements gt) (assoc_at sim sub gt t).
  Proof.
    intros sub gt t Kd Kg k c H.
    assert (Hd := keyed_nodup _ Kd). assert (Hg := keyed_nodup _ Kg).
    assert (Hsn : NoDup (sort_dets sub)) by (eapply NoDup_map_NoDup, sort_dets_ids_nodup, Hd).
    destruct (run_inv sim (dvalues gt) Hg t (sort_dets sub) Hsn) as [I1 I2 I3 I4 I5].
    apply sget_enc in H as (d & g & Hin & -> & ->); auto.
    exists d, g. simpl. repeat split; [apply sort_dets_In; eapply I1; exact Hin|eapply I2; exact Hin].
  Qed.

  Lemma stable_ext : forall dets gts t (M M' : elem A -> elem A -> Prop),
    (forall d g, M d g <-> M' d g) -> stable sim dets gts t M -> stable sim dets gts t M'.
  Proof.
    intros dets gts t M M' E [[O1 O2 O3 O4 O5] Hnb]. split.
    - constructor; intros *; repeat rewrite <- E; eauto.
    - intros d g (H1 & H2 & H3 & H4 & H5). apply (Hnb d g). repeat split; auto.
      + intros g' HM; apply H4, E; exact HM.
      + intros d' HM; apply H5, E; exact HM.
  Qed.

  Lemma stable_at : forall (sub gt : @scene A) t, keyed_by_id sub -> keyed_by_id gt ->
    stable sim (elements sub) (elements gt) t (pairs (elements sub) (elements gt) (assoc_at sim sub gt t)).
  Proof.
    intros sub gt t Kd Kg.
    assert (Hd := keyed_nodup _ Kd). assert (Hg := keyed_nodup _ Kg).
    apply stable_ext with (M := fun d g => In (d, g) (run sim (dvalues gt) t (sort_dets sub))).
    { intros; symmetry; apply pairs_run; assumption. }
    apply run_stable; auto.
    - eapply NoDup_map_NoDup, sort_dets_ids_nodup, Hd.
    - intro d; apply sort_dets_In.
    - apply sort_dets_prio. eapply NoDup_map_NoDup, Hd.
  Qed.

  Lemma unique_at : forall (sub gt : @scene A) t m, keyed_by_id sub -> keyed_by_id gt ->
    stable sim (elements sub) (elements gt) t (fun d g => m d = Some g) ->
    forall d g, m d = Some g <-> pairs (elements sub) (elements gt) (assoc_at sim sub gt t) d g.
  Proof.
    intros sub gt t m Kd Kg Hs d g.
    assert (Hd := keyed_nodup _ Kd). assert (Hg := keyed_nodup _ Kg).
    rewrite pairs_run by assumption.
    apply run_unique with (dets := elements sub); auto.
    - eapply NoDup_map_NoDup, sort_dets_ids_nodup, Hd.
    - intro; apply sort_dets_In.
    - apply sort_dets_prio. eapply NoDup_map_NoDup, Hd.
  Qed.

  Lemma mono_at : forall (sub gt : @scene A) t1 t2, keyed_by_id sub -> keyed_by_id gt -> (t1 <= t2)%Q ->
    (forall d g, pairs (elements sub) (elements gt) (assoc_at sim sub gt t2) d g ->
       exists d', pairs (elements sub) (elements gt) (assoc_at sim sub gt t1) d' g) /\
    (matches (assoc_at sim sub gt t2) <= matches (assoc_at sim sub gt t1))%nat.
  Proof.
    intros sub gt t1 t2 Kd Kg Ht.
    assert (Hd := keyed_nodup _ Kd). assert (Hg := keyed_nodup _ Kg).
    assert (Hsn : NoDup (sort_dets sub)) by (eapply NoDup_map_NoDup, sort_dets_ids_nodup, Hd).
    split.
    - intros d g H. apply pairs_run in H; auto.
      assert (Hin : In g (map snd (run sim (dvalues gt) t1 (sort_dets sub)))).
      { eapply run_threshold_mono; eauto. apply in_map_iff. exists (d, g); auto. }
      apply in_map_iff in Hin as ([d' g'] & E & Hin). simpl in E; subst.
      exists d'. apply pairs_run; auto.
    - unfold matches, assoc_at, enc_result. rewrite !map_length. apply run_count_mono; auto.
  Qed.
End Final.
