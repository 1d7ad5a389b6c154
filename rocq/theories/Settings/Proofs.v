(** Lemmas on the evaluator constructors and the settings they are given. *)
From Coq Require Import List Bool String QArith Sorted Permutation Arith Lia.
From Verif.Base Require Import Py PyFacts Sort.
From Verif.Assoc Require Import Model Spec Proofs.
From Verif.AP Require Import Model.
From Verif.Scores Require Import Model.
From Verif.Settings Require Import Model Spec.
Import ListNotations.
Local Open Scope string_scope.
Local Open Scope list_scope.

Lemma nat_eqb_spec : forall x y, Nat.eqb x y = true <-> x = y.
Proof. apply Nat.eqb_eq. Qed.

Lemma dset_keys : forall K V (eqb : K -> K -> bool), (forall x y, eqb x y = true <-> x = y) ->
  forall (d : list (K * V)) k v v', dget eqb k d = Some v' -> dkeys (dset eqb k v d) = dkeys d.
Proof.
  intros K V eqb SP. induction d as [|[k0 v0] d IH]; intros k v v' G; [discriminate|]. cbn [dget dset] in *.
  destruct (eqb k k0); [reflexivity|]. unfold dkeys in *. cbn [map fst]. rewrite (IH _ _ _ G). reflexivity.
Qed.

Lemma dset_dset : forall K V (eqb : K -> K -> bool), (forall x y, eqb x y = true <-> x = y) ->
  forall (d : list (K * V)) k v v', dset eqb k v (dset eqb k v' d) = dset eqb k v d.
Proof.
  intros K V eqb SP. induction d as [|[k0 v0] d IH]; intros k v v'; cbn [dset].
  - rewrite (proj2 (SP k k) eq_refl). reflexivity.
  - destruct (eqb k k0) eqn:E; cbn [dset]; rewrite E; [reflexivity|]. rewrite IH. reflexivity.
Qed.

Lemma dset_same : forall K V (eqb : K -> K -> bool), (forall x y, eqb x y = true <-> x = y) ->
  forall (d : list (K * V)) k v, dget eqb k d = Some v -> dset eqb k v d = d.
Proof.
  intros K V eqb SP. induction d as [|[k0 v0] d IH]; intros k v G; [discriminate|]. cbn [dget dset] in *.
  destruct (eqb k k0) eqn:E; [congruence|]. rewrite (IH _ _ G). reflexivity.
Qed.

Lemma sorted_le : forall ts, StronglySorted Qle (isort Qle_bool ts).
Proof.
  intros ts. pose proof (sorted_thresholds ts) as H. unfold sort_thresholds in H.
  induction H as [|x l H IH F]; constructor; [exact IH|]. rewrite Forall_forall in *. intros y I. apply Qle_bool_iff, F, I.
Qed.

Lemma sort_sorted : forall ts, StronglySorted Qle ts -> isort Qle_bool ts = ts.
Proof.
  induction 1 as [|x l H IH F]; [reflexivity|]. change (isort Qle_bool (x :: l)) with (insert Qle_bool x (isort Qle_bool l)). rewrite IH. destruct l as [|y l]; [reflexivity|]. cbn [insert].
  rewrite Forall_forall in F. rewrite (proj2 (Qle_bool_iff x y) (F y (or_introl eq_refl))). reflexivity.
Qed.

Lemma sort_again : forall ts, isort Qle_bool (isort Qle_bool ts) = isort Qle_bool ts.
Proof. intros ts. apply sort_sorted, sorted_le. Qed.

Lemma np_sort_ok : forall v s, np_sort v = Ok s -> exists ts, (v = Numbers ts \/ v = Array ts) /\ s = Array (isort Qle_bool ts).
Proof. intros [l|l|l|q|d] s E; try discriminate; injection E as <-; exists l; auto. Qed.

Lemma fresh_new : forall st, dget Nat.eqb (fresh st) st = None.
Proof.
  intros st. apply (dget_None _ nat_eqb_spec). unfold fresh. intros I.
  assert (L : forall l x, In x l -> (x <= fold_right Nat.max 0%nat l)%nat).
  { induction l as [|y l IH]; intros x []; cbn [fold_right]; [subst; lia|]. specialize (IH x H). lia. }
  specialize (L _ _ I). lia.
Qed.

Lemma dget_app : forall K V (eqb : K -> K -> bool) (d d' : list (K * V)) k,
  dget eqb k (d ++ d') = match dget eqb k d with Some v => Some v | None => dget eqb k d' end.
Proof.
  intros K V eqb. induction d as [|[k0 v0] d IH]; intros d' k; [reflexivity|]. cbn [app dget]. destruct (eqb k k0); [reflexivity|apply IH].
Qed.

Section Base.
  Context {B : Type}.
  Variables (sim : Q -> elem B -> elem B -> Q) (key : option string) (sub gt : @scene B).

  (** The part of the constructor that touches the dictionaries. *)
  Lemma base_store : forall a st, let r := base_init sim key sub gt (Some a) st in
    (fst r = st /\ exists e, snd r = Err e) \/
    (exists d ts, dget Nat.eqb a st = Some d /\ holds_thresholds d ts /\
       fst r = dset Nat.eqb a (sset "thresholds" (Array (isort Qle_bool ts)) d) st /\
       forall o, snd r = Ok o -> i_settings o = a).
  Proof.
    intros a st. cbv zeta. unfold base_init, look. destruct (dget Nat.eqb a st) as [d|] eqn:D; [|left; split; [reflexivity|eexists; reflexivity]].
    cbn [bind]. unfold dgetE. destruct (sget "thresholds" d) as [v|] eqn:T; [|left; split; [reflexivity|eexists; reflexivity]]. cbn [bind].
    destruct (np_sort v) as [s|e] eqn:S; [|left; split; [reflexivity|eexists; reflexivity]]. right. destruct (np_sort_ok _ _ S) as (ts & V & ->).
    exists d, ts. split; [reflexivity|]. split; [destruct V as [-> | ->]; [left|right]; exact T|]. cbn [bind fst snd]. split; [reflexivity|].
    intros o.
    repeat match goal with |- bind ?x _ = Ok _ -> _ => destruct x; [cbn [bind]|discriminate] end. intros [= <-]. reflexivity.
  Qed.

  (** The object is the one evaluator_init describes. *)
  Lemma base_object : forall a st d ts cats tol, dget Nat.eqb a st = Some d -> holds_thresholds d ts ->
    sget "categories" d = Some (Names cats) -> tolerance key sub gt d = Ok tol ->
    let r := base_init sim key sub gt (Some a) st in
    (let* o := snd r in current o (fst r)) = evaluator_init (sim tol) sub gt ts cats.
  Proof.
    intros a st d ts cats tol D T C TO. cbv zeta. unfold base_init, look. rewrite D. cbn [bind].
    assert (G : exists v, sgetE "thresholds" d = Ok v /\ np_sort v = Ok (Array (isort Qle_bool ts))).
    { unfold dgetE. destruct T as [-> | ->]; eauto. }
    destruct G as (v & -> & G). cbn [bind]. rewrite G. cbn [bind fst snd].
    set (d' := sset "thresholds" (Array (isort Qle_bool ts)) d).
    assert (TO' : tolerance key sub gt d' = Ok tol \/ key = Some "thresholds").
    { destruct key as [k|]; [|left; exact TO]. destruct (string_dec k "thresholds") as [->|N]; [right; reflexivity|]. left.
      unfold tolerance in *. destruct sub, gt; try exact TO. unfold dgetE, d' in *.
      rewrite (dget_dset_other _ str_eqb_spec) by congruence. exact TO. }
    assert (T' : sget "thresholds" d' = Some (Array (isort Qle_bool ts))) by apply (dget_dset_same _ str_eqb_spec).
    assert (C' : sget "categories" d' = Some (Names cats)).
    { unfold d'. rewrite (dget_dset_other _ str_eqb_spec) by discriminate. exact C. }
    destruct TO' as [TO'|KT].
    2:{ subst key. unfold tolerance in *. destruct sub, gt.
        1-3: injection TO as <-. 4: unfold dgetE in TO; destruct T as [T|T]; rewrite T in TO; discriminate TO.
        all: cbn [bind]; unfold dgetE; rewrite T', C'; cbn [bind as_numbers as_names]; unfold evaluator_init, sort_thresholds.
        all: match goal with |- context [compute_agnostic ?x ?y ?z] => destruct (compute_agnostic x y z) as [agn|e] end; [|reflexivity].
        all: cbn [bind]; match goal with |- context [compute_category ?x ?y ?z ?u ?w] => destruct (compute_category x y z u w) as [cat|e] end; [|reflexivity].
        all: cbn [bind]; unfold current, look; cbn [i_settings]; rewrite (dget_dset_same _ nat_eqb_spec); cbn [bind]; unfold dgetE; rewrite T', C'; reflexivity. }
    rewrite TO'. cbn [bind]. unfold dgetE. rewrite T', C'. cbn [bind as_numbers as_names]. unfold evaluator_init, sort_thresholds.
    destruct (compute_agnostic sub (isort Qle_bool ts) (make_similarity_cache (sim tol) sub gt)) as [agn|e]; [|reflexivity]. cbn [bind].
    destruct (compute_category sub gt (isort Qle_bool ts) cats (make_similarity_cache (sim tol) sub gt)) as [cat|e]; [|reflexivity]. cbn [bind].
    unfold current, look. cbn [i_settings]. rewrite (dget_dset_same _ nat_eqb_spec). cbn [bind]. unfold dgetE. rewrite T', C'. reflexivity.
  Qed.

  (** Without settings: as with a new dictionary holding the defaults. *)
  Lemma base_none : forall st, let st0 := st ++ [(fresh st, default_settings)] in
    base_init sim key sub gt None st = base_init sim key sub gt (Some (fresh st)) st0.
  Proof. reflexivity. Qed.
End Base.

(** The other constructors prepare the scenes and then act as the base class. *)
Lemma construction_base : forall A B run, @construction A B run -> forall arg st,
  (exists e, run arg st = (st, Err e)) \/
  (exists sim key sub gt, run arg st = base_init sim key sub gt arg st).
Proof.
  intros A B run [sample sim sub gt|prep sim sub gt|prep sim sub gt|sim key sub gt] arg st.
  - unfold mesh_init. destruct (mesh_prepare sample arg st sub) as [s|e]; [|left; eexists; reflexivity]. cbn [bind].
    destruct (mesh_prepare sample arg st gt) as [g|e]; [|left; eexists; reflexivity]. right. do 4 eexists. reflexivity.
  - unfold voxel_init. destruct (plain_prepare prep sub) as [s|e]; [|left; eexists; reflexivity]. cbn [bind].
    destruct (plain_prepare prep gt) as [g|e]; [|left; eexists; reflexivity]. right. do 4 eexists. reflexivity.
  - unfold bb_init. destruct (plain_prepare prep sub) as [s|e]; [|left; eexists; reflexivity]. cbn [bind].
    destruct (plain_prepare prep gt) as [g|e]; [|left; eexists; reflexivity]. right. do 4 eexists. reflexivity.
  - right. do 4 eexists. reflexivity.
Qed.

Lemma sorted_entry : forall d ts, holds_thresholds d ts ->
  thresholds_sorted d (sset "thresholds" (Array (isort Qle_bool ts)) d).
Proof.
  intros d ts H. exists ts, (isort Qle_bool ts). split; [exact H|]. split; [apply (dget_dset_same _ str_eqb_spec)|].
  split; [apply isort_perm|]. split; [apply sorted_le|]. split.
  - destruct H as [H|H]; eapply (dset_keys _ _ _ str_eqb_spec); exact H.
  - intros k N. apply (dget_dset_other _ str_eqb_spec). congruence.
Qed.

Lemma run_store : forall A B run, @construction A B run -> forall a st st' out, run (Some a) st = (st', out) ->
  (st' = st /\ exists e, out = Err e) \/
  (exists d ts, dget Nat.eqb a st = Some d /\ holds_thresholds d ts /\
     st' = dset Nat.eqb a (sset "thresholds" (Array (isort Qle_bool ts)) d) st /\
     forall o, out = Ok o -> i_settings o = a).
Proof.
  intros A B run C a st st' out E. destruct (construction_base A B run C (Some a) st) as [(e & X)|(sim & key & sub & gt & X)];
    rewrite X in E.
  - injection E as <- <-. left; eauto.
  - pose proof (base_store sim key sub gt a st) as H. cbv zeta in H. rewrite E in H. exact H.
Qed.

(** Constructing again with the same dictionary changes nothing more. *)
Lemma run_again : forall A B run, @construction A B run -> forall a st st' out, run (Some a) st = (st', out) ->
  forall d ts, dget Nat.eqb a st = Some d -> sget "thresholds" d = Some (Array ts) -> StronglySorted Qle ts -> st' = st.
Proof.
  intros A B run C a st st' out E d ts D T S. destruct (run_store A B run C a st st' out E) as [(-> & _)|(d0 & ts0 & D0 & T0 & -> & _)]; [reflexivity|].
  rewrite D in D0. injection D0 as <-. assert (X : ts0 = ts) by (destruct T0 as [X|X]; rewrite T in X; congruence).
  subst ts0. rewrite (sort_sorted ts S). rewrite (dset_same _ _ _ str_eqb_spec d "thresholds" _ T).
  apply (dset_same _ _ _ nat_eqb_spec). exact D.
Qed.

(** Sampling without settings. *)
Lemma prepare_none : forall A B (sample : Q -> elem A -> res B) st s,
  mesh_prepare sample None st s = match s with [] => Ok [] | _ :: _ => Err TypeError end.
Proof. intros A B sample st [|ke s]; reflexivity. Qed.

Lemma mapM_ext' : forall X Y (f g : X -> res Y) l, (forall x, In x l -> f x = g x) -> mapM f l = mapM g l.
Proof.
  intros X Y f g. induction l as [|x l IH]; intros H; [reflexivity|]. cbn [mapM]. rewrite (H x (or_introl eq_refl)).
  rewrite IH; [reflexivity|]. intros; apply H; right; assumption.
Qed.

Lemma mapM_err : forall X Y (f : X -> res Y) l x e, In x l -> f x = Err e -> exists e', mapM f l = Err e'.
Proof.
  intros X Y f. induction l as [|y l IH]; intros x e I E; [destruct I|]. cbn [mapM]. destruct I as [->|I].
  - rewrite E. cbn [bind]. eauto.
  - destruct (f y) as [v|e0]; cbn [bind]; [|eauto]. destruct (IH x e I E) as (e' & ->). cbn [bind]. eauto.
Qed.

Lemma prepare_some : forall A B (sample : Q -> elem A -> res B) a st (d : settings) q s,
  dget Nat.eqb a st = Some d -> sget "density" d = Some (Number q) ->
  mesh_prepare sample (Some a) st s = plain_prepare (sample q) s.
Proof.
  intros A B sample a st d q s D Y. unfold mesh_prepare, plain_prepare. apply mapM_ext'. intros ke _. cbn [bind]. unfold look. rewrite D. cbn [bind].
  unfold dgetE. rewrite Y. reflexivity.
Qed.

Lemma prepared : forall A B (prep : elem A -> res B) s, (forall e, In e (elements s) -> exists b, prep e = Ok b) -> keyed_by_id s ->
  exists s', plain_prepare prep s = Ok s' /\ keyed_by_id s'.
Proof.
  intros A B prep s H [K2 K1].
  assert (ST : exists s', plain_prepare prep s = Ok s' /\
    Forall2 (fun (x : string * elem A) (y : string * elem B) => fst x = fst y /\ e_id (snd x) = e_id (snd y)) s s').
  { clear K1 K2. induction s as [|[k e] s IH]; [exists []; split; [reflexivity|constructor]|].
    destruct IH as (s' & E & F); [intros; apply H; right; assumption|]. destruct (H e (or_introl eq_refl)) as (b & Hb).
    unfold plain_prepare in *. cbn [mapM]. cbn [snd fst]. rewrite Hb. cbn [bind]. rewrite E. cbn [bind]. eexists. split; [reflexivity|].
    constructor; [split; reflexivity|exact F]. }
  destruct ST as (s' & E & F). exists s'. split; [exact E|].
  assert (M : map fst s' = map fst s).
  { clear - F. induction F as [|x y s s' [X _] F IH]; [reflexivity|]. cbn [map]. rewrite IH, X. reflexivity. }
  split; [rewrite M; exact K2|]. clear - F K1. intros k e I. revert K1. induction F as [|[k0 e0] y s s' [X1 X2] F IH]; intros K1; [destruct I|].
  destruct I as [->|I]; [|apply IH; [exact I|intros; apply K1; right; assumption]]. cbn [fst snd] in *. rewrite <- X2, <- X1.
  apply K1. left. reflexivity.
Qed.
