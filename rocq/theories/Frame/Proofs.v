(** Every step of the association respects new names and equal similarities. *)
From Coq Require Import List Bool String QArith Lia.
From Verif.Base Require Import Py PyFacts Sort.
From Verif.Assoc Require Import Model.
From Verif.AP Require Import Model.
From Verif.Scores Require Import Model.
From Verif.Frame Require Import Spec.
Import ListNotations.

(** * Relations on lists, dictionaries and outcomes *)
Lemma rel_length : forall X Y (P : X -> Y -> Prop) l l', Forall2 P l l' -> List.length l = List.length l'.
Proof. intros X Y P l l' F. induction F; cbn; congruence. Qed.

Section Lists.
  Context {X Y : Type} (P : X -> Y -> Prop).

  Lemma filter_rel : forall p q, (forall x y, P x y -> p x = q y) ->
    forall l l', Forall2 P l l' -> Forall2 P (filter p l) (filter q l').
  Proof.
    intros p q H l l' F. induction F as [|x y l l' R F IH]; cbn; [constructor|].
    rewrite <- (H x y R). destruct (p x); [constructor|]; assumption.
  Qed.

  Lemma insert_rel : forall le le', (forall x y a b, P x y -> P a b -> le x a = le' y b) ->
    forall x y l l', P x y -> Forall2 P l l' -> Forall2 P (insert le x l) (insert le' y l').
  Proof.
    intros le le' H x y l l' R F. induction F as [|a b l l' S F IH]; cbn; [repeat constructor; exact R|].
    rewrite <- (H x y a b R S). destruct (le x a); repeat constructor; assumption.
  Qed.

  Lemma isort_rel : forall le le', (forall x y a b, P x y -> P a b -> le x a = le' y b) ->
    forall l l', Forall2 P l l' -> Forall2 P (isort le l) (isort le' l').
  Proof.
    intros le le' H l l' F. induction F as [|x y l l' R F IH]; [constructor|].
    change (Forall2 P (insert le x (isort le l)) (insert le' y (isort le' l'))).
    apply insert_rel; assumption.
  Qed.

  Lemma rev_rel : forall l l', Forall2 P l l' -> Forall2 P (rev l) (rev l').
  Proof. intros l l' F. induction F; cbn; [constructor|]. apply Forall2_app; [assumption|]. repeat constructor. assumption. Qed.

  Lemma last_rel : forall l l', Forall2 P l l' ->
    match last_opt l, last_opt l' with Some x, Some y => P x y | None, None => True | _, _ => False end.
  Proof. intros l l' F. apply rev_rel in F. unfold last_opt. destruct F; [exact I|assumption]. Qed.

  Lemma map_rel : forall U W (Q : U -> W -> Prop) f g, (forall x y, P x y -> Q (f x) (g y)) ->
    forall l l', Forall2 P l l' -> Forall2 Q (map f l) (map g l').
  Proof. intros U W Q f g H l l' F. induction F; cbn; constructor; auto. Qed.
End Lists.

Lemma foldM_rel : forall S S' X Y (I : S -> S' -> Prop) (P : X -> Y -> Prop) f g,
  (forall s s' x y, I s s' -> P x y -> same_outcome I (f s x) (g s' y)) ->
  forall l l', Forall2 P l l' -> forall s s', I s s' -> same_outcome I (foldM f s l) (foldM g s' l').
Proof.
  intros S S' X Y I P f g H l l' F. induction F as [|x y l l' R F IH]; intros s s' J; cbn; [exact J|].
  specialize (H s s' x y J R). destruct (f s x) as [a|e], (g s' y) as [b|e']; cbn in *; try contradiction; [|exact H].
  apply IH, H.
Qed.

Lemma fold_rel : forall S S' X Y (I : S -> S' -> Prop) (P : X -> Y -> Prop) (f : S -> X -> S) (g : S' -> Y -> S'),
  (forall s s' x y, I s s' -> P x y -> I (f s x) (g s' y)) ->
  forall l l', Forall2 P l l' -> forall s s', I s s' -> I (fold_left f l s) (fold_left g l' s').
Proof. intros S S' X Y I P f g H l l' F. induction F as [|x y l l' R F IH]; intros s s' J; cbn; [exact J|]. apply IH, H; assumption. Qed.

Lemma bind_rel : forall A A' B B' (P : A -> A' -> Prop) (Q : B -> B' -> Prop) x y f g,
  same_outcome P x y -> (forall a b, P a b -> same_outcome Q (f a) (g b)) -> same_outcome Q (bind x f) (bind y g).
Proof. intros A A' B B' P Q [a|e] [b|e'] f g R H; cbn in *; try contradiction; [apply H, R|exact R]. Qed.

Lemma mapM_rel : forall X Y A B (P : X -> Y -> Prop) (Q : A -> B -> Prop) f g,
  (forall x y, P x y -> same_outcome Q (f x) (g y)) ->
  forall l l', Forall2 P l l' -> same_outcome (Forall2 Q) (mapM f l) (mapM g l').
Proof.
  intros X Y A B P Q f g H l l' F. induction F as [|x y l l' R F IH]; cbn; [constructor|].
  apply bind_rel with Q; [apply H, R|]. intros a b S. apply bind_rel with (Forall2 Q); [exact IH|].
  intros s t T. constructor; assumption.
Qed.

(** Dictionaries with keys related by an injective function. *)
Definition dict_rel {V W} (f : string -> string) (P : V -> W -> Prop) : list (string * V) -> list (string * W) -> Prop :=
  Forall2 (fun kv kv' => fst kv' = f (fst kv) /\ P (snd kv) (snd kv')).

Lemma eqb_inj : forall f, injective f -> forall x y, String.eqb (f x) (f y) = String.eqb x y.
Proof.
  intros f J x y. destruct (String.eqb_spec x y) as [->|N]; [apply String.eqb_refl|].
  apply String.eqb_neq. intros E. apply N, J, E.
Qed.

Section Dicts.
  Context {V W : Type} (f : string -> string) (P : V -> W -> Prop) (J : injective f).

  Lemma dset_rel : forall d d', dict_rel f P d d' -> forall k v w, P v w -> dict_rel f P (sset k v d) (sset (f k) w d').
  Proof.
    intros d d' F. induction F as [|[a x] [b y] d d' [E R] F IH]; intros k v w S; cbn in *; [repeat constructor; assumption|].
    subst b. rewrite (eqb_inj f J). destruct (String.eqb k a); constructor; cbn; auto; apply IH; assumption.
  Qed.

  Lemma dget_rel : forall d d', dict_rel f P d d' -> forall k,
    match sget k d, sget (f k) d' with Some v, Some w => P v w | None, None => True | _, _ => False end.
  Proof.
    intros d d' F k. induction F as [|[a x] [b y] d d' [E R] F IH]; cbn in *; [exact I|].
    subst b. rewrite (eqb_inj f J). destruct (String.eqb k a); [exact R|exact IH].
  Qed.

  Lemma dgetE_rel : forall d d', dict_rel f P d d' -> forall k, same_outcome P (sgetE k d) (sgetE (f k) d').
  Proof.
    intros d d' F k. assert (H := dget_rel d d' F k). unfold dgetE.
    destruct (sget k d), (sget (f k) d'); cbn; try contradiction; auto.
  Qed.

  Lemma dmem_rel : forall d d', dict_rel f P d d' -> forall k, smem k d = smem (f k) d'.
  Proof.
    intros d d' F k. assert (H := dget_rel d d' F k). unfold dmem.
    destruct (sget k d), (sget (f k) d'); try contradiction; reflexivity.
  Qed.

  Lemma setdefault_rel : forall d d', dict_rel f P d d' -> forall k v w, P v w ->
    dict_rel f P (if smem k d then d else sset k v d) (if smem (f k) d' then d' else sset (f k) w d').
  Proof. intros d d' F k v w S. rewrite <- (dmem_rel d d' F k). destruct (smem k d); [exact F|]. apply dset_rel; assumption. Qed.

  Lemma values_rel : forall d d', dict_rel f P d d' -> Forall2 P (dvalues d) (dvalues d').
  Proof. intros d d'. apply map_rel. intros x y [_ H]. exact H. Qed.

  Lemma keys_rel : forall d d', dict_rel f P d d' -> Forall2 (fun k k' => k' = f k) (dkeys d) (dkeys d').
  Proof. intros d d'. apply map_rel. intros x y [H _]. exact H. Qed.
End Dicts.

Lemma Qle_bool_rel : forall a a' b b', (a == a')%Q -> (b == b')%Q -> Qle_bool a b = Qle_bool a' b'.
Proof. intros a a' b b' E F. rewrite E, F. reflexivity. Qed.

(** Thresholds are the same on both sides. *)
Definition qrel {V W} (P : V -> W -> Prop) : qdict V -> qdict W -> Prop :=
  Forall2 (fun x x' => fst x' = fst x /\ P (snd x) (snd x')).

Lemma qset_rel : forall V W (P : V -> W -> Prop) d d', qrel P d d' -> forall t v w, P v w ->
  qrel P (dset Qeq_bool t v d) (dset Qeq_bool t w d').
Proof.
  intros V W P d d' F. induction F as [|[a x] [b y] d d' [E R] F IH]; intros t v w S; cbn in *; [repeat constructor; assumption|].
  subst b. destruct (Qeq_bool t a); constructor; cbn; auto; apply IH; assumption.
Qed.

Lemma qgetE_rel : forall V W (P : V -> W -> Prop) d d', qrel P d d' -> forall t,
  same_outcome P (dgetE Qeq_bool t d) (dgetE Qeq_bool t d').
Proof.
  intros V W P d d' F t. unfold dgetE. induction F as [|[a x] [b y] d d' [E R] F IH]; cbn in *; [reflexivity|].
  subst b. destruct (Qeq_bool t a); [exact R|exact IH].
Qed.

(** * The association *)
Section Assoc.
  Context {A B : Type}.
  Variables (f h : string -> string) (Jf : injective f) (Jh : injective h).
  Variables (sim : elem A -> elem A -> Q) (sim' : elem B -> elem B -> Q).

  (** Pairs of elements, with a hypothesis about their similarity to be supplied. *)
  Variables (D : elem A -> elem B -> Prop) (G : elem A -> elem B -> Prop).
  Hypothesis Dl : forall d d', D d d' -> relabelled f d d'.
  Hypothesis Gl : forall g g', G g g' -> relabelled h g g'.
  Hypothesis DG : forall d d' g g', D d d' -> G g g' -> (sim d g == sim' d' g')%Q.

  Notation row_rel := (dict_rel h (renamed_corr f h)).
  Notation cache_rel := (dict_rel f row_rel).

  Lemma cache_row_rel : forall d d' gts gts', D d d' -> dict_rel h G gts gts' ->
    row_rel (cache_row sim d gts) (cache_row sim' d' gts').
  Proof.
    intros d d' gts gts' RD F. unfold cache_row. apply (fold_rel _ _ _ _ row_rel G); [|apply (values_rel h), F|constructor].
    intros r r' g g' R RG. destruct (Gl _ _ RG) as (I & _ & _ & E). destruct (Dl _ _ RD) as (I' & _ & S & _).
    rewrite I. apply dset_rel; [exact Jh|exact R|]. repeat split; cbn; auto.
  Qed.

  Lemma make_cache_rel : forall dets dets' gts gts', dict_rel f D dets dets' -> dict_rel h G gts gts' ->
    cache_rel (make_similarity_cache sim dets gts) (make_similarity_cache sim' dets' gts').
  Proof.
    intros dets dets' gts gts' FD FG. unfold make_similarity_cache.
    apply (fold_rel _ _ _ _ cache_rel D); [|apply (values_rel f), FD|constructor].
    intros c c' d d' R RD. destruct (Dl _ _ RD) as (I & _). rewrite I. apply dset_rel; [exact Jf|exact R|].
    apply cache_row_rel; assumption.
  Qed.

  Lemma prune_rel : forall t c c', cache_rel c c' -> cache_rel (prune t c) (prune t c').
  Proof.
    intros t c c'. apply map_rel. intros x x' [K R]. split; [exact K|]. cbn. revert R. apply filter_rel.
    intros y y' [_ (_ & _ & S & _)]. unfold Qltb. do 2 f_equal. apply Qle_bool_rel; [reflexivity|exact S].
  Qed.

  Lemma sort_dets_rel : forall dets dets', dict_rel f D dets dets' -> Forall2 D (sort_dets dets) (sort_dets dets').
  Proof.
    intros dets dets' F. unfold sort_dets. apply isort_rel; [|apply (values_rel f), F].
    intros x y a b R S. destruct (Dl _ _ R) as (_ & _ & E & _), (Dl _ _ S) as (_ & _ & E' & _). rewrite E, E'. reflexivity.
  Qed.

  Definition state_rel (st st' : sdict corr * sdict string) : Prop :=
    dict_rel f (renamed_corr f h) (fst st) (fst st') /\ dict_rel h (fun k k' => k' = f k) (snd st) (snd st').

  Lemma assoc_step_rel : forall c c', cache_rel c c' -> forall st st' d d', state_rel st st' -> D d d' ->
    same_outcome state_rel (assoc_step c st d) (assoc_step c' st' d').
  Proof.
    intros c c' F [r a] [r' a'] d d' [R S] RD. cbn in R, S. destruct (Dl _ _ RD) as (I & _). unfold assoc_step. rewrite I.
    apply bind_rel with row_rel; [apply dgetE_rel; assumption|]. intros row row' RR.
    assert (L : Forall2 (renamed_corr f h)
       (sort_corrs (filter (fun c => negb (smem (c_gt c) a)) (dvalues row)))
       (sort_corrs (filter (fun c => negb (smem (c_gt c) a')) (dvalues row')))).
    { unfold sort_corrs. apply isort_rel.
      - intros x y u v (_ & _ & E & _) (_ & _ & E' & _). apply Qle_bool_rel; assumption.
      - apply filter_rel; [|apply (values_rel h), RR]. intros x y (_ & E & _). rewrite E. f_equal. apply (dmem_rel h _ Jh _ _ S). }
    apply last_rel in L. destruct (last_opt _) as [x|], (last_opt _) as [y|]; try contradiction; cbn; [|split; assumption].
    destruct L as (L1 & L2 & L3). split; cbn.
    - apply dset_rel; [exact Jf|exact R|]. repeat split; tauto.
    - rewrite L2. apply dset_rel; [exact Jh|exact S|reflexivity].
  Qed.

  Lemma assoc_one_rel : forall dets dets' c c', dict_rel f D dets dets' -> cache_rel c c' ->
    same_outcome (renamed_table f h) (assoc_one dets c) (assoc_one dets' c').
  Proof.
    intros dets dets' c c' F R. unfold assoc_one. apply bind_rel with state_rel.
    - apply foldM_rel with D; [intros; apply assoc_step_rel; assumption|apply sort_dets_rel, F|split; constructor].
    - intros a b [S _]. exact S.
  Qed.

  Lemma agnostic_rel : forall dets dets', dict_rel f D dets dets' -> forall ts c c', cache_rel c c' ->
    same_outcome (renamed_tables f h) (compute_agnostic dets ts c) (compute_agnostic dets' ts c').
  Proof.
    intros dets dets' F ts. unfold compute_agnostic.
    assert (K : forall ts c c' acc acc', cache_rel c c' -> renamed_tables f h acc acc' ->
      same_outcome (renamed_tables f h) (assoc_loop dets c acc ts) (assoc_loop dets' c' acc' ts)).
    { clear ts. induction ts as [|t ts IH]; intros c c' acc acc' R S; cbn [assoc_loop]; [exact S|].
      apply bind_rel with (renamed_table f h); [apply assoc_one_rel; [exact F|apply prune_rel, R]|].
      intros r r' T. apply IH; [apply prune_rel, R|]. apply (qset_rel _ _ (renamed_table f h)); assumption. }
    intros c c' R. apply K; [exact R|constructor].
  Qed.

  Lemma by_category_rel : forall X Y (k : string -> string) (E : elem X -> elem Y -> Prop),
    (forall e e', E e e' -> e_category e' = e_category e) ->
    forall cat s s', dict_rel k E s s' -> dict_rel k E (by_category cat s) (by_category cat s').
  Proof. intros X Y k E C cat s s'. apply filter_rel. intros x y [_ H]. rewrite (C _ _ H). reflexivity. Qed.

  Lemma cat_cache_rel : forall dets dets' gts gts' c c', dict_rel f D dets dets' -> dict_rel h G gts gts' -> cache_rel c c' ->
    same_outcome cache_rel (cat_cache dets gts c) (cat_cache dets' gts' c').
  Proof.
    intros dets dets' gts gts' c c' FD FG FC. unfold cat_cache.
    apply (foldM_rel _ _ _ _ cache_rel (fun k k' => k' = f k)); [|apply (keys_rel f _ _ _ FD)|constructor].
    intros a a' k k' R ->. assert (KG := keys_rel h _ _ _ FG).
    destruct KG as [|x y l l' E KG].
    - cbn. apply dset_rel; [exact Jf|exact R|constructor].
    - subst y. apply bind_rel with row_rel; [apply dgetE_rel; assumption|]. intros row row' RR.
      apply dset_rel; [exact Jf|exact R|].
      apply (fold_rel _ _ _ _ row_rel (fun k k' => k' = h k)); [|constructor; auto|constructor].
      intros s s' u v RS ->. assert (H := dget_rel h _ Jh _ _ RR u).
      destruct (sget u row), (sget (h u) row'); try contradiction; [|exact RS]. apply dset_rel; assumption.
  Qed.

  Lemma category_rel : forall dets dets' gts gts' c c' ts cats, dict_rel f D dets dets' -> dict_rel h G gts gts' -> cache_rel c c' ->
    same_outcome (Forall2 (fun x x' => fst x' = fst x /\ renamed_tables f h (snd x) (snd x')))
      (compute_category dets gts ts cats c) (compute_category dets' gts' ts cats c').
  Proof.
    intros dets dets' gts gts' c c' ts cats FD FG FC. unfold compute_category.
    apply (foldM_rel _ _ _ _ (dict_rel (fun k => k) (renamed_tables f h)) eq).
    - intros a a' cat cat' R <-. cbv zeta.
      assert (X : dict_rel f D (by_category cat dets) (by_category cat dets')) by (apply by_category_rel; [intros; apply Dl; assumption|exact FD]).
      assert (Y : dict_rel h G (by_category cat gts) (by_category cat gts')) by (apply by_category_rel; [intros; apply Gl; assumption|exact FG]).
      rewrite <- (rel_length _ _ _ _ _ X), <- (rel_length _ _ _ _ _ Y). destruct (Nat.eqb _ 0); [exact R|].
      apply bind_rel with cache_rel; [apply cat_cache_rel; assumption|]. intros cc cc' RC.
      apply bind_rel with (renamed_tables f h); [apply agnostic_rel; assumption|]. intros r r' RR.
      apply (dset_rel (fun k => k)); [intros x y; auto|exact R|exact RR].
    - induction cats; constructor; auto.
    - constructor.
  Qed.

  Lemma init_rel : forall dets dets' gts gts' ts cats, dict_rel f D dets dets' -> dict_rel h G gts gts' ->
    same_outcome (fun ev ev' => same_matches f h ev ev' /\ ev_submission ev = dets /\ ev_submission ev' = dets' /\
                                ev_ground_truth ev = gts /\ ev_ground_truth ev' = gts')
      (evaluator_init sim dets gts ts cats) (evaluator_init sim' dets' gts' ts cats).
  Proof.
    intros dets dets' gts gts' ts cats FD FG. unfold evaluator_init.
    assert (C := make_cache_rel _ _ _ _ FD FG).
    eapply bind_rel; [apply agnostic_rel; [exact FD|exact C]|]. intros a a' RA.
    eapply bind_rel; [apply category_rel; [exact FD|exact FG|exact C]|]. intros c c' RC.
    cbn. unfold same_matches. cbn. auto 10.
  Qed.
End Assoc.
