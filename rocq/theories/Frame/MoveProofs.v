(** The scores respect new names and frames. *)
From Coq Require Import Reals Lra Lia List Bool String QArith.
From Verif.Base Require Import Py PyFacts Vec.
From Verif.Assoc Require Import Model.
From Verif.AP Require Import Model.
From Verif.Scores Require Import Model.
From Verif.Geom Require Import Model.
From Verif.Box Require Import Model Spec.
From Verif.Symm Require Import Model.
From Verif.Points Require Import Model Spec Proofs Props.
From Verif.PoseErr Require Import Model.
From Verif.Percept Require Import Model.
From Verif.Frame Require Import Spec Proofs.
Import ListNotations.

Lemma outcome_eq : forall A (x y : res A), same_outcome eq x y -> x = y.
Proof. intros A [a|e] [b|e'] H; cbn in H; try contradiction; congruence. Qed.

Lemma outcome_refl : forall A (x : res A), same_outcome eq x x.
Proof. intros A [a|e]; reflexivity. Qed.

Lemma rel_eq : forall A (l l' : list A), Forall2 eq l l' -> l = l'.
Proof. intros A l l' F. induction F; congruence. Qed.
Lemma rel_refl : forall A (l : list A), Forall2 eq l l.
Proof. induction l; constructor; auto. Qed.

Lemma rel_in : forall X Y (P : X -> Y -> Prop) l l', Forall2 P l l' -> Forall2 (fun x y => In (x, y) (combine l l') /\ P x y) l l'.
Proof.
  intros X Y P l l' F. induction F as [|x y l l' R F IH]; constructor.
  - split; [left; reflexivity|exact R].
  - cbn. clear - IH. remember (combine l l') as c eqn:E. clear E. induction IH as [|a b u v [H S] K I]; [constructor|].
    constructor; [split; [right; exact H|exact S]|exact I].
Qed.

(** Scores that look at labels and matches only. *)
Section Labels.
  Context {A B : Type}.
  Variables (f h : string -> string) (Jf : injective f) (Jh : injective h).
  Variables (D : elem A -> elem B -> Prop) (G : elem A -> elem B -> Prop).
  Hypothesis Dl : forall d d', D d d' -> relabelled f d d'.
  Hypothesis Gl : forall g g', G g g' -> relabelled h g g'.
  Variables (ev : @evaluator A) (ev' : @evaluator B).
  Hypothesis SM : same_matches f h ev ev'.
  Hypothesis FD : dict_rel f D (ev_submission ev) (ev_submission ev').
  Hypothesis FG : dict_rel h G (ev_ground_truth ev) (ev_ground_truth ev').

  Lemma count_rel : forall l l', Forall2 G l l' -> count_evaluated l = count_evaluated l'.
  Proof.
    intros l l' F. unfold count_evaluated. apply (rel_length _ _ G). revert F. apply filter_rel.
    intros g g' R. symmetry. apply Gl, R.
  Qed.

  Lemma cats_rel : forall X Y k (E : elem X -> elem Y -> Prop), (forall e e', E e e' -> relabelled k e e') ->
    forall cat l l', Forall2 E l l' ->
    Forall2 E (filter (fun e => String.eqb (e_category e) cat) l) (filter (fun e => String.eqb (e_category e) cat) l').
  Proof. intros X Y k E H cat l l'. apply filter_rel. intros e e' R. destruct (H _ _ R) as (_ & C & _). rewrite C. reflexivity. Qed.

  Lemma vectors_rel : forall t t', renamed_table f h t t' -> forall l l', Forall2 D l l' -> det_vectors t l = det_vectors t' l'.
  Proof.
    intros t t' R l l' F. unfold det_vectors.
    assert (E : flat_map (det_entry t) l = flat_map (det_entry t') l'); [|rewrite E; reflexivity].
    induction F as [|d d' l l' S F IH]; cbn; [reflexivity|]. rewrite IH. f_equal.
    destruct (Dl _ _ S) as (I & _ & K & _). unfold det_entry. rewrite I, K.
    assert (H := dget_rel f _ Jf _ _ R (e_id d)).
    destruct (sget (e_id d) t) as [c|], (sget (f (e_id d)) t') as [c'|]; try contradiction; [|reflexivity].
    destruct H as (_ & _ & _ & _ & H). rewrite H. reflexivity.
  Qed.

  Lemma shape_rel : forall argsort, shape_score argsort ev' = shape_score argsort ev.
  Proof.
    intros argsort. destruct SM as (ST & _ & SA & _). unfold shape_score. rewrite ST. symmetry. apply outcome_eq.
    apply bind_rel with (Forall2 eq); [|intros a b E; apply rel_eq in E; subst; reflexivity].
    apply mapM_rel with eq; [|apply rel_refl]. intros t t' <-. unfold shape_step.
    apply bind_rel with (renamed_table f h); [apply qgetE_rel, SA|]. intros T T' RT.
    rewrite (vectors_rel _ _ RT _ _ (values_rel f _ _ _ FD)), (count_rel _ _ (values_rel h _ _ _ FG)).
    destruct (det_vectors _ _) as [ms ss]. apply outcome_refl.
  Qed.

  Lemma semantics_rel : forall argsort, semantics_score argsort ev' = semantics_score argsort ev.
  Proof.
    intros argsort. destruct SM as (ST & SC & _ & SA). unfold semantics_score. rewrite ST. symmetry. apply outcome_eq.
    apply bind_rel with (Forall2 eq); [|intros a b E; apply rel_eq in E; subst; reflexivity].
    apply mapM_rel with eq; [|apply rel_refl]. intros t t' <-. unfold semantics_step. rewrite SC.
    apply bind_rel with (Forall2 eq).
    - apply mapM_rel with eq; [|apply rel_refl]. intros cat cat' <-. unfold cat_vectors.
      assert (F := cats_rel _ _ f D Dl cat _ _ (values_rel f _ _ _ FD)).
      destruct F as [|d d' l l' R F]; [reflexivity|].
      apply bind_rel with (renamed_tables f h); [apply (dgetE_rel (fun k => k) _ (fun x y E => E) _ _ SA)|]. intros T T' RT.
      apply bind_rel with (renamed_table f h); [apply qgetE_rel, RT|]. intros U U' RU.
      apply (vectors_rel _ _ RU). constructor; assumption.
    - intros vs vs' E. apply rel_eq in E. subst vs'.
      apply bind_rel with (Forall2 eq); [|intros a b E; apply rel_eq in E; subst; reflexivity].
      apply mapM_rel with eq; [|apply rel_refl]. intros [cat [ms ss]] x <-. unfold cat_ap, cat_count.
      rewrite (count_rel _ _ (cats_rel _ _ h G Gl cat _ _ (values_rel h _ _ _ FG))).
      apply outcome_refl.
  Qed.

  (** Averages over the matched pairs. *)
  Lemma average_rel : forall (pts : A -> list row) (pts' : B -> list row) pair,
    (forall d d' g g', D d d' -> G g g' -> pair (pts (e_info d)) (pts (e_info g)) = pair (pts' (e_info d')) (pts' (e_info g'))) ->
    assoc_average pts' pair ev' = assoc_average pts pair ev.
  Proof.
    intros pts pts' pair H. destruct SM as (ST & _ & SA & _). unfold assoc_average. rewrite ST. symmetry. apply outcome_eq.
    set (I := fun (s s' : sdict (sdict R) * list R) => dict_rel f (dict_rel h eq) (fst s) (fst s') /\ snd s = snd s').
    apply bind_rel with I; [|intros [c v] [c' v'] [_ E]; cbn in *; subst; reflexivity].
    apply foldM_rel with eq; [|apply rel_refl|split; [constructor|reflexivity]].
    intros s s' t t' J <-. unfold avg_thresh. apply bind_rel with (renamed_table f h); [apply qgetE_rel, SA|]. intros T T' RT.
    apply foldM_rel with (fun kc kc' => fst kc' = f (fst kc) /\ renamed_corr f h (snd kc) (snd kc')); [|exact RT|exact J].
    clear s s' J T T' RT. intros [c v] [c' v'] [k x] [k' x'] [J V] [E R]. cbn in *. subst.
    destruct R as (_ & RG & _). rewrite RG.
    assert (K : dict_rel f (dict_rel h eq) (if smem k c then c else sset k [] c) (if smem (f k) c' then c' else sset (f k) [] c')).
    { apply setdefault_rel; [exact Jf|exact J|constructor]. }
    apply bind_rel with (dict_rel h eq); [exact (dgetE_rel f _ Jf _ _ K k)|]. intros r r' RR.
    assert (L := dget_rel h _ Jh _ _ RR (c_gt x)).
    destruct (sget (c_gt x) r), (sget (h (c_gt x)) r'); try contradiction; [subst; split; [exact K|reflexivity]|].
    apply bind_rel with D; [apply dgetE_rel; assumption|]. intros d d' RD.
    apply bind_rel with G; [apply dgetE_rel; assumption|]. intros g g' RG'.
    rewrite (H _ _ _ _ RD RG'). destruct (pair _ _) as [w|e]; [|reflexivity]. split; [|reflexivity]. cbn.
    apply dset_rel; [exact Jf|exact K|]. apply dset_rel; [exact Jh|exact RR|reflexivity].
  Qed.
End Labels.

(** * Moving points *)
Local Open Scope R_scope.

Section Moving.
  Variable T : pose.
  Hypothesis HT : rotation (pR T).
  Notation move := (fun p => vadd (mvec (pR T) p) (pt T)).

  Lemma move_dist : forall p q, dist (move p) (move q) = dist p q.
  Proof.
    intros p q. unfold dist. replace (vsub (move p) (move q)) with (mvec (pR T) (vsub p q)); [apply rotation_norm, HT|].
    rewrite mvec_sub. apply vec_eq; cbn; ring.
  Qed.

  Lemma move_inj : forall p q, move p = move q -> p = q.
  Proof. intros p q E. apply dist_zero. rewrite <- move_dist. apply dist_zero. exact E. Qed.

  Lemma moved_pos : forall rs, map r_pos (moved_points T rs) = map move (map r_pos rs).
  Proof. intros rs. unfold moved_points. rewrite !map_map. reflexivity. Qed.

  Lemma near_moved : forall t qs p, near t (map move qs) (move p) <-> near t qs p.
  Proof.
    intros t qs p. unfold near. split.
    - intros (q & I & L). apply in_map_iff in I. destruct I as (x & <- & I). exists x. rewrite move_dist in L. auto.
    - intros (q & I & L). exists (move q). rewrite move_dist. split; [apply in_map_iff; eauto|exact L].
  Qed.

  Lemma counts_moved : forall t qs ps n, counts (near t qs) ps n -> counts (near t (map move qs)) (map move ps) n.
  Proof.
    intros t qs ps n C. induction C as [|p ps n N C IH|p ps n N C IH]; cbn [map].
    - constructor.
    - apply counts_yes; [apply near_moved, N|exact IH].
    - apply counts_no; [rewrite near_moved; exact N|exact IH].
  Qed.

  Variable query : list vec -> vec -> R * nat.
  Hypothesis HQ : query_ok query.

  Lemma similarity_moved : forall t (a b a' b' : elem (list row)),
    e_info a' = moved_points T (e_info a) -> e_info b' = moved_points T (e_info b) ->
    (mesh_similarity query t a b == mesh_similarity query t a' b')%Q.
  Proof.
    intros t a b a' b' EA EB.
    set (n1 := hits query t (map r_pos (e_info a)) (map r_pos (e_info b))).
    set (n2 := hits query t (map r_pos (e_info b)) (map r_pos (e_info a))).
    assert (C1 : counts (near t (map r_pos (e_info b))) (map r_pos (e_info a)) n1) by (apply (proj2 (hits_counts query HQ t _ _ _)); reflexivity).
    assert (C2 : counts (near t (map r_pos (e_info a))) (map r_pos (e_info b)) n2) by (apply (proj2 (hits_counts query HQ t _ _ _)); reflexivity).
    rewrite (C15_mesh_similarity query HQ t a b n1 n2 C1 C2).
    rewrite (C15_mesh_similarity query HQ t a' b' n1 n2); [| |].
    - rewrite EA, EB. unfold moved_points. rewrite !map_length. reflexivity.
    - rewrite EA, EB, !moved_pos. apply counts_moved, C1.
    - rewrite EA, EB, !moved_pos. apply counts_moved, C2.
  Qed.

  Lemma distance_moved : forall qs p d, set_distance (map move qs) (move p) d <-> set_distance qs p d.
  Proof.
    intros qs p d. unfold set_distance. split.
    - intros ((q & I & E) & M). apply in_map_iff in I. destruct I as (x & <- & I). rewrite move_dist in E. split; [eauto|].
      intros y Y. rewrite <- (move_dist p y). apply M, in_map_iff. eauto.
    - intros ((q & I & E) & M). split.
      + exists (move q). rewrite move_dist. split; [apply in_map_iff; eauto|exact E].
      + intros y Y. apply in_map_iff in Y. destruct Y as (x & <- & Y). rewrite move_dist. apply M, Y.
  Qed.

  Lemma distances_moved : forall qs ps ds, Forall2 (set_distance (map move qs)) (map move ps) ds -> Forall2 (set_distance qs) ps ds.
  Proof.
    intros qs ps. induction ps as [|p ps IH]; intros ds F; inversion F; subst; constructor; [apply distance_moved; assumption|apply IH; assumption].
  Qed.

  Lemma distance_unique : forall qs p d d', set_distance qs p d -> set_distance qs p d' -> d = d'.
  Proof. intros qs p d d' ((q & I & E) & M) ((q' & I' & E') & M'). specialize (M _ I'). specialize (M' _ I). lra. Qed.
  Lemma distances_unique : forall qs ps ds ds', Forall2 (set_distance qs) ps ds -> Forall2 (set_distance qs) ps ds' -> ds = ds'.
  Proof.
    intros qs ps ds ds' F. revert ds'. induction F as [|p d ps ds R F IH]; intros ds' F'; inversion F'; subst; [reflexivity|].
    f_equal; [eapply distance_unique; eassumption|apply IH; assumption].
  Qed.

  Lemma rms_unique : forall l x y, l <> [] -> rms l x -> rms l y -> x = y.
  Proof.
    intros l x y N (X & EX) (Y & EY). rewrite <- EX in EY.
    assert (P : 0 < INR (List.length l)) by (apply lt_0_INR; destruct l; [congruence|cbn; lia]).
    apply Rmult_eq_reg_r in EY; [|lra]. nra.
  Qed.

  Lemma surface_moved : forall ps qs, pair_rmsssd query (moved_points T ps) (moved_points T qs) = pair_rmsssd query ps qs.
  Proof.
    intros ps qs. destruct (pair_surface query HQ ps qs) as (v & E & S).
    destruct (pair_surface query HQ (moved_points T ps) (moved_points T qs)) as (w & E' & S'). rewrite E, E'. f_equal.
    rewrite !moved_pos in S'.
    destruct S as [[Z ->]|(NP & NQ & a & b & F1 & F2 & M)], S' as [[Z' ->]|(NP' & NQ' & a' & b' & F1' & F2' & M')].
    - reflexivity.
    - exfalso. destruct Z as [Z|Z]; rewrite Z in *; cbn in *; congruence.
    - exfalso. destruct Z' as [Z|Z]; apply map_eq_nil in Z; congruence.
    - apply distances_moved in F1'. apply distances_moved in F2'.
      rewrite (distances_unique _ _ _ _ F1' F1), (distances_unique _ _ _ _ F2' F2) in M'.
      apply (rms_unique (a ++ b)); [|exact M'|exact M].
      destruct F1; [congruence|discriminate].
  Qed.
End Moving.

(** * Poses *)
Section Poses.
  Variables (f h : string -> string) (Jf : injective f) (Jh : injective h).
  Notation placed := (elem (pose * symmetry)).
  Variables (D G : placed -> placed -> Prop).
  Hypothesis Gl : forall g g', G g g' -> relabelled h g g'.
  Variables (ev ev' : @evaluator (pose * symmetry)).
  Hypothesis SM : same_matches f h ev ev'.
  Hypothesis FD : dict_rel f D (ev_submission ev) (ev_submission ev').
  Hypothesis FG : dict_rel h G (ev_ground_truth ev) (ev_ground_truth ev').

  Lemma pose_rel : forall lognorm, (forall d d' g g', D d d' -> G g g' -> pair_errors lognorm d g = pair_errors lognorm d' g') ->
    pose_error lognorm ev' = pose_error lognorm ev.
  Proof.
    intros lognorm H. destruct SM as (ST & _ & SA & _). unfold pose_error. rewrite ST. symmetry. apply outcome_eq.
    apply bind_rel with (Forall2 eq); [|intros a b E; apply rel_eq in E; subst; apply outcome_refl].
    apply mapM_rel with eq; [|apply rel_refl]. intros t t' <-. unfold thresh_errors.
    apply bind_rel with (renamed_table f h); [apply qgetE_rel, SA|]. intros T T' RT.
    apply bind_rel with (Forall2 eq); [|intros a b E; apply rel_eq in E; subst; apply outcome_refl].
    apply mapM_rel with (renamed_corr f h); [|apply (values_rel f _ _ _ RT)].
    intros c c' (RD & RG & _). unfold corr_errors. rewrite RD, RG.
    apply bind_rel with D; [apply dgetE_rel; assumption|]. intros d d' PD.
    apply bind_rel with G; [apply dgetE_rel; assumption|]. intros g g' PG.
    destruct (Gl _ _ PG) as (_ & _ & _ & E). rewrite E, (H _ _ _ _ PD PG). apply outcome_refl.
  Qed.
End Poses.

Lemma move_difference : forall T, rotation (pR T) -> forall P P',
  norm (vsub (pt (moved_pose T P)) (pt (moved_pose T P'))) = norm (vsub (pt P) (pt P')).
Proof. intros T HT P P'. apply (move_dist T HT). Qed.

(** * The perceptual score *)
Section Perceptual.
  Variables (f h : string -> string) (Jf : injective f) (Jh : injective h).
  Variables (D G : solid -> solid -> Prop).
  Hypothesis Dl : forall d d', D d d' -> relabelled f d d'.
  Hypothesis Gl : forall g g', G g g' -> relabelled h g g'.
  Hypothesis Db : forall d d', D d d' -> e_bounds d' = e_bounds d.
  Hypothesis Gb : forall g g', G g g' -> e_bounds g' = e_bounds g.
  (** What is measured of a pair. *)
  Hypothesis DG : forall d d' g g', D d d' -> G g g' ->
    let v := vsub (e_t d) (e_t g) in let v' := vsub (e_t d') (e_t g') in
    vx v' * vx v' + vz v' * vz v' = vx v * vx v + vz v * vz v /\ vy v' = vy v.
  Variables (ev ev' : @evaluator (box * pose)).
  Hypothesis SM : same_matches f h ev ev'.
  Hypothesis FD : dict_rel f D (ev_submission ev) (ev_submission ev').
  Hypothesis FG : dict_rel h G (ev_ground_truth ev) (ev_ground_truth ev').

  Lemma area_rel : forall k (E : solid -> solid -> Prop) (p : bool -> bool), (forall e e', E e e' -> relabelled k e e') ->
    (forall e e', E e e' -> e_bounds e' = e_bounds e) -> forall l l', Forall2 E l l' -> forall a,
    fold_left (fun a e => if (String.eqb (e_category e) "floor" && p (e_evaluated e))%bool then a + area e else a) l' a =
    fold_left (fun a e => if (String.eqb (e_category e) "floor" && p (e_evaluated e))%bool then a + area e else a) l a.
  Proof.
    intros k E p EL EB l l' F. induction F as [|e e' l l' R F IH]; intros a; cbn [fold_left]; [reflexivity|].
    destruct (EL _ _ R) as (_ & C & _ & V). rewrite IH. unfold area. rewrite C, V, (EB _ _ R). reflexivity.
  Qed.

  Lemma room_rel : _room_scale ev' = _room_scale ev.
  Proof.
    unfold _room_scale. cbv zeta.
    rewrite (area_rel h G (fun b => b) Gl Gb _ _ (values_rel h _ _ _ FG)).
    assert (E := area_rel f D (fun _ => true) Dl Db _ _ (values_rel f _ _ _ FD) 0).
    assert (X : forall l a, fold_left (fun a e => if (String.eqb (e_category e) "floor" && true)%bool then a + area e else a) l a =
                            fold_left (fun a e => if String.eqb (e_category e) "floor" then a + area e else a) l a).
    { induction l as [|e l IH]; intros a; cbn [fold_left]; [reflexivity|]. rewrite andb_true_r. apply IH. }
    rewrite !X in E. destruct (Rlt_dec 0 _); [|reflexivity]. f_equal. exact E.
  Qed.

  Lemma match_rel : forall params room st c c', renamed_corr f h c c' ->
    same_outcome eq (match_step ev params room st c) (match_step ev' params room st c').
  Proof.
    intros params room st c c' (RD & RG & _). unfold match_step. rewrite RD, RG.
    apply bind_rel with G; [apply dgetE_rel; assumption|]. intros g g' PG.
    apply bind_rel with D; [apply dgetE_rel; assumption|]. intros d d' PD.
    destruct (Gl _ _ PG) as (_ & _ & _ & E). destruct (DG _ _ _ _ PD PG) as [X Y]. cbv zeta in X, Y |- *.
    rewrite E, (Gb _ _ PG), (Db _ _ PD), X, Y. apply outcome_refl.
  Qed.

  Lemma in_rel : forall k, injective k -> forall x l l', Forall2 (fun a b => b = k a) l l' -> str_in (k x) l' = str_in x l.
  Proof.
    intros k J x l l' F. unfold str_in. induction F as [|a b l l' -> F IH]; cbn; [reflexivity|]. rewrite (eqb_inj k J), IH. reflexivity.
  Qed.

  Lemma unmatched_rel : forall k, injective k -> forall l l' m m', Forall2 (fun a b => b = k a) l l' -> Forall2 (fun a b => b = k a) m m' ->
    Forall2 (fun a b => b = k a) (filter (fun x => negb (str_in x m)) l) (filter (fun x => negb (str_in x m')) l').
  Proof. intros k J l l' m m' F M. revert F. apply filter_rel. intros x y ->. rewrite (in_rel k J x m m' M). reflexivity. Qed.

  Lemma perceptual_rel : forall params, perceptual_score ev' params = perceptual_score ev params.
  Proof.
    intros params. destruct SM as (ST & _ & SA & _). unfold perceptual_score. rewrite ST. symmetry. apply outcome_eq.
    apply bind_rel with (Forall2 eq); [|intros a b E; apply rel_eq in E; subst; reflexivity].
    apply mapM_rel with eq; [|apply rel_refl]. intros t t' <-. unfold perceptual_step.
    apply bind_rel with (renamed_table f h); [apply qgetE_rel, SA|]. intros T T' RT. cbv zeta.
    assert (V := values_rel f _ _ _ RT).
    unfold _perceptual_score_1. cbv zeta. rewrite room_rel.
    destruct (_gaussian_function (p_room_scale params) (_room_scale ev)) as [b|e]; [cbn [bind]|reflexivity].
    apply bind_rel with eq.
    { apply foldM_rel with (renamed_corr f h); [intros s s' c c' <- R; apply match_rel, R|exact V|reflexivity]. }
    intros [sc mx] x <-. apply bind_rel with eq.
    { apply foldM_rel with (fun a b => b = h a); [| |reflexivity].
      - intros s s' k k' <- ->. apply bind_rel with G; [apply dgetE_rel; assumption|]. intros g g' PG.
        destruct (Gl _ _ PG) as (_ & _ & _ & E). rewrite E, (Gb _ _ PG). apply outcome_refl.
      - apply unmatched_rel; [exact Jh|apply (keys_rel h _ _ _ FG)|]. revert V. apply map_rel. intros c c' (_ & R & _). exact R. }
    intros s s' <-. apply bind_rel with eq.
    { apply foldM_rel with (fun a b => b = f a); [| |reflexivity].
      - intros u u' k k' <- ->. apply bind_rel with D; [apply dgetE_rel; assumption|]. intros d d' PD.
        rewrite (Db _ _ PD). apply outcome_refl.
      - apply unmatched_rel; [exact Jf|apply (keys_rel f _ _ _ FD)|]. revert V. apply map_rel. intros c c' (R & _). exact R. }
    intros u u' <-. apply outcome_refl.
  Qed.
End Perceptual.

Lemma upright_difference : forall T, upright (pR T) -> forall P P',
  let v := vsub (pt P) (pt P') in let v' := vsub (pt (moved_pose T P)) (pt (moved_pose T P')) in
  vx v' * vx v' + vz v' * vz v' = vx v * vx v + vz v * vz v /\ vy v' = vy v.
Proof.
  intros T [HT U] P P'. cbv zeta.
  replace (vsub (pt (moved_pose T P)) (pt (moved_pose T P'))) with (mvec (pR T) (vsub (pt P) (pt P')))
    by (unfold moved_pose; cbn [pt]; rewrite mvec_sub; apply vec_eq; cbn; ring).
  set (v := vsub (pt P) (pt P')). assert (Y := U v). assert (N := rotation_dot (pR T) v v HT). unfold dot in N. rewrite Y in N.
  split; [lra|exact Y].
Qed.
