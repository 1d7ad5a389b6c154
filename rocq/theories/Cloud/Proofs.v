From Coq Require Import Reals Lra Lia List ZArith Bool.
From Verif.Base Require Import Py PyFacts Vec.
From Verif.Geom Require Import Model Spec Proofs.
From Verif.Cloud Require Import Model Spec.
Import ListNotations.

Lemma map_Some_inj : forall A (a b : list A), map Some a = map Some b -> a = b.
Proof. intros A a. induction a as [|x a IH]; intros [|y b] H; try discriminate; [reflexivity|]. cbn in H. injection H as -> H. f_equal. apply IH, H. Qed.
Lemma none_nil : forall l cs, Forall (fun e : entry => snd e = None) l -> map snd l = map (@Some color) cs -> l = [] /\ cs = [].
Proof. intros [|e l] [|c cs] F H; try discriminate; [split; reflexivity|]. inversion F as [|? ? E _]; subst. cbn in H. rewrite E in H. discriminate. Qed.
Lemma some_colors : forall l cs, map snd l = map (@Some color) cs -> Forall (fun e : entry => snd e <> None) l.
Proof. intro l. induction l as [|e l IH]; intros [|c cs] H; try discriminate; constructor; [cbn in H; injection H as E _; rewrite E; discriminate|]. cbn in H. injection H as _ H. eapply IH, H. Qed.
Lemma colors_some : forall l, Forall (fun e : entry => snd e <> None) l -> exists cs, map snd l = map (@Some color) cs.
Proof.
  intro l. induction l as [|[p [k|]] l IH]; intro F; [exists []; reflexivity| |]; inversion F as [|? ? E F']; subst.
  - destruct (IH F') as (cs & H). exists (k :: cs). cbn. rewrite H. reflexivity.
  - cbn in E. congruence.
Qed.
Lemma entries_colored : forall c l, entries c l -> colored c = true -> l <> [] /\ map snd l = map Some (colors c).
Proof.
  intros c l (_ & [(F & E)|E]) H; unfold colored in H; [rewrite E in H; discriminate|]. split; [|exact E]. intros ->. destruct (colors c); discriminate.
Qed.
Lemma entries_uncolored : forall c l, entries c l -> colored c = false -> Forall (fun e => snd e = None) l /\ colors c = [].
Proof.
  intros c l (_ & [(F & E)|E]) H; unfold colored in H; [split; assumption|]. destruct (colors c); [|discriminate]. destruct l; [|discriminate]. split; [constructor|reflexivity].
Qed.
Lemma entries_uniform : forall c l, entries c l -> uniform_colors l.
Proof. intros c l (_ & [(F & E)|E]); [left; exact F|right; eapply some_colors, E]. Qed.
Lemma entries_functional : forall c l l', entries c l -> entries c l' -> l = l'.
Proof.
  assert (P : forall l l' : list entry, map fst l = map fst l' -> map snd l = map snd l' -> l = l').
  { intro l. induction l as [|[p k] l IH]; intros [|[q m] l'] A B; try discriminate; [reflexivity|]. cbn in A, B. injection A as -> A. injection B as -> B. f_equal. apply IH; assumption. }
  intros c l l' (A & C) (A' & C'). apply P; [congruence|]. destruct C as [(F & E)|E], C' as [(F' & E')|E'].
  - assert (L : List.length (map fst l) = List.length (map fst l')) by congruence. rewrite !map_length in L.
    clear A A'. revert l' L F'. induction l as [|e l IH]; intros [|e' l'] L F'; try discriminate; [reflexivity|]. inversion F; inversion F'; subst. cbn. f_equal; [congruence|]. apply IH; [assumption|cbn in L; lia|assumption].
  - rewrite E in E'. destruct l'; [|discriminate]. cbn in A'. rewrite A' in A. destruct l; [reflexivity|discriminate].
  - rewrite E' in E. destruct l; [|discriminate]. cbn in A. rewrite A in A'. destruct l'; [reflexivity|discriminate].
  - congruence.
Qed.
Lemma entries_cloud : forall l, uniform_colors l -> exists c, entries c l.
Proof.
  intros l [F|F]; [exists (Cloud (map fst l) []); split; [reflexivity|left; auto]|]. destruct (colors_some l F) as (cs & E). exists (Cloud (map fst l) cs). split; [reflexivity|right; exact E].
Qed.
Lemma entries_eq : forall c d l, entries c l -> entries d l -> c = d.
Proof.
  intros [p k] [q m] l (A & C) (A' & C'). cbn [points colors] in *. subst p q. f_equal.
  destruct C as [(F & E)|E], C' as [(F' & E')|E'].
  - congruence.
  - destruct (none_nil _ _ F E') as (-> & ->). exact E.
  - destruct (none_nil _ _ F' E) as (-> & ->). symmetry. exact E'.
  - apply map_Some_inj. congruence.
Qed.

Lemma append_entries : forall a b la lb, entries a la -> entries b lb -> uniform_colors (la ++ lb) -> entries (append a b) (la ++ lb).
Proof.
  intros a b la lb (PA & CA) (PB & CB) U. split; [cbn; rewrite PA, PB, map_app; reflexivity|]. cbn [append colors]. destruct U as [F|F].
  - left. split; [exact F|]. apply Forall_app in F. destruct F as (FA & FB).
    destruct CA as [(_ & ->)|E]; [|destruct (none_nil _ _ FA E) as (_ & ->)]; (destruct CB as [(_ & ->)|E']; [|destruct (none_nil _ _ FB E') as (_ & ->)]); reflexivity.
  - right. apply Forall_app in F. destruct F as (FA & FB). rewrite !map_app. f_equal.
    + destruct CA as [(FN & ->)|E]; [|exact E]. destruct la as [|e la]; [reflexivity|]. inversion FN; inversion FA; subst. contradiction.
    + destruct CB as [(FN & ->)|E]; [|exact E]. destruct lb as [|e lb]; [reflexivity|]. inversion FN; inversion FB; subst. contradiction.
Qed.

Lemma entries_empty : entries empty_cloud [].
Proof. split; [reflexivity|left; split; [constructor|reflexivity]]. Qed.

(** * The constructor *)

Lemma uchar_ok : forall cs, Forall (fun k => byte (red k) /\ byte (green k) /\ byte (blue k)) cs -> mapM color_of_numpy cs = Ok cs.
Proof.
  intro cs. induction cs as [|[r g b] cs IH]; intro F; [reflexivity|]. inversion F as [|? ? (R & G & B) F']; subst. cbn [mapM]. unfold byte in *. cbn [red green blue] in *.
  assert (C : color_of_numpy (Color r g b) = Ok (Color r g b)).
  { unfold color_of_numpy, to_uchar. cbn [red green blue]. repeat (rewrite (proj2 (Z.ltb_ge _ _)) by lia). reflexivity. }
  rewrite C. cbn [bind]. rewrite IH by exact F'. reflexivity.
Qed.
Lemma uchar_inv : forall cs cs', mapM color_of_numpy cs = Ok cs' -> cs' = cs /\ Forall (fun k => byte (red k) /\ byte (green k) /\ byte (blue k)) cs.
Proof.
  intro cs. induction cs as [|[r g b] cs IH]; intros cs' H; [injection H as <-; split; [reflexivity|constructor]|]. cbn [mapM] in H. set (F := mapM color_of_numpy cs) in *. unfold color_of_numpy, to_uchar in H. cbn [red green blue] in H.
  destruct (Z.ltb_spec r 0); [discriminate H|]. destruct (Z.ltb_spec 255 r); [discriminate H|]. cbn [orb bind] in H.
  destruct (Z.ltb_spec g 0); [discriminate H|]. destruct (Z.ltb_spec 255 g); [discriminate H|]. cbn [orb bind] in H.
  destruct (Z.ltb_spec b 0); [discriminate H|]. destruct (Z.ltb_spec 255 b); [discriminate H|]. cbn [orb bind] in H.
  destruct F as [rest|] eqn:E; [|discriminate H]. cbn [bind] in H. injection H as <-. destruct (IH rest eq_refl) as (-> & G). split; [reflexivity|]. constructor; [unfold byte; cbn; lia|exact G].
Qed.

Lemma init_uncolored : forall debug ps, init debug (Some (array_of ps)) None = Ok (Cloud ps []).
Proof. reflexivity. Qed.
Lemma init_colored : forall debug ps cs, List.length ps = List.length cs -> Forall (fun k => byte (red k) /\ byte (green k) /\ byte (blue k)) cs ->
  init debug (Some (array_of ps)) (Some (array_of cs)) = Ok (Cloud ps cs).
Proof.
  intros debug ps cs L F. unfold init, array_of. cbn [shape columns Nat.eqb bind]. unfold same_shape. destruct (list_eq_dec _ _ _) as [_|N]; [|exfalso; apply N; congruence].
  rewrite uchar_ok by exact F. cbn [bind]. unfold new_cloud. destruct cs as [|c cs]; [reflexivity|]. rewrite L, Nat.eqb_refl. unfold cpp_assert. rewrite andb_false_r. reflexivity.
Qed.
Lemma init_mismatch : forall debug ps cs, List.length ps <> List.length cs -> init debug (Some (array_of ps)) (Some (array_of cs)) = Err AssertionError.
Proof.
  intros debug ps cs L. unfold init, array_of. cbn [shape columns Nat.eqb bind]. unfold same_shape. destruct (list_eq_dec _ _ _) as [E|_]; [|reflexivity]. injection E as E. contradiction.
Qed.

(** * transform *)

Definition moved_entry (f : vec -> vec) (e : entry) : entry := (f (fst e), snd e).
Lemma entries_move : forall f c l, entries c l -> entries (Cloud (map f (points c)) (colors c)) (map (moved_entry f) l).
Proof.
  intros f c l (P & C). split; cbn [points colors]; [rewrite P, !map_map; reflexivity|]. destruct C as [(F & E)|E].
  - left. split; [|exact E]. clear -F. induction F; constructor; assumption.
  - right. rewrite map_map. cbn. rewrite <- E. reflexivity.
Qed.
Lemma entries_lengths : forall c l, entries c l -> colored c = true -> List.length (points c) = List.length (colors c).
Proof. intros c l E H. destruct (entries_colored c l E H) as (_ & C). destruct E as (P & _). rewrite P, map_length, <- (map_length snd l), C, map_length. reflexivity. Qed.
Lemma from_ok : forall debug c l T, entries c l -> bytes_ok c -> cloud_from debug c T = Ok (Cloud (map (transform_from T) (points c)) (colors c)).
Proof.
  intros debug c l T E B. unfold cloud_from. rewrite transform_all_from_map. destruct (colored c) eqn:H.
  - apply init_colored; [rewrite map_length; eapply entries_lengths; eauto|exact B].
  - destruct (entries_uncolored c l E H) as (_ & ->). apply init_uncolored.
Qed.
Lemma to_ok : forall debug c l T, entries c l -> bytes_ok c -> cloud_to debug c T = Ok (Cloud (map (transform_to T) (points c)) (colors c)).
Proof.
  intros debug c l T E B. unfold cloud_to. rewrite transform_all_to_map. destruct (colored c) eqn:H.
  - apply init_colored; [rewrite map_length; eapply entries_lengths; eauto|exact B].
  - destruct (entries_uncolored c l E H) as (_ & ->). apply init_uncolored.
Qed.

(** * Several clouds *)

Lemma fold_append : forall cl acc, fold_left append cl acc = Cloud (points acc ++ concat (map points cl)) (colors acc ++ concat (map colors cl)).
Proof.
  intro cl. induction cl as [|c cl IH]; intros [p k]; cbn [fold_left map concat]; [rewrite !app_nil_r; reflexivity|]. rewrite IH. cbn [append points colors]. rewrite !app_assoc. reflexivity.
Qed.
Lemma concat_entries : forall cl ls, Forall2 entries cl ls -> uniform_colors (concat ls) -> entries (Cloud (concat (map points cl)) (concat (map colors cl))) (concat ls).
Proof.
  intros cl ls F. induction F as [|c l cl ls E F IH]; intro U; [exact entries_empty|]. cbn [map concat]. cbn [concat] in U.
  assert (U' : uniform_colors (concat ls)) by (destruct U as [U|U]; apply Forall_app in U; [left|right]; apply U).
  exact (append_entries c (Cloud (concat (map points cl)) (concat (map colors cl))) l (concat ls) E (IH U') U).
Qed.
Lemma sum_sizes_concat : forall A (l : list (list A)), sum_sizes (map (@List.length A) l) = List.length (concat l).
Proof.
  intros A l. unfold sum_sizes. assert (H : forall n, fold_left Nat.add (map (@List.length A) l) n = (n + List.length (concat l))%nat); [|apply H].
  induction l as [|x l IH]; intro n; cbn [map fold_left concat]; [cbn; lia|]. rewrite IH, app_length. lia.
Qed.
Lemma from_clouds_ok : forall debug cl l, entries (Cloud (concat (map points cl)) (concat (map colors cl))) l ->
  new_from_clouds debug cl = Ok (Cloud (concat (map points cl)) (concat (map colors cl))).
Proof.
  intros debug cl l E. unfold new_from_clouds. rewrite fold_append.
  replace (sum_sizes (map (fun c => List.length (points c)) cl)) with (List.length (concat (map points cl))) by (rewrite <- sum_sizes_concat, map_map; reflexivity).
  replace (sum_sizes (map (fun c => List.length (colors c)) cl)) with (List.length (concat (map colors cl))) by (rewrite <- sum_sizes_concat, map_map; reflexivity).
  assert (A : (Nat.eqb (List.length (concat (map colors cl))) 0 || Nat.eqb (List.length (concat (map colors cl))) (List.length (concat (map points cl))))%bool = true).
  { destruct (colored (Cloud (concat (map points cl)) (concat (map colors cl)))) eqn:C.
    - assert (L := entries_lengths _ _ E C). cbn [points colors] in L. rewrite L, Nat.eqb_refl. apply orb_true_r.
    - destruct (entries_uncolored _ _ E C) as (_ & N). cbn [colors] in N. rewrite N. reflexivity. }
  rewrite A. unfold cpp_assert. rewrite andb_false_r. reflexivity.
Qed.
Lemma merge_ok : forall a b, (colored a = true -> colored b = true) -> merge a b = Ok (append a b).
Proof.
  intros a b H. unfold merge. destruct (colored a); [rewrite H by reflexivity|]; reflexivity.
Qed.
Lemma merge_spec : forall a b, merge a b = if (colored a && negb (colored b))%bool then Err ValueError else Ok (append a b).
Proof. reflexivity. Qed.
