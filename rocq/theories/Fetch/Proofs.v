(** Lemmas about the downloader. *)
From Coq Require Import List Bool String Ascii Arith QArith Lia.
From Verif.Base Require Import Py PyFacts.
From Verif.Fetch Require Import Model Spec.
Import ListNotations.
Local Open Scope string_scope.
Local Open Scope list_scope.

(** * Strings *)

Lemma sapp_assoc : forall a b c, (a ++ (b ++ c) = (a ++ b) ++ c)%string.
Proof. intros a b c. induction a as [|x a IH]; [reflexivity|]. cbn. rewrite IH. reflexivity. Qed.
Lemma sapp_nil : forall a, (a ++ "" = a)%string.
Proof. intros a. induction a as [|x a IH]; [reflexivity|]. cbn. rewrite IH. reflexivity. Qed.
Lemma sapp_len : forall a b, String.length (a ++ b) = (String.length a + String.length b)%nat.
Proof. intros a b. induction a as [|x a IH]; cbn; [reflexivity|]. rewrite IH. reflexivity. Qed.
Lemma sapp_inj_l : forall a b c, (a ++ b = a ++ c)%string -> b = c.
Proof. intros a b c. induction a as [|x a IH]; cbn; intros E; [exact E|]. injection E as E. apply IH. exact E. Qed.
Lemma sapp_eq_len : forall a b c d, String.length a = String.length c -> (a ++ b = c ++ d)%string -> a = c /\ b = d.
Proof.
  intros a. induction a as [|x a IH]; intros b [|y c] d L E; try discriminate L; [split; [reflexivity|exact E]|].
  cbn in E. injection E as -> E. injection L as L. destruct (IH _ _ _ L E) as (-> & ->). auto.
Qed.
Lemma sapp_inj_r : forall a b c, (a ++ c = b ++ c)%string -> a = b.
Proof.
  intros a b c E. apply (sapp_eq_len a c b c); [|exact E]. apply (f_equal String.length) in E. rewrite !sapp_len in E. lia.
Qed.

Lemma sapp_split : forall a b c d, (a ++ b = c ++ d)%string ->
  (exists e, a = (c ++ e)%string /\ d = (e ++ b)%string) \/ (exists e, c = (a ++ e)%string /\ b = (e ++ d)%string /\ e <> "").
Proof.
  intros a. induction a as [|x a IH]; intros b c d E.
  - destruct c as [|y c]; [left; exists ""; auto|right; exists (String y c); split; [reflexivity|split; [exact E|discriminate]]].
  - destruct c as [|y c]; [left; exists (String x a); split; [reflexivity|symmetry; exact E]|].
    cbn in E. injection E as -> E. destruct (IH _ _ _ E) as [(e & -> & ->)|(e & -> & -> & N)]; [left|right]; exists e; auto.
Qed.

Lemma prefix_spec : forall p s, String.prefix p s = true <-> exists r, s = (p ++ r)%string.
Proof.
  intros p s. revert p. induction s as [|b s IH]; intros [|a p]; cbn.
  - split; [intros _; exists ""; reflexivity|reflexivity].
  - split; [discriminate|intros (r & E); discriminate].
  - split; [intros _; eexists; reflexivity|reflexivity].
  - destruct (ascii_dec a b) as [->|N].
    + rewrite IH. split; intros (r & E); exists r; [rewrite E; reflexivity|injection E as E; exact E].
    + split; [discriminate|]. intros (r & E). injection E as E _. congruence.
Qed.

Lemma ends_with_spec : forall x s, ends_with x s = true <-> exists p, s = (p ++ x)%string.
Proof.
  intros x s. induction s as [|c s IH]; cbn [ends_with]; rewrite orb_true_iff, String.eqb_eq.
  - split; [intros [->|H]; [exists ""; reflexivity|discriminate]|]. intros (p & E). left. destruct p; [exact E|discriminate].
  - rewrite IH. split.
    + intros [->|(p & ->)]; [exists ""; reflexivity|exists (String c p); reflexivity].
    + intros ([|b p] & E); [left; exact E|]. right. injection E as _ E. exists p. exact E.
Qed.

Lemma glob_zip : forall n, glob_match ".zip" n = true <-> zip_name n.
Proof.
  intros n. unfold glob_match, zip_name. rewrite andb_true_iff, ends_with_spec, negb_true_iff, <- not_true_iff_false, prefix_spec. firstorder.
Qed.

(** Replacing skips what was replaced. *)
Lemma skip_app : forall old new a s, replace_from (String.length a) old new (a ++ s) = replace_from 0 old new s.
Proof. intros old new a s. induction a as [|c a IH]; [reflexivity|]. cbn. exact IH. Qed.

Lemma replace_hit : forall c old new s, replace (String c old) new (String c old ++ s) = (new ++ replace (String c old) new s)%string.
Proof.
  intros c old new s. unfold replace. cbn [append replace_from].
  assert (P : String.prefix (String c old) (String c (old ++ s)) = true) by (apply prefix_spec; exists s; reflexivity).
  change ((String c old ++ s)%string) with (String c (old ++ s)). cbn [replace_from]. rewrite P. cbn [String.length]. rewrite Nat.sub_succ, Nat.sub_0_r, skip_app. reflexivity.
Qed.

Lemma replace_miss : forall old new c s, ~ (exists r, String c s = (old ++ r)%string) -> replace old new (String c s) = String c (replace old new s).
Proof.
  intros old new c s N. unfold replace. cbn [replace_from]. destruct (String.prefix old (String c s)) eqn:P; [|reflexivity].
  apply prefix_spec in P. contradiction.
Qed.

(** A dotted word with only one dot: it is found only where it starts. *)
Fixpoint no_dot (s : string) : Prop := match s with "" => True | String c s => c <> "."%char /\ no_dot s end.

Lemma no_dot_prefix : forall p r s, no_dot p -> p = (r ++ String "." s)%string -> False.
Proof.
  intros p r. revert p. induction r as [|a r IH]; intros p s N E; subst p; cbn in N; [apply (proj1 N); reflexivity|]. apply (IH _ s (proj2 N)). reflexivity.
Qed.

(** The last word is replaced on its own. *)
Lemma replace_end : forall x new p, no_dot x ->
  replace (String "." x) new (p ++ String "." x) = (replace (String "." x) new p ++ new)%string.
Proof.
  intros x new p N. remember (String.length p) as k eqn:K. revert p K. induction k as [k IH] using lt_wf_ind. intros p K.
  destruct p as [|c p].
  - change ("" ++ String "." x)%string with (String "." x). assert (H := replace_hit "." x new ""). rewrite sapp_nil in H. rewrite H.
    unfold replace. cbn. apply sapp_nil.
  - destruct (String.prefix (String "." x) (String c p)) eqn:P.
    + apply prefix_spec in P. destruct P as (r & E). rewrite E, <- sapp_assoc, !replace_hit, <- sapp_assoc. f_equal. apply (IH (String.length r)); [|reflexivity].
      rewrite K, E, sapp_len. cbn. lia.
    + assert (Q : ~ exists r, String c p = (String "." x ++ r)%string).
      { intros H. apply prefix_spec in H. congruence. }
      change ((String c p ++ String "." x)%string) with (String c (p ++ String "." x)). rewrite !replace_miss; [| exact Q|].
      * cbn. f_equal. apply (IH (String.length p)); [rewrite K; cbn; lia|reflexivity].
      * (* an occurrence at the front would reach into the last word *)
        intros (r & E). change (String c (p ++ String "." x))%string with ((String c p) ++ String "." x)%string in E.
        destruct (sapp_split _ _ _ _ E) as [(e & E1 & _)|(e & E1 & E2 & E3)]; [apply Q; exists e; exact E1|].
        cbn in E1. injection E1 as <- E1. destruct e as [|b e]; [contradiction|]. cbn in E2. injection E2 as <- _.
        eapply no_dot_prefix; [exact N|exact E1].
Qed.

Lemma replace_none : forall x new s, ~ occurs (String "." x) s -> replace (String "." x) new s = s.
Proof.
  intros x new s. induction s as [|c s IH]; intros N; [reflexivity|]. rewrite replace_miss.
  - f_equal. apply IH. intros (a & b & ->). apply N. exists (String c a), b. reflexivity.
  - intros (r & E). apply N. exists "", r. exact E.
Qed.

Lemma occurs_replace : forall x new s, occurs (String "." x) s -> no_dot x -> occurs new (replace (String "." x) new s).
Proof.
  intros x new s (a & b & ->) N.
  assert (G : forall k a, String.length a = k -> exists p q, replace (String "." x) new (a ++ String "." x ++ b) = (p ++ new ++ q)%string); [|].
  { intros k. induction k as [k IH] using lt_wf_ind. intros a' K. destruct a' as [|c a'].
    - exists "", (replace (String "." x) new b). change ("" ++ String "." x ++ b)%string with (String "." x ++ b)%string. rewrite replace_hit. reflexivity.
    - destruct (String.prefix (String "." x) (String c a' ++ String "." x ++ b)) eqn:P.
      + apply prefix_spec in P. destruct P as (r & E). rewrite E, replace_hit. exists "", (replace (String "." x) new r). reflexivity.
      + change (String c a' ++ String "." x ++ b)%string with (String c (a' ++ String "." x ++ b)) in *. rewrite replace_miss.
        * destruct (IH (String.length a') ltac:(cbn in K; lia) a' eq_refl) as (p & q & E). rewrite E. exists (String c p), q. reflexivity.
        * intros H. apply prefix_spec in H. congruence. }
  destruct (G _ a eq_refl) as (p & q & E). exists p, q. exact E.
Qed.

Lemma occurs_dec : forall x s, {occurs (String "." x) s} + {~ occurs (String "." x) s}.
Proof.
  intros x s. induction s as [|c s IH].
  - right. intros (a & b & E). destruct a; discriminate.
  - destruct (String.prefix (String "." x) (String c s)) eqn:P.
    + left. apply prefix_spec in P. destruct P as (r & E). exists "", r. exact E.
    + destruct IH as [H|H].
      * left. destruct H as (a & b & ->). exists (String c a), b. reflexivity.
      * right. intros (a & b & E). destruct a as [|d a].
        -- assert (String.prefix (String "." x) (String c s) = true) by (apply prefix_spec; exists b; exact E). congruence.
        -- cbn in E. injection E as _ E. apply H. exists a, b. exact E.
Qed.

(** * Names *)

Lemma nd_zip : no_dot "zip". Proof. cbn. repeat split; discriminate. Qed.
Lemma nd_cache : no_dot "cache". Proof. cbn. repeat split; discriminate. Qed.

Lemma cache_of : forall stem, ~ occurs ".zip" stem -> replace ".zip" ".cache" (stem ++ ".zip") = (stem ++ ".cache")%string.
Proof. intros stem N. rewrite (replace_end "zip" ".cache" stem nd_zip). rewrite (replace_none "zip") by exact N. reflexivity. Qed.
Lemma zip_of : forall stem, ~ occurs ".cache" stem -> replace ".cache" ".zip" (stem ++ ".cache") = (stem ++ ".zip")%string.
Proof. intros stem N. rewrite (replace_end "cache" ".zip" stem nd_cache). rewrite (replace_none "cache") by exact N. reflexivity. Qed.

Lemma plain_zip : forall n, plain n -> zip_name n.
Proof. intros n (stem & -> & H & _). split; [exists stem; reflexivity|exact H]. Qed.

Lemma plain_path : forall n, plain n -> exists stem, n = (stem ++ ".zip")%string /\ cache_path n = [".cache"; (stem ++ ".cache")%string].
Proof. intros n (stem & -> & _ & N & _). exists stem. split; [reflexivity|]. unfold cache_path. rewrite cache_of by exact N. reflexivity. Qed.

Lemma marked_path : forall n w, plain n -> (marked n w <-> content (cache_path n) w <> None).
Proof.
  intros n w P. destruct (plain_path n P) as (stem & E & ->). split.
  - intros (stem' & E' & M). rewrite E in E'. apply sapp_inj_r in E'. subst stem'. exact M.
  - intros M. exists stem. auto.
Qed.

(** Only a plain archive gets its mark. *)
Lemma cache_inj : forall n m, plain n -> zip_name m -> cache_path m = cache_path n -> m = n.
Proof.
  intros n m (stem & -> & _ & N1 & N2) ((q & ->) & _) E. unfold cache_path in E. injection E as E.
  rewrite (cache_of stem N1) in E. rewrite (replace_end "zip" ".cache" q nd_zip) in E. apply sapp_inj_r in E.
  destruct (occurs_dec "zip" q) as [O|O].
  - exfalso. apply N2. rewrite <- E. apply (occurs_replace "zip" ".cache" q O nd_zip).
  - rewrite (replace_none "zip") in E by exact O. subst. reflexivity.
Qed.

(** * The folder *)

Lemma path_eqb_spec : forall p q, path_eqb p q = true <-> p = q.
Proof. intros p q. unfold path_eqb. destruct (list_eq_dec string_dec p q); split; congruence. Qed.

Lemma content_put_same : forall p x w, content p (put p x w) = Some x.
Proof. intros p x w. apply (dget_dset_same _ path_eqb_spec). Qed.
Lemma content_put_other : forall p q x w, p <> q -> content q (put p x w) = content q w.
Proof. intros p q x w N. apply (dget_dset_other _ path_eqb_spec). exact N. Qed.
Lemma content_delete_same : forall p w, content p (delete p w) = None.
Proof.
  intros p w. unfold content, delete. cbn [files]. induction (files w) as [|[k v] l IH]; [reflexivity|]. cbn [filter fst].
  destruct (path_eqb p k) eqn:E; cbn [negb]; [exact IH|]. cbn [dget]. rewrite E. exact IH.
Qed.
Lemma content_delete_other : forall p q w, p <> q -> content q (delete p w) = content q w.
Proof.
  intros p q w N. unfold content, delete. cbn [files]. induction (files w) as [|[k v] l IH]; [reflexivity|]. cbn [filter fst dget].
  destruct (path_eqb p k) eqn:E; cbn [negb dget].
  - apply path_eqb_spec in E. subst k. destruct (path_eqb q p) eqn:F; [apply path_eqb_spec in F; congruence|exact IH].
  - destruct (path_eqb q k); [reflexivity|exact IH].
Qed.
Lemma content_append_same : forall p x w, content p (append p x w) = match content p w with Some y => Some (y ++ x)%string | None => None end.
Proof. intros p x w. unfold append. destruct (content p w) eqn:E; [apply content_put_same|exact E]. Qed.
Lemma content_append_other : forall p q x w, p <> q -> content q (append p x w) = content q w.
Proof. intros p q x w N. unfold append. destruct (content p w); [apply content_put_other; exact N|reflexivity]. Qed.

Lemma folder_put : forall p x w, folder w -> folder (put p x w).
Proof. intros p x w F. apply (NoDup_dset _ path_eqb_spec). exact F. Qed.
Lemma folder_append : forall p x w, folder w -> folder (append p x w).
Proof. intros p x w F. unfold append. destruct (content p w); [apply folder_put|]; exact F. Qed.
Lemma folder_delete : forall p w, folder w -> folder (delete p w).
Proof.
  intros p w. unfold folder, delete. cbn [files]. induction (files w) as [|[k v] l IH]; intros F; [exact F|]. cbn in F. inversion F as [|? ? N F']; subst.
  cbn [filter fst]. destruct (path_eqb p k); cbn [negb]; [apply IH; exact F'|]. cbn [map fst]. constructor; [|apply IH; exact F'].
  intros I. apply N. apply in_map_iff in I. destruct I as (kv & E & I). apply filter_In in I. rewrite <- E. apply in_map. apply I.
Qed.
Lemma requests_append : forall p x w, requests (append p x w) = requests w.
Proof. intros p x w. unfold append. destruct (content p w); reflexivity. Qed.

Lemma in_keys : forall p w, In p (dkeys (files w)) <-> content p w <> None.
Proof.
  intros p w. unfold content. destruct (dget path_eqb p (files w)) as [x|] eqn:E.
  - split; [discriminate|]. intros _. apply (dget_In _ path_eqb_spec) in E. apply (in_map fst) in E. exact E.
  - apply (dget_None _ path_eqb_spec) in E. split; [contradiction|congruence].
Qed.

Lemma existing_spec : forall n w, In n (existing_zips w) <-> zip_name n /\ present n w.
Proof.
  intros n w. unfold existing_zips, present. rewrite in_flat_map. split.
  - intros (p & I & J). apply in_keys in I. destruct p as [|m [|? ?]]; try destruct J. destruct (glob_match ".zip" m) eqn:G; [|destruct J].
    destruct J as [<-|[]]. split; [apply glob_zip; exact G|exact I].
  - intros (Z & P). exists [n]. split; [apply in_keys; exact P|]. apply glob_zip in Z. rewrite Z. left. reflexivity.
Qed.

Lemma existing_nodup : forall w, folder w -> NoDup (existing_zips w).
Proof.
  intros w. unfold folder, existing_zips, dkeys. generalize (map fst (files w)). intros l N. induction N as [|p l NI N IH]; [constructor|]. cbn [flat_map].
  destruct p as [|m [|? ?]]; cbn [app]; try exact IH. destruct (glob_match ".zip" m); cbn [app]; [|exact IH]. constructor; [|exact IH].
  intros I. apply NI. apply in_flat_map in I. destruct I as (q & I & J). destruct q as [|m' [|? ?]]; try destruct J.
  destruct (glob_match ".zip" m'); [destruct J as [->|[]]; exact I|destruct J].
Qed.

Lemma glob_cache : forall stem, (forall r, (stem ++ ".zip")%string <> ("." ++ r)%string) -> glob_match ".cache" (stem ++ ".cache") = true.
Proof.
  intros stem H. unfold glob_match. rewrite andb_true_iff, ends_with_spec, negb_true_iff, <- not_true_iff_false, prefix_spec. split; [exists stem; reflexivity|].
  intros (r & E). destruct stem as [|c stem]; [apply (H "zip"); reflexivity|]. cbn in E. injection E as -> _. apply (H (stem ++ ".zip")%string). reflexivity.
Qed.

Lemma extracted_spec : forall n w, plain n -> (In n (extracted_zips w) <-> marked n w).
Proof.
  intros n w P. assert (P' := P). destruct P' as (stem & -> & H & N1 & N2). unfold extracted_zips. rewrite in_flat_map. split.
  - intros (p & I & J). apply in_keys in I. destruct p as [|d [|m [|? ?]]]; try destruct J. destruct (String.eqb_spec d ".cache") as [->|]; [|destruct J].
    destruct (glob_match ".cache" m) eqn:G; [|destruct J]. destruct J as [E|[]].
    unfold glob_match in G. apply andb_true_iff in G. destruct G as (G & _). apply ends_with_spec in G. destruct G as (q & ->).
    rewrite (replace_end "cache" ".zip" q nd_cache) in E. apply sapp_inj_r in E. destruct (occurs_dec "cache" q) as [O|O].
    + exfalso. apply N1. rewrite <- E. apply (occurs_replace "cache" ".zip" q O nd_cache).
    + rewrite (replace_none "cache") in E by exact O. subst q. exists stem. auto.
  - intros (stem' & E & M). apply sapp_inj_r in E. subst stem'. exists [".cache"; (stem ++ ".cache")%string]. split; [apply in_keys; exact M|].
    cbn [String.eqb Ascii.eqb Bool.eqb]. rewrite glob_cache by exact H. left. apply zip_of. exact N2.
Qed.

(** What is extracted always has the name of an archive. *)
Lemma extracted_zip : forall n w, In n (extracted_zips w) -> exists stem, n = (stem ++ ".zip")%string.
Proof.
  intros n w. unfold extracted_zips. rewrite in_flat_map. intros (p & I & J). destruct p as [|d [|m [|? ?]]]; try destruct J.
  destruct (String.eqb d ".cache"); [|destruct J]. destruct (glob_match ".cache" m) eqn:G; [|destruct J]. destruct J as [<-|[]].
  unfold glob_match in G. apply andb_true_iff in G. destruct G as (G & _). apply ends_with_spec in G. destruct G as (q & ->).
  rewrite (replace_end "cache" ".zip" q nd_cache). eexists. reflexivity.
Qed.

Lemma extracted_marks : forall n w w', (forall c, content [".cache"; c] w' = None <-> content [".cache"; c] w = None) ->
  (In n (extracted_zips w') <-> In n (extracted_zips w)).
Proof.
  assert (G : forall n w w', (forall c, content [".cache"; c] w' = None -> content [".cache"; c] w = None) -> In n (extracted_zips w) -> In n (extracted_zips w')).
  { intros n w w' H I. unfold extracted_zips in *. apply in_flat_map in I. apply in_flat_map. destruct I as (p & I & J). exists p. split; [|exact J].
    apply in_keys in I. apply in_keys. destruct p as [|d [|m [|? ?]]]; try destruct J. destruct (String.eqb_spec d ".cache") as [->|]; [|destruct J].
    intros E. apply I. apply H. exact E. }
  intros n w w' H. split; apply G; intros c; apply H.
Qed.

Lemma remaining_spec : forall c n w, In n (remaining c w) <-> In n (listed c) /\ ~ (zip_name n /\ present n w) /\ ~ In n (extracted_zips w).
Proof.
  intros c n w. unfold remaining, get_zip_file_count, remove_existing_files. rewrite filter_In, negb_true_iff, <- not_true_iff_false, str_in_In, in_app_iff, existing_spec.
  tauto.
Qed.

Lemma remaining_nodup : forall c w, NoDup (listed c) -> NoDup (remaining c w).
Proof. intros c w N. unfold remaining, get_zip_file_count, remove_existing_files. apply NoDup_filter. exact N. Qed.

(** * Tasks *)

Inductive ok (R G : world -> world -> Prop) (J L Q : world -> Prop) : (world -> Prop) -> proc -> Prop :=
| ok_done : forall P : world -> Prop, (forall w w', J w -> J w' -> P w -> R w w' -> P w') -> (forall w, J w -> P w -> L w /\ Q w) -> ok R G J L Q P Done
| ok_step : forall (P : world -> Prop) f, (forall w w', J w -> J w' -> P w -> R w w' -> P w') -> (forall w, J w -> P w -> L w) ->
    (forall w, J w -> P w -> J (fst (f w)) /\ G w (fst (f w)) /\ exists P' : world -> Prop, P' (fst (f w)) /\ ok R G J L Q P' (snd (f w))) ->
    ok R G J L Q P (Step f).

Lemma nth_update : forall A (l : list A) i j x, nth_error (update i x l) j = if Nat.eqb i j then (match nth_error l j with Some _ => Some x | None => None end) else nth_error l j.
Proof.
  intros A l. induction l as [|y l IH]; intros i j x.
  - destruct i, j; cbn; try reflexivity. destruct (Nat.eqb i j); reflexivity.
  - destruct i, j; cbn; try reflexivity. apply IH.
Qed.
Lemma update_length : forall A (l : list A) i x, List.length (update i x l) = List.length l.
Proof. intros A l. induction l as [|y l IH]; intros i x; destruct i; cbn; auto. Qed.

Section Parallel.
  Variables (R G : string -> world -> world -> Prop) (J : world -> Prop) (L Q : string -> world -> Prop) (T : world -> world -> Prop).
  Hypotheses (Tr : forall w, T w w) (Tt : forall a b c, T a b -> T b c -> T a c).
  Variable ns : list string.
  Hypothesis GT : forall n w w', In n ns -> J w -> J w' -> G n w w' -> T w w'.
  Hypothesis GR : forall n m w w', In n ns -> In m ns -> n <> m -> J w -> J w' -> G m w w' -> R n w w'.
  Hypothesis D : NoDup ns \/ forall n w w', In n ns -> J w -> J w' -> G n w w' -> R n w w'.

  Definition state (w : world) (ps : list proc) : Prop :=
    List.length ps = List.length ns /\
    forall i n p, nth_error ns i = Some n -> nth_error ps i = Some p -> exists P, P w /\ ok (R n) (G n) J (L n) (Q n) P p.

  Lemma parallel_ok : forall order ps w w' ps', state w ps -> J w -> parallel order ps w = (w', ps') -> state w' ps' /\ J w' /\ T w w'.
  Proof.
    intros order. induction order as [|i order IH]; intros ps w w' ps' S Jw E; cbn in E; [injection E as <- <-; auto|].
    destruct (nth_error ps i) as [[|f]|] eqn:Np; [eapply IH; eassumption| |eapply IH; eassumption].
    destruct S as (SL & S).
    assert (exists n, nth_error ns i = Some n) as (n & Nn).
    { destruct (nth_error ns i) eqn:X; [eauto|]. apply nth_error_None in X. assert (nth_error ps i <> None) by congruence. apply nth_error_Some in H. lia. }
    destruct (S i n _ Nn Np) as (P & Pw & O). inversion O as [|? ? _ _ ST]; subst. destruct (ST w Jw Pw) as (J1 & G1 & P1 & Pw1 & O1).
    destruct (f w) as [w1 p1] eqn:F. cbn [fst snd] in *.
    destruct (IH (update i p1 ps) w1 w' ps') as (S' & J' & T'); [|exact J1|exact E|].
    - split; [rewrite update_length; exact SL|]. intros j m p Nm Nq. rewrite nth_update in Nq. destruct (Nat.eqb_spec i j) as [<-|NE].
      + rewrite Np in Nq. injection Nq as <-. rewrite Nn in Nm. injection Nm as <-. exists P1. auto.
      + destruct (S j m p Nm Nq) as (P2 & Pw2 & O2). exists P2. split; [|exact O2].
        assert (RR : R m w w1).
        { assert (In n ns) by (eapply nth_error_In; exact Nn). assert (In m ns) by (eapply nth_error_In; exact Nm).
          destruct (string_dec m n) as [->|N]; [|apply (GR m n); assumption]. destruct D as [ND|DD]; [|apply DD; assumption].
          exfalso. apply NE. apply (proj1 (NoDup_nth_error ns) ND); [apply nth_error_Some; congruence|congruence]. }
        inversion O2 as [? ST2 _|? ? ST2 _ _]; subst; apply (ST2 w w1); assumption.
    - split; [exact S'|]. split; [exact J'|]. apply (Tt w w1 w'); [|exact T']. apply (GT n); [eapply nth_error_In; exact Nn|exact Jw|exact J1|exact G1].
  Qed.

  Lemma state_L : forall w ps, state w ps -> J w -> forall n, In n ns -> L n w.
  Proof.
    intros w ps (SL & S) Jw n I. apply In_nth_error in I. destruct I as (i & Ni).
    assert (exists p, nth_error ps i = Some p) as (p & Np).
    { destruct (nth_error ps i) eqn:X; [eauto|]. apply nth_error_None in X. assert (nth_error ns i <> None) by congruence. apply nth_error_Some in H. lia. }
    destruct (S i n p Ni Np) as (P & Pw & O). inversion O as [? _ F|? ? _ F _]; subst; apply F; assumption.
  Qed.

  Lemma state_Q : forall w ps, state w ps -> J w -> finished ps = true -> forall n, In n ns -> Q n w.
  Proof.
    intros w ps (SL & S) Jw FI n I. apply In_nth_error in I. destruct I as (i & Ni).
    assert (exists p, nth_error ps i = Some p) as (p & Np).
    { destruct (nth_error ps i) eqn:X; [eauto|]. apply nth_error_None in X. assert (nth_error ns i <> None) by congruence. apply nth_error_Some in H. lia. }
    destruct (S i n p Ni Np) as (P & Pw & O). unfold finished in FI. rewrite forallb_forall in FI. specialize (FI p (nth_error_In _ _ Np)).
    destruct p; [|discriminate]. inversion O as [? _ F|]; subst. apply F; assumption.
  Qed.
End Parallel.

Lemma state_map : forall R G J L Q ns (task : string -> proc) w,
  (forall n, In n ns -> exists P, P w /\ ok (R n) (G n) J (L n) (Q n) P (task n)) -> state R G J L Q ns w (map task ns).
Proof.
  intros R G J L Q ns task w H. split; [apply map_length|]. intros i n p Ni Np. rewrite nth_error_map, Ni in Np. injection Np as <-. apply H. eapply nth_error_In. exact Ni.
Qed.

(** * Downloading *)

Lemma concat_cons : forall c l, String.concat "" (c :: l) = (c ++ String.concat "" l)%string.
Proof. intros c l. destruct l; cbn; [rewrite sapp_nil; reflexivity|reflexivity]. Qed.

Definition Rd (n : string) (w w' : world) : Prop := content [n] w' = content [n] w /\ times n w' = times n w.
Definition Gd (n : string) (w w' : world) : Prop :=
  (forall p, p <> [n] -> content p w' = content p w) /\ (requests w' = requests w \/ requests w' = requests w ++ [n]).
Definition result (r : reply) : option string := match r with Body _ chunks true => Some (String.concat "" chunks) | _ => None end.
Definition Ld (c : nat) (n : string) (w : world) : Prop := (times n w <= S c)%nat.
Definition Qd (r : reply) (c : nat) (n : string) (w : world) : Prop := times n w = S c /\ content [n] w = result r.

Lemma times_request : forall n w, times n (request n w) = S (times n w).
Proof. intros n w. unfold times, request. cbn [requests]. rewrite count_occ_app. cbn. destruct (string_dec n n); [lia|congruence]. Qed.

Lemma same_Gd : forall n w, Gd n w w.
Proof. intros n w. split; [reflexivity|left; reflexivity]. Qed.

Lemma Rd_stable : forall n (x : option string -> Prop) c w w', x (content [n] w) /\ times n w = c -> Rd n w w' -> x (content [n] w') /\ times n w' = c.
Proof. intros n x c w w' (A & B) (E & F). rewrite E, F. auto. Qed.

Lemma cleanup_ok : forall n c r, result r = None -> ok (Rd n) (Gd n) folder (Ld c n) (Qd r c n) (fun w => times n w = S c) (cleanup n).
Proof.
  intros n c r E. unfold cleanup. apply ok_step.
  - intros w w' _ _ A (_ & F). congruence.
  - intros w _ A. unfold Ld. lia.
  - intros w Fw A. destruct (content [n] w) eqn:C; cbn [fst snd].
    + split; [exact Fw|]. split; [apply same_Gd|]. exists (fun w => times n w = S c). split; [exact A|]. apply ok_step.
      * intros ? ? _ _ A' (_ & F). congruence.
      * intros ? _ A'. unfold Ld. lia.
      * intros v Fv A'. cbn [fst snd]. split; [apply folder_delete; exact Fv|]. split.
        { split; [|left; reflexivity]. intros p N. apply content_delete_other. congruence. }
        exists (fun w => content [n] w = None /\ times n w = S c). split; [split; [apply content_delete_same|exact A']|]. apply ok_done.
        { intros ? ? _ _ H H'. exact (Rd_stable n (fun x => x = None) (S c) _ _ H H'). }
        { intros ? _ (B1 & B2). split; [unfold Ld; lia|split; [exact B2|congruence]]. }
    + split; [exact Fw|]. split; [apply same_Gd|]. exists (fun w => content [n] w = None /\ times n w = S c). split; [split; assumption|]. apply ok_done.
      * intros ? ? _ _ H H'. exact (Rd_stable n (fun x => x = None) (S c) _ _ H H').
      * intros ? _ (B1 & B2). split; [unfold Ld; lia|split; [exact B2|congruence]].
Qed.

Lemma write_ok : forall n c r chunks (fine : bool) acc,
  result r = (if fine then Some (acc ++ String.concat "" chunks)%string else None) ->
  ok (Rd n) (Gd n) folder (Ld c n) (Qd r c n) (fun w => content [n] w = Some acc /\ times n w = S c) (write_all n chunks fine).
Proof.
  intros n c r chunks fine. induction chunks as [|x chunks IH]; intros acc E; cbn [write_all].
  - destruct fine.
    + apply ok_done.
      * intros ? ? _ _ H H'. exact (Rd_stable n (fun x => x = Some acc) (S c) _ _ H H').
      * intros ? _ (B1 & B2). cbn in E. rewrite sapp_nil in E. split; [unfold Ld; lia|split; [exact B2|congruence]].
    + assert (O := cleanup_ok n c r E). inversion O as [|? ? S1 S2 S3]; subst. apply ok_step.
      * intros ? ? _ _ H H'. exact (Rd_stable n (fun x => x = Some acc) (S c) _ _ H H').
      * intros w Fw (_ & A). unfold Ld. lia.
      * intros w Fw (_ & A). exact (S3 w Fw A).
  - apply ok_step.
    + intros ? ? _ _ H H'. exact (Rd_stable n (fun x => x = Some acc) (S c) _ _ H H').
    + intros w Fw (_ & A). unfold Ld. lia.
    + intros w Fw (A & B). cbn [fst snd]. split; [apply folder_append; exact Fw|]. split.
      * split; [intros p N; apply content_append_other; congruence|left; apply requests_append].
      * exists (fun w => content [n] w = Some (acc ++ x)%string /\ times n w = S c). split.
        { rewrite content_append_same, A. split; [reflexivity|]. unfold times. rewrite requests_append. exact B. }
        apply IH. rewrite E, concat_cons, sapp_assoc. reflexivity.
Qed.

Lemma download_ok : forall n c r,
  ok (Rd n) (Gd n) folder (Ld c n) (Qd r c n) (fun w => times n w = c) (download_one r n).
Proof.
  intros n c r. unfold download_one. apply ok_step.
  - intros w w' _ _ A (_ & F). congruence.
  - intros w _ A. unfold Ld. lia.
  - intros w Fw A. cbn [fst snd]. split; [exact Fw|]. split; [split; [reflexivity|right; reflexivity]|].
    exists (fun w => times n w = S c). split; [rewrite times_request, A; reflexivity|].
    destruct r as [| | | |len chunks fine]; try (apply cleanup_ok; reflexivity). apply ok_step.
    + intros ? ? _ _ A' (_ & F). congruence.
    + intros ? _ A'. unfold Ld. lia.
    + intros v Fv A'. cbn [fst snd]. split; [apply folder_put; exact Fv|]. split.
      * split; [intros p N; apply content_put_other; congruence|left; reflexivity].
      * exists (fun w => content [n] w = Some "" /\ times n w = S c). split; [split; [apply content_put_same|exact A']|].
        destruct (Nat.eqb len 0); [|apply write_ok; cbn; destruct fine; reflexivity].
        destruct fine; apply write_ok; cbn; [|reflexivity]. reflexivity.
Qed.

(** What a round of downloads can do. *)
Definition Td (ns : list string) (w w' : world) : Prop :=
  (forall p, (forall n, In n ns -> p <> [n]) -> content p w' = content p w) /\
  (forall n, ~ In n ns -> times n w' = times n w) /\ (forall n, (times n w <= times n w')%nat).
Lemma Td_refl : forall ns w, Td ns w w.
Proof. intros ns w. split; [|split]; auto. Qed.
Lemma Td_trans : forall ns a b c, Td ns a b -> Td ns b c -> Td ns a c.
Proof.
  intros ns a b c (A1 & A2 & A3) (B1 & B2 & B3). split; [|split].
  - intros p H. rewrite B1, A1 by exact H. reflexivity.
  - intros n H. rewrite B2, A2 by exact H. reflexivity.
  - intros n. specialize (A3 n). specialize (B3 n). lia.
Qed.
Lemma Td_incl : forall ns ns' a b, (forall n, In n ns' -> In n ns) -> Td ns' a b -> Td ns a b.
Proof. intros ns ns' a b H (A1 & A2 & A3). split; [|split]; auto. Qed.

Lemma Gd_Td : forall ns n w w', In n ns -> Gd n w w' -> Td ns w w'.
Proof.
  intros ns n w w' I (A & B). split; [|split].
  - intros p H. apply A. apply H. exact I.
  - intros m N. unfold times. destruct B as [->| ->]; [reflexivity|]. rewrite count_occ_app. cbn. destruct (string_dec n m); [subst; contradiction|lia].
  - intros m. unfold times. destruct B as [->| ->]; [lia|]. rewrite count_occ_app. lia.
Qed.

Lemma Gd_Rd : forall n m w w', n <> m -> Gd m w w' -> Rd n w w'.
Proof.
  intros n m w w' N (A & B). split; [apply A; congruence|]. unfold times. destruct B as [->| ->]; [reflexivity|].
  rewrite count_occ_app. cbn. destruct (string_dec m n); [congruence|lia].
Qed.

(** Safe in every case, exact if the names are different. *)
Lemma download_round_safe : forall r ns w w' ps, folder w -> parallel (download_order r) (map (fun n => download_one (replies r n) n) ns) w = (w', ps) ->
  folder w' /\ Td ns w w'.
Proof.
  intros r ns w w' ps F E.
  assert (S : state (fun _ _ _ => True) Gd folder (fun _ _ => True) (fun _ _ => True) ns w (map (fun n => download_one (replies r n) n) ns)).
  { apply state_map. intros n I. exists (fun _ => True). split; [exact Logic.I|].
    assert (CL : ok (fun _ _ => True) (Gd n) folder (fun _ => True) (fun _ => True) (fun _ => True) (cleanup n)).
    { unfold cleanup. apply ok_step; [trivial|trivial|]. intros v Fv _. destruct (content [n] v); cbn [fst snd]; (split; [exact Fv|]); (split; [apply same_Gd|]).
      - exists (fun _ => True). split; [exact Logic.I|]. apply ok_step; [trivial|trivial|]. intros u Fu _. cbn [fst snd]. split; [apply folder_delete; exact Fu|].
        split; [split; [intros p N; apply content_delete_other; congruence|left; reflexivity]|]. exists (fun _ => True). split; [exact Logic.I|]. apply ok_done; auto.
      - exists (fun _ => True). split; [exact Logic.I|]. apply ok_done; auto. }
    assert (WR : forall chunks fine, ok (fun _ _ => True) (Gd n) folder (fun _ => True) (fun _ => True) (fun _ => True) (write_all n chunks fine)).
    { intros chunks fine. induction chunks as [|x chunks IH]; cbn [write_all].
      - destruct fine; [apply ok_done; auto|exact CL].
      - apply ok_step; [trivial|trivial|]. intros u Fu _. cbn [fst snd]. split; [apply folder_append; exact Fu|].
        split; [split; [intros p N; apply content_append_other; congruence|left; apply requests_append]|]. exists (fun _ => True). split; [exact Logic.I|exact IH]. }
    unfold download_one. apply ok_step; [trivial|trivial|]. intros v Fv _. cbn [fst snd]. split; [exact Fv|]. split; [split; [reflexivity|right; reflexivity]|].
    exists (fun _ => True). split; [exact Logic.I|]. destruct (replies r n); try exact CL. apply ok_step; [trivial|trivial|]. intros u Fu _. cbn [fst snd].
    split; [apply folder_put; exact Fu|]. split; [split; [intros p N; apply content_put_other; congruence|left; reflexivity]|]. exists (fun _ => True). split; [exact Logic.I|].
    destruct (Nat.eqb total_length 0); [destruct fine|]; apply WR. }
  destruct (parallel_ok (fun _ _ _ => True) Gd folder (fun _ _ => True) (fun _ _ => True) (Td ns) (Td_refl ns) (Td_trans ns) ns) with (4 := S) (5 := F) (6 := E) as (_ & A & B); auto.
  intros n v v' I _ _. apply Gd_Td. exact I.
Qed.

Lemma download_round_exact : forall r ns w w' ps, NoDup ns -> folder w -> parallel (download_order r) (map (fun n => download_one (replies r n) n) ns) w = (w', ps) ->
  forall n, In n ns -> (times n w' <= S (times n w))%nat /\
    (finished ps = true -> times n w' = S (times n w) /\ content [n] w' = result (replies r n)).
Proof.
  intros r ns w w' ps ND F E.
  set (L := fun n => Ld (times n w) n). set (Q := fun n => Qd (replies r n) (times n w) n).
  assert (S : state Rd Gd folder L Q ns w (map (fun n => download_one (replies r n) n) ns)).
  { apply state_map. intros n I. exists (fun v => times n v = times n w). split; [reflexivity|]. apply download_ok. }
  destruct (parallel_ok Rd Gd folder L Q (fun _ _ => True) (fun _ => Logic.I) (fun _ _ _ _ _ => Logic.I) ns) with (4 := S) (5 := F) (6 := E) as (S' & F' & _); auto.
  { intros n m v v' _ _ N _ _. apply Gd_Rd. exact N. }
  intros n I. split; [exact (state_L _ _ _ _ _ ns w' ps S' F' n I)|]. intros FI. exact (state_Q _ _ _ _ _ ns w' ps S' F' FI n I).
Qed.

(** * Extracting *)

Section Unzip.
  Variable unzip : string -> list (path * string) * bool.
  Hypothesis HA : harmless unzip.

  Lemma member_path : forall d p x, In (p, x) (fst (unzip d)) -> (forall m, zip_name m -> p <> [m]) /\ forall r, p <> ".cache" :: r.
  Proof.
    intros d p x I. destruct (HA d p x I) as (A & B). split; [|exact B]. intros m Z E. exact (A m E Z).
  Qed.

  Definition Tu (w w' : world) : Prop :=
    requests w' = requests w /\ (forall p, (forall m, zip_name m -> p <> [m]) -> content p w <> None -> content p w' <> None).
  Lemma Tu_refl : forall w, Tu w w. Proof. intros w. split; auto. Qed.
  Lemma Tu_trans : forall a b c, Tu a b -> Tu b c -> Tu a c.
  Proof. intros a b c (A1 & A2) (B1 & B2). split; [congruence|]. intros p N H. apply B2; [exact N|]. apply A2; assumption. Qed.

  Definition Gu (n : string) (w w' : world) : Prop :=
    requests w' = requests w /\
    (forall m, zip_name m -> m <> n -> content [m] w' = content [m] w) /\
    (forall c, [".cache"; c] <> cache_path n -> content [".cache"; c] w' = content [".cache"; c] w) /\
    (forall p, p <> [n] -> content p w <> None -> content p w' <> None).
  Definition Ru (n : string) (w w' : world) : Prop :=
    content [n] w' = content [n] w /\ (plain n -> content (cache_path n) w' = content (cache_path n) w) /\
    (forall p, (forall m, zip_name m -> p <> [m]) -> content p w <> None -> content p w' <> None).

  Lemma Gu_Ru : forall n m w w', zip_name n -> zip_name m -> n <> m -> Gu m w w' -> Ru n w w'.
  Proof.
    intros n m w w' Zn Zm N (_ & A & B & C). split; [apply A; assumption|]. split.
    - intros P. destruct (plain_path n P) as (stem & _ & E). rewrite E. apply B. intros E'. apply N. symmetry. apply cache_inj; [exact P|exact Zm|congruence].
    - intros p H. apply C. apply H. exact Zm.
  Qed.
  Lemma Gu_Tu : forall n w w', zip_name n -> Gu n w w' -> Tu w w'.
  Proof. intros n w w' Z (R & _ & _ & C). split; [exact R|]. intros p H. apply C, H, Z. Qed.

  Variable w0 : world.

  Definition Ju (w : world) : Prop :=
    folder w /\
    (forall m, zip_name m -> content [m] w = None \/ content [m] w = content [m] w0) /\
    (forall p x, content p w = Some x -> content p w0 = Some x \/
       (exists m d, zip_name m /\ content [m] w0 = Some d /\ In (p, x) (fst (unzip d))) \/ exists c, p = [".cache"; c]).

  Lemma Ju_start : folder w0 -> Ju w0.
  Proof. intros F. split; [exact F|]. split; auto. Qed.

  Section Task.
    Variables (n d : string).
    Hypotheses (Zn : zip_name n) (Cd : content [n] w0 = Some d).
    Let old := content (cache_path n) w0.

    Definition Lu (w : world) : Prop :=
      (content [n] w = Some d /\ (plain n -> content (cache_path n) w = old)) \/
      (content [n] w = None /\ valid unzip d /\ unpacked unzip d w).
    Definition Qu (w : world) : Prop :=
      valid unzip d -> content [n] w = None /\ (plain n -> content (cache_path n) w <> None) /\ unpacked unzip d w.

    Lemma put_Gu : forall p x w, (forall m, zip_name m -> p <> [m]) -> (forall r, p <> ".cache" :: r) -> Gu n w (put p x w).
    Proof.
      intros p x w N1 N2. split; [reflexivity|]. split; [|split].
      - intros m Z _. apply content_put_other. apply N1. exact Z.
      - intros c _. apply content_put_other. apply N2.
      - intros q _ H. destruct (list_eq_dec string_dec p q) as [<-|N]; [rewrite content_put_same; discriminate|]. rewrite content_put_other by exact N. exact H.
    Qed.

    Lemma put_cache_Gu : forall x w, Gu n w (put (cache_path n) x w).
    Proof.
      intros x w. split; [reflexivity|]. split; [|split].
      - intros m Z _. apply content_put_other. discriminate.
      - intros c N. apply content_put_other. congruence.
      - intros q _ H. destruct (list_eq_dec string_dec (cache_path n) q) as [<-|N]; [rewrite content_put_same; discriminate|]. rewrite content_put_other by exact N. exact H.
    Qed.

    Lemma put_cache_Ju : forall x w, Ju w -> Ju (put (cache_path n) x w).
    Proof.
      intros x w (F & A & B). split; [apply folder_put; exact F|]. split.
      - intros m Z. rewrite content_put_other by discriminate. apply A. exact Z.
      - intros q y E. destruct (list_eq_dec string_dec (cache_path n) q) as [<-|N]; [right; right; eexists; reflexivity|].
        rewrite content_put_other in E by exact N. apply B. exact E.
    Qed.

    Lemma mark_ok : valid unzip d ->
      ok (Ru n) (Gu n) Ju Lu Qu (fun w => content [n] w = Some d /\ (plain n -> content (cache_path n) w = old) /\ unpacked unzip d w) (mark n).
    Proof.
      intros V.
      assert (UN : forall w w', unpacked unzip d w -> Ru n w w' -> unpacked unzip d w').
      { intros w w' U (_ & _ & C) p x I. apply C; [apply (member_path d p x I)|]. exact (U p x I). }
      assert (UG : forall w w', unpacked unzip d w -> Gu n w w' -> unpacked unzip d w').
      { intros w w' U (_ & _ & _ & C) p x I. apply C; [|exact (U p x I)]. apply (proj1 (member_path d p x I)). exact Zn. }
      unfold mark. apply ok_step.
      - intros w w' _ _ (A & B & C) R'. assert (R := R'). destruct R as (R1 & R2 & R3). split; [congruence|]. split; [intros P; rewrite R2 by exact P; apply B; exact P|]. apply (UN w); assumption.
      - intros w _ (A & B & C). left. auto.
      - intros w (F & J1 & J2) (A & B & C). cbn [fst snd].
        assert (GD : Gu n w (delete [n] w)).
        { split; [reflexivity|]. split; [|split].
          - intros m Z N. apply content_delete_other. congruence.
          - intros c _. apply content_delete_other. discriminate.
          - intros p N H. rewrite content_delete_other by congruence. exact H. }
        split; [|split; [exact GD|]].
        { split; [apply folder_delete; exact F|]. split.
          - intros m Z. destruct (string_dec m n) as [->|N]; [left; apply content_delete_same|]. rewrite content_delete_other by congruence. apply J1. exact Z.
          - intros p x E. destruct (list_eq_dec string_dec [n] p) as [<-|N]; [rewrite content_delete_same in E; discriminate|].
            rewrite content_delete_other in E by exact N. apply J2. exact E. }
        exists (fun w => content [n] w = None /\ unpacked unzip d w). split; [split; [apply content_delete_same|apply (UG w); assumption]|].
        apply ok_step.
        { intros v v' _ _ (A' & C') R. split; [destruct R; congruence|apply (UN v); assumption]. }
        { intros v _ (A' & C'). right. auto. }
        intros v Jv (A' & C'). cbn [fst snd]. split; [apply put_cache_Ju; exact Jv|]. split; [apply put_cache_Gu|].
        exists (fun w => content [n] w = None /\ (plain n -> content (cache_path n) w <> None) /\ unpacked unzip d w). split.
        { split; [rewrite content_put_other by discriminate; exact A'|]. split; [intros _; rewrite content_put_same; discriminate|].
          apply (UG v); [exact C'|apply put_cache_Gu]. }
        apply ok_step.
        { intros u u' _ _ (A2 & B2 & C2) R'. assert (R := R'). destruct R as (R1 & R2 & _). split; [congruence|]. split; [intros P; rewrite R2 by exact P; apply B2; exact P|apply (UN u); assumption]. }
        { intros u _ (A2 & B2 & C2). right. auto. }
        intros u Ju' (A2 & B2 & C2). cbn [fst snd].
        assert (AP : Ju (append (cache_path n) "complete" u) /\ Gu n u (append (cache_path n) "complete" u)).
        { unfold append. destruct (content (cache_path n) u); [split; [apply put_cache_Ju; exact Ju'|apply put_cache_Gu]|].
          split; [exact Ju'|]. split; [reflexivity|]. split; [|split]; auto. }
        destruct AP as (AP1 & AP2). split; [exact AP1|]. split; [exact AP2|].
        exists (fun w => content [n] w = None /\ (plain n -> content (cache_path n) w <> None) /\ unpacked unzip d w). split.
        { split; [rewrite content_append_other by discriminate; exact A2|]. split; [|apply (UG u); assumption].
          intros P. rewrite content_append_same. specialize (B2 P). destruct (content (cache_path n) u); [discriminate|congruence]. }
        apply ok_done.
        { intros u1 u1' _ _ (A3 & B3 & C3) R'. assert (R := R'). destruct R as (R1 & R2 & _). split; [congruence|]. split; [intros P; rewrite R2 by exact P; apply B3; exact P|apply (UN u1); assumption]. }
        { intros u1 _ (A3 & B3 & C3). split; [right; auto|]. intros _. auto. }
    Qed.

    Lemma extract_ok : forall members seen fine, fst (unzip d) = seen ++ members -> fine = snd (unzip d) ->
      ok (Ru n) (Gu n) Ju Lu Qu
         (fun w => content [n] w = Some d /\ (plain n -> content (cache_path n) w = old) /\ forall p x, In (p, x) seen -> content p w <> None)
         (extract n members fine).
    Proof.
      intros members. induction members as [|(p & x) members IH]; intros seen fine E Ef; cbn [extract].
      - rewrite app_nil_r in E. destruct fine.
        + rewrite <- E. exact (mark_ok (eq_sym Ef)).
        + apply ok_done.
          * intros w w' Jw Jw' (A & B & C) R'. assert (R := R'). destruct R as (R1 & R2 & R3). split; [congruence|]. split; [intros P; rewrite R2 by exact P; apply B; exact P|].
            intros q y I. apply R3; [|exact (C q y I)]. rewrite <- E in I. apply (member_path d q y I).
          * intros w _ (A & B & _). split; [left; auto|]. unfold Qu, valid. congruence.
      - assert (MP : forall q y, In (q, y) (seen ++ [(p, x)]) -> (forall m, zip_name m -> q <> [m]) /\ forall r, q <> ".cache" :: r).
        { intros q y I. apply (member_path d q y). rewrite E. apply in_app_or in I. apply in_or_app. destruct I as [I|[I|[]]]; [left; exact I|right; left; exact I]. }
        apply ok_step.
        + intros w w' Jw Jw' (A & B & C) R'. assert (R := R'). destruct R as (R1 & R2 & R3). split; [congruence|]. split; [intros P; rewrite R2 by exact P; apply B; exact P|].
          intros q y I. apply R3; [|exact (C q y I)]. apply (MP q y). apply in_or_app. left. exact I.
        + intros w _ (A & B & _). left. auto.
        + intros w (F & J1 & J2) (A & B & C). cbn [fst snd].
          destruct (MP p x) as (M1 & M2); [apply in_or_app; right; left; reflexivity|].
          split; [|split; [apply put_Gu; assumption|]].
          { split; [apply folder_put; exact F|]. split.
            - intros m Z. rewrite content_put_other by (apply M1; exact Z). apply J1. exact Z.
            - intros q y Eq. destruct (list_eq_dec string_dec p q) as [<-|N].
              + rewrite content_put_same in Eq. injection Eq as <-. right. left. exists n, d. split; [exact Zn|]. split; [exact Cd|]. rewrite E. apply in_or_app. right. left. reflexivity.
              + rewrite content_put_other in Eq by exact N. apply J2. exact Eq. }
          exists (fun w => content [n] w = Some d /\ (plain n -> content (cache_path n) w = old) /\ forall p0 x0, In (p0, x0) (seen ++ [(p, x)]) -> content p0 w <> None). split.
          { split; [rewrite content_put_other by (apply M1; exact Zn); exact A|]. split; [intros P; rewrite content_put_other by (apply M2); apply B; exact P|].
            intros q y I. destruct (list_eq_dec string_dec p q) as [<-|N]; [rewrite content_put_same; discriminate|]. rewrite content_put_other by exact N.
            apply in_app_or in I. destruct I as [I|[I|[]]]; [exact (C q y I)|congruence]. }
          apply IH; [rewrite E, <- app_assoc; reflexivity|exact Ef].
    Qed.

    Lemma cutoff_ok : forall R G J (L Q : world -> Prop) k P p, ok R G J L Q P p -> ok R G J L (fun _ => True) P (cutoff k p).
    Proof.
      intros R G J L Q k. induction k as [|k IH]; intros P p O.
      - cbn. inversion O as [? A B|? ? A B C]; subst; apply ok_done; try exact A; intros w Jw Pw; (split; [|exact Logic.I]); [apply (B w Jw Pw)|exact (B w Jw Pw)].
      - destruct p as [|f]; cbn [cutoff]; inversion O as [? A B|? ? A B C]; subst.
        + apply ok_done; [exact A|]. intros w Jw Pw. split; [|exact Logic.I]. apply (B w Jw Pw).
        + apply ok_step; [exact A|exact B|]. intros w Jw Pw. destruct (C w Jw Pw) as (C1 & C2 & P' & C3 & C4). destruct (f w) as [w' p'] eqn:Ef. cbn [fst snd] in *.
          split; [exact C1|]. split; [exact C2|]. exists P'. split; [exact C3|]. apply IH. exact C4.
    Qed.

    Lemma unzip_ok : forall error,
      ok (Ru n) (Gu n) Ju Lu (fun w => error = None -> Qu w) (fun w => content [n] w = Some d /\ (plain n -> content (cache_path n) w = old)) (unzip_one unzip error n).
    Proof.
      intros error.
      assert (O : ok (Ru n) (Gu n) Ju Lu Qu (fun w => content [n] w = Some d /\ (plain n -> content (cache_path n) w = old))
        (Step (fun w => match content [n] w with
           | Some data => let (members, fine) := unzip data in (w, extract n members fine)
           | None => (w, Done) end))).
      { apply ok_step.
        - intros w w' _ _ (A & B) (R1 & R2 & _). split; [congruence|]. intros P. rewrite R2 by exact P. apply B. exact P.
        - intros w _ H. left. exact H.
        - intros w Jw (A & B). rewrite A. destruct (unzip d) as [members fine] eqn:U. cbn [fst snd]. split; [exact Jw|]. split.
          { split; [reflexivity|]. split; [|split]; auto. }
          exists (fun w => content [n] w = Some d /\ (plain n -> content (cache_path n) w = old) /\ forall p x, In (p, x) (@nil (path * string)) -> content p w <> None).
          split; [split; [exact A|split; [exact B|intros ? ? []]]|]. apply extract_ok; rewrite U; reflexivity. }
      unfold unzip_one. destruct error as [k|].
      - assert (W : forall P p, ok (Ru n) (Gu n) Ju Lu (fun _ => True) P p -> ok (Ru n) (Gu n) Ju Lu (fun w => Some k = None -> Qu w) P p).
        { fix REC 3. intros P p H. destruct H as [P A B|P f A B C].
          - apply ok_done; [exact A|]. intros w Jw Pw. split; [apply (B w Jw Pw)|discriminate].
          - apply ok_step; [exact A|exact B|]. intros w Jw Pw. destruct (C w Jw Pw) as (C1 & C2 & P' & C3 & C4).
            split; [exact C1|]. split; [exact C2|]. exists P'. split; [exact C3|]. apply REC. exact C4. }
        apply W. eapply cutoff_ok. exact O.
      - assert (W : forall P p, ok (Ru n) (Gu n) Ju Lu Qu P p -> ok (Ru n) (Gu n) Ju Lu (fun w => @None nat = None -> Qu w) P p).
        { fix REC 3. intros P p H. destruct H as [P A B|P f A B C].
          - apply ok_done; [exact A|]. intros w Jw Pw. destruct (B w Jw Pw). split; auto.
          - apply ok_step; [exact A|exact B|]. intros w Jw Pw. destruct (C w Jw Pw) as (C1 & C2 & P' & C3 & C4).
            split; [exact C1|]. split; [exact C2|]. exists P'. split; [exact C3|]. apply REC. exact C4. }
        apply W. exact O.
    Qed.
  End Task.

  Lemma unzip_round_ok : forall r w ps, folder w0 ->
    parallel (unzip_order r) (map (fun n => unzip_one unzip (errors r n) n) (existing_zips w0)) w0 = (w, ps) ->
    Ju w /\ Tu w0 w /\
    (forall c, (forall n, zip_name n -> present n w0 -> [".cache"; c] <> cache_path n) -> content [".cache"; c] w = content [".cache"; c] w0) /\
    forall n d, zip_name n -> content [n] w0 = Some d -> Lu n d w /\ (finished ps = true -> errors r n = None -> Qu n d w).
  Proof.
    intros r w ps F E.
    set (L := fun n v => forall d, content [n] w0 = Some d -> Lu n d v).
    set (Q := fun n v => forall d, content [n] w0 = Some d -> errors r n = None -> Qu n d v).
    set (T := fun v v' => Tu v v' /\ forall c, (forall n, zip_name n -> present n w0 -> [".cache"; c] <> cache_path n) -> content [".cache"; c] v' = content [".cache"; c] v).
    assert (S : state Ru Gu Ju L Q (existing_zips w0) w0 (map (fun n => unzip_one unzip (errors r n) n) (existing_zips w0))).
    { apply state_map. intros n I. apply existing_spec in I. destruct I as (Z & P). unfold present in P. destruct (content [n] w0) as [d|] eqn:C; [|congruence].
      exists (fun w => content [n] w = Some d /\ (plain n -> content (cache_path n) w = content (cache_path n) w0)). split; [auto|].
      assert (W : forall P p, ok (Ru n) (Gu n) Ju (Lu n d) (fun w => errors r n = None -> Qu n d w) P p -> ok (Ru n) (Gu n) Ju (L n) (Q n) P p).
      { fix REC 3. intros P' p H. destruct H as [P' A B|P' f A B C'].
        - apply ok_done; [exact A|]. intros v Jv Pv. destruct (B v Jv Pv). split; intros d' E'; assert (d' = d) by congruence; subst; assumption.
        - apply ok_step; [exact A| |].
          + intros v Jv Pv d' E'. assert (d' = d) by congruence. subst. apply (B v Jv Pv).
          + intros v Jv Pv. destruct (C' v Jv Pv) as (C1 & C2 & P2 & C3 & C4). split; [exact C1|]. split; [exact C2|]. exists P2. split; [exact C3|]. apply REC. exact C4. }
      apply W. apply unzip_ok; assumption. }
    assert (ZI : forall n, In n (existing_zips w0) -> zip_name n) by (intros n I; apply existing_spec in I; apply I).
    destruct (parallel_ok Ru Gu Ju L Q T) with (ns := existing_zips w0) (6 := S) (7 := Ju_start F) (8 := E) as (S' & J' & T1 & T2).
    - intros v. split; [apply Tu_refl|reflexivity].
    - intros a b c (A1 & A2) (B1 & B2). split; [eapply Tu_trans; eassumption|]. intros x H. rewrite B2, A2 by exact H. reflexivity.
    - intros n v v' I _ _ G. split; [apply (Gu_Tu n); [apply ZI; exact I|exact G]|]. intros c H. apply existing_spec in I. apply G. apply H; apply I.
    - intros n m v v' I1 I2 N _ _. apply Gu_Ru; auto.
    - left. apply existing_nodup. exact F.
    - split; [exact J'|]. split; [exact T1|]. split; [exact T2|]. intros n d Z C.
      assert (I : In n (existing_zips w0)) by (apply existing_spec; split; [exact Z|unfold present; congruence]). split.
      + exact (state_L _ _ _ _ _ _ _ _ S' J' n I d C).
      + intros FI Er. exact (state_Q _ _ _ _ _ _ _ _ S' J' FI n I d C Er).
  Qed.
End Unzip.

(** * The download phase *)

Lemma marks_kept : forall ns w w', Td ns w w' -> forall c, content [".cache"; c] w' = content [".cache"; c] w.
Proof. intros ns w w' (A & _) c. apply A. intros n _. discriminate. Qed.

Lemma remaining_shrinks : forall c w w', Td (remaining c w) w w' -> forall n, In n (remaining c w') -> In n (remaining c w).
Proof.
  intros c w w' T n I. apply remaining_spec in I. destruct I as (I1 & I2 & I3). destruct (in_dec string_dec n (remaining c w)) as [Y|N]; [exact Y|exfalso].
  assert (E : content [n] w' = content [n] w) by (apply T; intros m M E; injection E as ->; contradiction).
  apply N. apply remaining_spec. split; [exact I1|]. split.
  - intros (Z & P). apply I2. split; [exact Z|]. unfold present in *. congruence.
  - intros X. apply I3. apply (extracted_marks n w w'); [|exact X]. intros x. rewrite (marks_kept _ _ _ T). reflexivity.
Qed.

Lemma download_loop_safe : forall rounds c fuel k w w' e, folder w -> download_loop rounds c fuel k (remaining c w) w = (w', e) ->
  folder w' /\ Td (remaining c w) w w'.
Proof.
  intros rounds c fuel. induction fuel as [|fuel IH]; intros k w w' e F E; cbn [download_loop] in E.
  - injection E as <- _. split; [exact F|apply Td_refl].
  - destruct (parallel _ _ w) as [w1 ps] eqn:P. destruct (download_round_safe _ _ _ _ _ F P) as (F1 & T1).
    destruct (finished ps); [|injection E as <- _; auto].
    destruct (Nat.eqb _ 0); [injection E as <- _; auto|]. destruct (IH _ _ _ _ F1 E) as (F' & T'). split; [exact F'|].
    apply (Td_trans _ w w1 w'); [exact T1|]. apply (Td_incl _ (remaining c w1)); [apply remaining_shrinks; exact T1|exact T'].
Qed.

Lemma length_0 : forall A (l : list A), Nat.eqb (List.length l) 0 = true -> l = [].
Proof. intros A [|x l] H; [reflexivity|discriminate]. Qed.

Lemma download_loop_times : forall rounds c fuel k w w' e, NoDup (listed c) -> folder w -> download_loop rounds c fuel k (remaining c w) w = (w', e) ->
  forall n, (times n w' <= times n w + fuel)%nat.
Proof.
  intros rounds c fuel. induction fuel as [|fuel IH]; intros k w w' e ND F E n; cbn [download_loop] in E.
  - injection E as <- _. lia.
  - destruct (parallel _ _ w) as [w1 ps] eqn:P. destruct (download_round_safe _ _ _ _ _ F P) as (F1 & T1).
    assert (B : (times n w1 <= S (times n w))%nat).
    { destruct (in_dec string_dec n (remaining c w)) as [Y|N]; [apply (download_round_exact _ _ _ _ _ (remaining_nodup c w ND) F P n Y)|].
      destruct T1 as (_ & T1 & _). rewrite T1 by exact N. lia. }
    destruct (finished ps); [|injection E as <- _; lia].
    destruct (Nat.eqb _ 0); [injection E as <- _; lia|]. assert (H := IH _ _ _ _ ND F1 E n). lia.
Qed.

Lemma result_whole : forall r x, result r = Some x <-> whole r x.
Proof.
  intros r x. unfold whole. split.
  - destruct r as [| | | |l chunks [|]]; try discriminate. cbn. intros E. injection E as <-. eauto.
  - intros (l & chunks & -> & ->). reflexivity.
Qed.
Lemma result_noticed : forall r, result r = None <-> noticed r.
Proof. intros r. unfold noticed. destruct r as [| | | |l chunks [|]]; cbn; split; intros; try reflexivity; try exact Logic.I; congruence. Qed.

(** An archive that is missing: the first whole answer is kept. *)
Lemma download_loop_result : forall rounds c fuel k w w' e, NoDup (listed c) -> folder w -> download_loop rounds c fuel k (remaining c w) w = (w', e) -> e <> Stopped ->
  forall n, In n (remaining c w) -> zip_name n -> (fuel <> 0)%nat ->
  (exists j, (k <= j < k + fuel)%nat /\ content [n] w' = result (replies (rounds j) n) /\ content [n] w' <> None /\
     forall i, (k <= i < j)%nat -> result (replies (rounds i) n) = None) \/
  (content [n] w' = None /\ forall j, (k <= j < k + fuel)%nat -> result (replies (rounds j) n) = None).
Proof.
  intros rounds c fuel. induction fuel as [|fuel IH]; intros k w w' e ND F E NS n I Z NZ; [contradiction|]. clear NZ. cbn [download_loop] in E.
  destruct (parallel _ _ w) as [w1 ps] eqn:P. destruct (download_round_safe _ _ _ _ _ F P) as (F1 & T1).
  destruct (download_round_exact _ _ _ _ _ (remaining_nodup c w ND) F P n I) as (_ & EX).
  destruct (finished ps) eqn:FI; [|injection E as _ <-; contradiction]. destruct (EX eq_refl) as (_ & C). clear EX.
  assert (I' := I). apply remaining_spec in I'. destruct I' as (I1 & I2 & I3).
  assert (KEEP : forall w2, Td (remaining c w1) w1 w2 -> content [n] w1 <> None -> content [n] w2 = content [n] w1).
  { intros w2 (A & _) H. apply A. intros m M Em. injection Em as ->. apply remaining_spec in M. apply (proj1 (proj2 M)). split; assumption. }
  destruct (result (replies (rounds k) n)) as [x|] eqn:R.
  - left. exists k. split; [lia|]. rewrite R.
    assert (C' : content [n] w' = Some x).
    { destruct (Nat.eqb _ 0); [injection E as <- _; exact C|]. destruct (download_loop_safe _ _ _ _ _ _ _ F1 E) as (_ & T').
      rewrite (KEEP w' T') by congruence. exact C. }
    split; [exact C'|]. split; [congruence|]. intros i H. lia.
  - assert (M : In n (remaining c w1)).
    { apply remaining_spec. split; [exact I1|]. split; [intros (_ & H); apply H; exact C|]. intros X. apply I3. apply (extracted_marks n w w1) in X; [exact X|].
      intros y. rewrite (marks_kept _ _ _ T1). reflexivity. }
    destruct (Nat.eqb _ 0) eqn:L0; [apply length_0 in L0; rewrite L0 in M; destruct M|].
    destruct fuel as [|fuel].
    + cbn in E. injection E as <- _. right. split; [exact C|]. intros j H. assert (j = k) by lia. subst. exact R.
    + destruct (IH _ _ _ _ ND F1 E NS n M Z) as [(j & H & A & B & D)|(A & B)]; [lia| |].
      * left. exists j. split; [lia|]. split; [exact A|]. split; [exact B|]. intros i Hi. destruct (Nat.eq_dec i k) as [->|N]; [exact R|apply D; lia].
      * right. split; [exact A|]. intros j H. destruct (Nat.eq_dec j k) as [->|N]; [exact R|apply B; lia].
Qed.

(** A name that the script does not recognise is always missing. *)
Lemma download_loop_untracked : forall rounds c fuel k w w' e, NoDup (listed c) -> folder w -> download_loop rounds c fuel k (remaining c w) w = (w', e) -> e <> Stopped ->
  forall n, In n (listed c) -> (forall stem, n <> (stem ++ ".zip")%string) -> times n w' = (times n w + fuel)%nat /\ exists left, e = Unable left /\ (0 < left)%nat.
Proof.
  intros rounds c fuel k w w' e ND F E NS n I Z.
  assert (M : forall v, In n (remaining c v)).
  { intros v. apply remaining_spec. split; [exact I|]. split; [intros (((stem & H) & _) & _); exact (Z stem H)|]. intros X. apply extracted_zip in X. destruct X as (stem & X). exact (Z stem X). }
  revert k w w' e F E NS. induction fuel as [|fuel IH]; intros k w w' e F E NS; cbn [download_loop] in E.
  - injection E as <- <-. split; [lia|]. specialize (M w). destruct (remaining c w) as [|y l]; [destruct M|]. cbn. eexists. split; [reflexivity|lia].
  - destruct (parallel _ _ w) as [w1 ps] eqn:P. destruct (download_round_safe _ _ _ _ _ F P) as (F1 & T1).
    destruct (download_round_exact _ _ _ _ _ (remaining_nodup c w ND) F P n (M w)) as (_ & EX).
    destruct (finished ps) eqn:FI; [|injection E as _ <-; contradiction]. destruct (EX eq_refl) as (C & _).
    destruct (Nat.eqb _ 0) eqn:L0; [apply length_0 in L0; specialize (M w1); rewrite L0 in M; destruct M|].
    destruct (IH _ _ _ _ F1 E NS) as (A & B). split; [lia|exact B].
Qed.

(** * The extraction phase *)

Section UnzipLoop.
  Variable unzip : string -> list (path * string) * bool.
  Hypothesis HA : harmless unzip.

  (** An error before the archive is deleted leaves it there. *)
  Definition early (error : option nat) (d : string) : Prop := retried unzip error d.

  Lemma early_keeps : forall w0 n d, zip_name n -> content [n] w0 = Some d -> forall k, (k <= S (List.length (fst (unzip d))))%nat ->
    ok (Ru n) (Gu n) (Ju unzip w0) (fun _ => True) (fun w => content [n] w = Some d) (fun w => content [n] w = Some d) (unzip_one unzip (Some k) n).
  Proof.
    intros w0 n d Z C k K.
    assert (ST : forall w w', Ju unzip w0 w -> Ju unzip w0 w' -> content [n] w = Some d -> Ru n w w' -> content [n] w' = Some d) by (intros w w' _ _ A (R & _); congruence).
    assert (EX : forall members seen fine j, fst (unzip d) = seen ++ members -> (j <= List.length members)%nat ->
      ok (Ru n) (Gu n) (Ju unzip w0) (fun _ => True) (fun w => content [n] w = Some d) (fun w => content [n] w = Some d) (cutoff j (extract n members fine))).
    { intros members. induction members as [|(p & x) members IH]; intros seen fine j E J.
      - cbn in J. assert (j = 0)%nat by lia. subst j. cbn. apply ok_done; [exact ST|auto].
      - destruct j as [|j]; [cbn; apply ok_done; [exact ST|auto]|]. cbn [extract cutoff]. apply ok_step; [exact ST|auto|]. intros w (F & J1 & J2) A. cbn [fst snd].
        assert (MI : In (p, x) (fst (unzip d))) by (rewrite E; apply in_or_app; right; left; reflexivity).
        destruct (member_path unzip HA d p x MI) as (M1 & M2).
        split; [|split; [apply put_Gu; assumption|]].
        { split; [apply folder_put; exact F|]. split.
          - intros m Zm. rewrite content_put_other by (apply M1; exact Zm). apply J1. exact Zm.
          - intros q y Eq. destruct (list_eq_dec string_dec p q) as [<-|N].
            + rewrite content_put_same in Eq. injection Eq as <-. right. left. exists n, d. auto.
            + rewrite content_put_other in Eq by exact N. apply J2. exact Eq. }
        exists (fun w => content [n] w = Some d). split; [rewrite content_put_other by (apply M1; exact Z); exact A|].
        apply (IH (seen ++ [(p, x)])); [rewrite E, <- app_assoc; reflexivity|cbn in J; lia]. }
    unfold unzip_one. destruct k as [|k]; [cbn; apply ok_done; [exact ST|auto]|]. cbn [cutoff]. apply ok_step; [exact ST|auto|].
    intros w Jw A. rewrite A. destruct (unzip d) as [members fine] eqn:U. cbn [fst snd]. split; [exact Jw|]. split.
    { split; [reflexivity|]. split; [|split]; auto. }
    exists (fun w => content [n] w = Some d). split; [exact A|]. apply (EX members []); [reflexivity|cbn in K; lia].
  Qed.

  Lemma early_round : forall w0 r w ps, folder w0 ->
    parallel (unzip_order r) (map (fun n => unzip_one unzip (errors r n) n) (existing_zips w0)) w0 = (w, ps) -> finished ps = true ->
    forall n d k, zip_name n -> content [n] w0 = Some d -> errors r n = Some k -> early (Some k) d -> content [n] w = Some d.
  Proof.
    intros w0 r w ps F E FI n d k Z C Er EA.
    set (Q := fun m v => m = n -> content [n] v = Some d).
    assert (S : state Ru Gu (Ju unzip w0) (fun _ _ => True) Q (existing_zips w0) w0 (map (fun n => unzip_one unzip (errors r n) n) (existing_zips w0))).
    { apply state_map. intros m I. apply existing_spec in I. destruct I as (Zm & Pm). unfold present in Pm. destruct (content [m] w0) as [dm|] eqn:Cm; [|congruence].
      destruct (string_dec m n) as [->|N].
      - exists (fun w => content [n] w = Some d). split; [exact C|]. rewrite Er.
        assert (W : forall P p, ok (Ru n) (Gu n) (Ju unzip w0) (fun _ => True) (fun w => content [n] w = Some d) P p -> ok (Ru n) (Gu n) (Ju unzip w0) (fun _ => True) (Q n) P p).
        { fix REC 3. intros P' p H. destruct H as [P' A B|P' f A B C'].
          - apply ok_done; [exact A|]. intros v Jv Pv. split; [exact Logic.I|]. intros _. apply (B v Jv Pv).
          - apply ok_step; [exact A|exact B|].
            intros v Jv Pv. destruct (C' v Jv Pv) as (C1 & C2 & P2 & C3 & C4). split; [exact C1|]. split; [exact C2|]. exists P2. split; [exact C3|]. apply REC. exact C4. }
        apply W. apply early_keeps; assumption.
      - exists (fun w => content [m] w = Some dm /\ (plain m -> content (cache_path m) w = content (cache_path m) w0)). split; [auto|].
        assert (W : forall P p L q, ok (Ru m) (Gu m) (Ju unzip w0) L q P p -> ok (Ru m) (Gu m) (Ju unzip w0) (fun _ => True) (Q m) P p).
        { fix REC 5. intros P' p L q H. destruct H as [P' A B|P' f A B C'].
          - apply ok_done; [exact A|]. intros v Jv Pv. split; [exact Logic.I|]. intros X. contradiction.
          - apply ok_step; [exact A|auto|].
            intros v Jv Pv. destruct (C' v Jv Pv) as (C1 & C2 & P2 & C3 & C4). split; [exact C1|]. split; [exact C2|]. exists P2. split; [exact C3|]. apply (REC P2 _ L q). exact C4. }
        eapply W. apply unzip_ok; assumption. }
    assert (ZI : forall n, In n (existing_zips w0) -> zip_name n) by (intros m I; apply existing_spec in I; apply I).
    destruct (parallel_ok Ru Gu (Ju unzip w0) (fun _ _ => True) Q (fun _ _ => True) (fun _ => Logic.I) (fun _ _ _ _ _ => Logic.I) (existing_zips w0)) with (4 := S) (5 := Ju_start unzip w0 F) (6 := E) as (S' & J' & _); auto.
    { intros a b v v' I1 I2 N _ _. apply Gu_Ru; auto. }
    { left. apply existing_nodup. exact F. }
    apply (state_Q _ _ _ _ _ _ _ _ S' J' FI n); [apply existing_spec; split; [exact Z|unfold present; congruence]|reflexivity].
  Qed.

  Lemma Ju_trans : forall a b c, Ju unzip a b -> Ju unzip b c -> Ju unzip a c.
  Proof.
    intros a b c (_ & A2 & A3) (B1 & B2 & B3). split; [exact B1|]. split.
    - intros m Z. destruct (B2 m Z) as [H|H]; [left; exact H|]. rewrite H. apply A2. exact Z.
    - intros p x E. destruct (B3 p x E) as [H|[(m & d & Z & C & I)|H]]; [apply A3; exact H| |right; right; exact H].
      right. left. exists m, d. split; [exact Z|]. split; [|exact I]. destruct (A2 m Z) as [H|H]; congruence.
  Qed.

  Lemma unpacked_kept : forall d w w', Tu w w' -> unpacked unzip d w -> unpacked unzip d w'.
  Proof. intros d w w' (_ & T) U p x I. apply T; [apply (member_path unzip HA d p x I)|exact (U p x I)]. Qed.

  Lemma cache_kept : forall n w w', Tu w w' -> content (cache_path n) w <> None -> content (cache_path n) w' <> None.
  Proof. intros n w w' (_ & T). apply T. intros m _. discriminate. Qed.

  Lemma unzip_loop_ok : forall rounds c fuel k w w' e, folder w -> unzip_loop unzip rounds c fuel k (existing_zips w) w = (w', e) ->
    Ju unzip w w' /\ Tu w w' /\
    (forall x, (forall n, zip_name n -> present n w -> [".cache"; x] <> cache_path n) -> content [".cache"; x] w' = content [".cache"; x] w) /\
    (forall n d, zip_name n -> content [n] w = Some d -> Lu unzip w n d w') /\
    (e <> Stopped -> forall n d, zip_name n -> content [n] w = Some d ->
       (exists j, (k <= j < k + fuel)%nat /\ errors (rounds j) n = None /\ forall i, (k <= i < j)%nat -> early (errors (rounds i) n) d) -> Qu unzip n d w').
  Proof.
    intros rounds c fuel. induction fuel as [|fuel IH]; intros k w w' e F E; cbn [unzip_loop] in E.
    - cbn in E. injection E as <- _. split; [apply Ju_start; exact F|]. split; [apply Tu_refl|]. split; [reflexivity|]. split.
      + intros n d Z C. left. auto.
      + intros _ n d Z C (j & H & _). lia.
    - destruct (parallel _ _ w) as [w1 ps] eqn:P. destruct (unzip_round_ok unzip HA w _ _ _ F P) as (J1 & T1 & X1 & B1).
      assert (F1 : folder w1) by apply J1.
      destruct (finished ps) eqn:FI.
      2: { injection E as <- <-. split; [exact J1|]. split; [exact T1|]. split; [exact X1|]. split; [intros n d Z C; apply B1; assumption|]. congruence. }
      (* what holds after the later rounds *)
      assert (REST : Ju unzip w1 w' /\ Tu w1 w' /\
        (forall x, (forall n, zip_name n -> present n w1 -> [".cache"; x] <> cache_path n) -> content [".cache"; x] w' = content [".cache"; x] w1) /\
        (forall n d, zip_name n -> content [n] w1 = Some d -> Lu unzip w1 n d w') /\
        (e <> Stopped -> forall n d, zip_name n -> content [n] w1 = Some d ->
           (exists j, (S k <= j < S k + fuel)%nat /\ errors (rounds j) n = None /\ forall i, (S k <= i < j)%nat -> early (errors (rounds i) n) d) -> Qu unzip n d w')).
      { destruct (Nat.eqb _ 0) eqn:L0; [|exact (IH _ _ _ _ F1 E)]. injection E as <- <-. split; [apply Ju_start; exact F1|]. split; [apply Tu_refl|]. split; [reflexivity|]. split.
        - intros n d Z C. left. auto.
        - intros _ n d Z C. exfalso. apply length_0 in L0. assert (I : In n (existing_zips w1)) by (apply existing_spec; split; [exact Z|unfold present; congruence]).
          rewrite L0 in I. destruct I. }
      destruct REST as (J2 & T2 & X2 & L2 & Q2).
      assert (GONE : forall n, zip_name n -> content [n] w1 = None -> content [n] w' = None).
      { intros n Z C. destruct (proj1 (proj2 J2) n Z) as [H|H]; congruence. }
      split; [exact (Ju_trans _ _ _ J1 J2)|]. split; [exact (Tu_trans _ _ _ T1 T2)|]. split; [|split].
      + intros x H. rewrite X2, X1; [reflexivity|exact H|]. intros n Z Pn. apply H; [exact Z|]. unfold present in *. destruct (proj1 (proj2 J1) n Z) as [A|A]; congruence.
      + intros n d Z C. destruct (B1 n d Z C) as ([(A & B)|(A & V & U)] & _).
        * destruct (L2 n d Z A) as [(A' & B')|(A' & V' & U')]; [left; split; [exact A'|]; intros Pl; rewrite (B' Pl); apply B; exact Pl|right; auto].
        * right. split; [apply GONE; assumption|]. split; [exact V|]. apply (unpacked_kept d w1 w'); assumption.
      + intros NS n d Z C (j & H & Er & EA). destruct (Nat.eq_dec j k) as [->|N].
        * destruct (B1 n d Z C) as (_ & QQ). specialize (QQ eq_refl Er). intros V. destruct (QQ V) as (A & B & U).
          split; [apply GONE; assumption|]. split; [intros Pl; apply (cache_kept n w1 w' T2); apply B; exact Pl|]. apply (unpacked_kept d w1 w'); assumption.
        * destruct (errors (rounds k) n) as [kk|] eqn:Ek.
          -- assert (C1 : content [n] w1 = Some d).
             { apply (early_round w (rounds k) w1 ps F P FI n d kk Z C Ek). rewrite <- Ek. apply EA. lia. }
             apply (Q2 NS n d Z C1). exists j. split; [lia|]. split; [exact Er|]. intros i Hi. apply EA. lia.
          -- destruct (B1 n d Z C) as (_ & QQ). specialize (QQ eq_refl Ek). intros V. destruct (QQ V) as (A & B & U).
             split; [apply GONE; assumption|]. split; [intros Pl; apply (cache_kept n w1 w' T2); apply B; exact Pl|]. apply (unpacked_kept d w1 w'); assumption.
  Qed.
End UnzipLoop.

(** * Runs *)

Lemma download_end : forall rounds c fuel k w w' e, download_loop rounds c fuel k (remaining c w) w = (w', e) -> e <> Stopped -> (fuel <> 0)%nat ->
  (e = Complete /\ remaining c w' = []) \/ (e = Unable (List.length (remaining c w')) /\ remaining c w' <> []).
Proof.
  intros rounds c fuel. induction fuel as [|fuel IH]; intros k w w' e E NS NZ; [contradiction|]. clear NZ. cbn [download_loop] in E.
  destruct (parallel _ _ w) as [w1 ps]. destruct (finished ps); [|injection E as _ <-; contradiction].
  destruct (Nat.eqb _ 0) eqn:L0; [injection E as <- <-; left; split; [reflexivity|apply length_0; exact L0]|].
  destruct fuel as [|fuel]; [|apply (IH _ _ _ _ E NS); discriminate]. cbn [download_loop] in E. cbv zeta in E. injection E as <- <-. right. clear NS.
  destruct (remaining c w1) as [|x l]; [discriminate|]. split; [reflexivity|discriminate].
Qed.

Lemma unzip_end : forall unzip rounds c fuel k w w' e, unzip_loop unzip rounds c fuel k (existing_zips w) w = (w', e) -> e <> Stopped -> (fuel <> 0)%nat ->
  (e = Complete <-> existing_zips w' = []).
Proof.
  intros unzip rounds c fuel. induction fuel as [|fuel IH]; intros k w w' e E NS NZ; [contradiction|]. clear NZ. cbn [unzip_loop] in E.
  destruct (parallel _ _ w) as [w1 ps]. destruct (finished ps); [|injection E as _ <-; contradiction].
  destruct (Nat.eqb _ 0) eqn:L0; [injection E as <- <-; split; [intros _; apply length_0; exact L0|reflexivity]|].
  destruct fuel as [|fuel]; [|apply (IH _ _ _ _ E NS); discriminate]. cbn [unzip_loop get_zip_file_count] in E. injection E as <- <-.
  destruct (existing_zips w1) as [|x l]; [discriminate|]. destruct (Nat.ltb _ _); split; discriminate.
Qed.

Lemma download_phase : forall rounds c w w' e, folder w -> download_zips_in_parallel rounds c w = (w', e) ->
  folder w' /\ Td (remaining c w) w w' /\
  (NoDup (listed c) -> forall n, (times n w' <= times n w + 3)%nat) /\
  (e <> Stopped -> (e = Complete /\ remaining c w' = []) \/ (e = Unable (List.length (remaining c w')) /\ remaining c w' <> [])) /\
  (NoDup (listed c) -> e <> Stopped -> forall n, In n (remaining c w) -> zip_name n ->
     (exists j, (j < 3)%nat /\ content [n] w' = result (replies (rounds j) n) /\ content [n] w' <> None /\
        forall i, (i < j)%nat -> result (replies (rounds i) n) = None) \/
     (content [n] w' = None /\ forall j, (j < 3)%nat -> result (replies (rounds j) n) = None)) /\
  (NoDup (listed c) -> e <> Stopped -> forall n, In n (listed c) -> (forall stem, n <> (stem ++ ".zip")%string) -> times n w' = (times n w + 3)%nat /\ exists left, e = Unable left).
Proof.
  intros rounds c w w' e F E. unfold download_zips_in_parallel in E. destruct (Nat.eqb _ 0) eqn:L0.
  - injection E as <- <-. apply length_0 in L0. split; [exact F|]. split; [apply Td_refl|]. split; [intros; lia|]. split; [left; auto|]. rewrite L0. split; [intros _ _ n []|].
    intros _ _ n I Z. exfalso. assert (M : In n (remaining c w)); [|rewrite L0 in M; destruct M].
    apply remaining_spec. split; [exact I|]. split; [intros (((stem & H) & _) & _); exact (Z stem H)|]. intros X. apply extracted_zip in X. destruct X as (stem & X). exact (Z stem X).
  - destruct (download_loop_safe _ _ _ _ _ _ _ F E) as (F' & T). split; [exact F'|]. split; [exact T|].
    split; [intros ND n; exact (download_loop_times _ _ _ _ _ _ _ ND F E n)|].
    split; [intros NS; apply (download_end _ _ _ _ _ _ _ E NS); discriminate|]. split.
    + intros ND NS n I Z. destruct (download_loop_result _ _ _ _ _ _ _ ND F E NS n I Z) as [(j & H & A & B & C)|(A & B)]; [discriminate| |].
      * left. exists j. unfold MAX_RETRIES in H. split; [lia|]. split; [exact A|]. split; [exact B|]. intros i Hi. apply C. lia.
      * right. split; [exact A|]. intros j H. apply B. unfold MAX_RETRIES. lia.
    + intros ND NS n I Z. destruct (download_loop_untracked _ _ _ _ _ _ _ ND F E NS n I Z) as (A & left & B & _). split; [exact A|exists left; exact B].
Qed.

Section Main.
  Variable unzip : string -> list (path * string) * bool.
  Hypothesis HA : harmless unzip.

  Lemma unzip_phase : forall rounds c w w' e, folder w -> unzip_files_in_parallel unzip rounds c w = (w', e) ->
    Ju unzip w w' /\ Tu w w' /\
    (forall x, (forall n, zip_name n -> present n w -> [".cache"; x] <> cache_path n) -> content [".cache"; x] w' = content [".cache"; x] w) /\
    (forall n d, zip_name n -> content [n] w = Some d -> Lu unzip w n d w') /\
    (e <> Stopped -> forall n d, zip_name n -> content [n] w = Some d ->
       (exists j, (j < 3)%nat /\ errors (rounds j) n = None /\ forall i, (i < j)%nat -> retried unzip (errors (rounds i) n) d) -> Qu unzip n d w') /\
    (e <> Stopped -> (e = Complete <-> existing_zips w' = [])).
  Proof.
    intros rounds c w w' e F E. unfold unzip_files_in_parallel in E. destruct (Nat.eqb _ 0) eqn:L0.
    - injection E as <- <-. apply length_0 in L0. split; [apply Ju_start; exact F|]. split; [apply Tu_refl|]. split; [reflexivity|]. split; [intros; left; auto|]. split.
      + intros _ n d Z C. exfalso. assert (I : In n (existing_zips w)) by (apply existing_spec; split; [exact Z|unfold present; congruence]). rewrite L0 in I. destruct I.
      + intros _. split; auto.
    - destruct (unzip_loop_ok unzip HA _ _ _ _ _ _ _ F E) as (A & B & C & D & Q). split; [exact A|]. split; [exact B|]. split; [exact C|]. split; [exact D|]. split.
      + intros NS n d Z Cn (j & H & Er & EA). apply (Q NS n d Z Cn). exists j. unfold MAX_RETRIES. split; [lia|]. split; [exact Er|]. intros i Hi. apply EA. lia.
      + intros NS. apply (unzip_end _ _ _ _ _ _ _ _ E NS). discriminate.
  Qed.

  (** The two phases of a run. *)
  Lemma main_phases : forall ev w w' o, folder w -> main unzip ev w = (w', o) ->
    (w' = w /\ exists e, o = Failed e) \/
    exists c w1 e, configuration ev = Some c /\ download_zips_in_parallel (download_rounds ev) c w = (w1, e) /\
      ((e = Stopped /\ w' = w1 /\ o = Killed) \/
       (e <> Stopped /\ exists u, unzip_files_in_parallel unzip (unzip_rounds ev) c w1 = (w', u) /\ ((u = Stopped /\ o = Killed) \/ (u <> Stopped /\ o = Ended e u)))).
  Proof.
    intros ev w w' o F E. unfold main in E. destruct (configuration ev) as [c|]; [|injection E as <- <-; left; eauto].
    destruct (negb _); [injection E as <- <-; left; eauto|]. right. destruct (download_zips_in_parallel _ c w) as [w1 e] eqn:D. exists c, w1, e.
    split; [reflexivity|]. split; [exact D|]. destruct (match e with Stopped => true | _ => false end) eqn:S.
    - destruct e; try discriminate. left. injection E as <- <-. auto.
    - right. assert (NS : e <> Stopped) by (intros ->; discriminate). split; [exact NS|].
      destruct (unzip_files_in_parallel unzip (unzip_rounds ev) c w1) as [w2 u] eqn:U.
      assert (E' : match u with Stopped => (w2, Killed) | _ => (w2, Ended e u) end = (w', o)) by (destruct e; try contradiction; exact E).
      exists u. destruct (match u with Stopped => true | _ => false end) eqn:S'.
      + destruct u; try discriminate. injection E' as <- <-. auto.
      + assert (NU : u <> Stopped) by (intros ->; discriminate). assert (E2 : (w2, Ended e u) = (w', o)) by (destruct u; try contradiction; exact E').
        injection E2 as <- <-. auto.
  Qed.

  Lemma mark_source : forall w w' n, plain n ->
    (forall x, (forall n, zip_name n -> present n w -> [".cache"; x] <> cache_path n) -> content [".cache"; x] w' = content [".cache"; x] w) ->
    (forall m d, zip_name m -> content [m] w = Some d -> Lu unzip w m d w') ->
    ~ marked n w -> marked n w' -> exists d, content [n] w = Some d /\ content [n] w' = None /\ valid unzip d /\ unpacked unzip d w'.
  Proof.
    intros w w' n P X L NM M. rewrite marked_path in NM, M by exact P. destruct (content [n] w) as [d|] eqn:C.
    - exists d. split; [reflexivity|]. destruct (L n d (plain_zip n P) C) as [(A & B)|A]; [|exact A]. exfalso. rewrite (B P) in M. contradiction.
    - exfalso. destruct (plain_path n P) as (stem & _ & E). rewrite E in NM, M. apply NM. rewrite <- X; [exact M|]. intros m Zm Pm Em.
      assert (m = n) by (apply cache_inj; [exact P|exact Zm|congruence]). subst m. apply Pm. exact C.
  Qed.

  Lemma Td_content : forall c w w' n, Td (remaining c w) w w' -> zip_name n -> present n w -> content [n] w' = content [n] w.
  Proof. intros c w w' n (A & _) Z P. apply A. intros m M E. injection E as ->. apply remaining_spec in M. apply (proj1 (proj2 M)). auto. Qed.
  Lemma Td_marked : forall ns w w' n, Td ns w w' -> (marked n w' <-> marked n w).
  Proof. intros ns w w' n T. unfold marked. split; intros (stem & E & M); exists stem; (split; [exact E|]); rewrite ?(marks_kept _ _ _ T) in *; exact M. Qed.
  Lemma Td_other : forall c w w' n, Td (remaining c w) w w' -> ~ In n (remaining c w) -> content [n] w' = content [n] w /\ times n w' = times n w.
  Proof. intros c w w' n (A & B & _) N. split; [apply A; intros m M E; injection E as ->; contradiction|apply B; exact N]. Qed.
  Lemma Tu_times : forall w w' n, Tu w w' -> times n w' = times n w.
  Proof. intros w w' n (A & _). unfold times. rewrite A. reflexivity. Qed.
  Lemma Tu_marked : forall w w' n, Tu w w' -> marked n w -> marked n w'.
  Proof. intros w w' n (_ & T) (stem & E & M). exists stem. split; [exact E|]. apply T; [discriminate|exact M]. Qed.

  (** An archive that is there. *)
  Lemma run_present : forall ev w w' o n d, folder w -> main unzip ev w = (w', o) -> zip_name n -> content [n] w = Some d ->
    times n w' = times n w /\
    ((content [n] w' = Some d /\ (plain n -> (marked n w' <-> marked n w))) \/ (content [n] w' = None /\ valid unzip d /\ unpacked unzip d w')).
  Proof.
    intros ev w w' o n d F E Z C. destruct (main_phases ev w w' o F E) as [(-> & _)|(c & w1 & e & _ & D & H)]; [split; [reflexivity|left; split; [exact C|reflexivity]]|].
    destruct (download_phase _ _ _ _ _ F D) as (F1 & T1 & _).
    assert (PR : present n w) by (unfold present; congruence).
    assert (C1 : content [n] w1 = Some d) by (rewrite (Td_content c w w1 n T1 Z PR); exact C).
    assert (N : ~ In n (remaining c w)) by (intros I; apply remaining_spec in I; apply (proj1 (proj2 I)); auto).
    destruct (Td_other c w w1 n T1 N) as (_ & TT).
    destruct H as [(_ & -> & _)|(_ & u & U & _)].
    - split; [exact TT|]. left. split; [exact C1|]. intros _. apply (Td_marked _ _ _ n T1).
    - destruct (unzip_phase _ _ _ _ _ F1 U) as (_ & T2 & _ & L & _). split; [rewrite (Tu_times _ _ n T2); exact TT|].
      destruct (L n d Z C1) as [(A & B)|A]; [left; split; [exact A|]|right; exact A]. intros P. rewrite <- (Td_marked _ _ _ n T1).
      rewrite !marked_path by exact P. rewrite (B P). reflexivity.
  Qed.

  Lemma run_folder : forall ev w w' o, folder w -> main unzip ev w = (w', o) -> folder w'.
  Proof.
    intros ev w w' o F E. destruct (main_phases ev w w' o F E) as [(-> & _)|(c & w1 & e & _ & D & H)]; [exact F|].
    destruct (download_phase _ _ _ _ _ F D) as (F1 & _). destruct H as [(_ & -> & _)|(_ & u & U & _)]; [exact F1|].
    apply (unzip_phase _ _ _ _ _ F1 U).
  Qed.

  Lemma run_marked : forall ev w w' o n, folder w -> main unzip ev w = (w', o) -> plain n -> marked n w -> marked n w' /\ times n w' = times n w.
  Proof.
    intros ev w w' o n F E P M. destruct (main_phases ev w w' o F E) as [(-> & _)|(c & w1 & e & _ & D & H)]; [auto|].
    destruct (download_phase _ _ _ _ _ F D) as (F1 & T1 & _).
    assert (N : ~ In n (remaining c w)) by (intros I; apply remaining_spec in I; apply (proj2 (proj2 I)); apply extracted_spec; assumption).
    destruct (Td_other c w w1 n T1 N) as (_ & TT). assert (M1 : marked n w1) by (apply (Td_marked _ _ _ n T1); exact M).
    destruct H as [(_ & -> & _)|(_ & u & U & _)]; [auto|]. destruct (unzip_phase _ _ _ _ _ F1 U) as (_ & T2 & _).
    split; [apply (Tu_marked _ _ n T2); exact M1|]. rewrite (Tu_times _ _ n T2). exact TT.
  Qed.

  (** Where the archives that are extracted come from. *)
  Lemma archive_source : forall ev c w w1 e m d, configuration ev = Some c -> NoDup (listed c) -> folder w -> download_zips_in_parallel (download_rounds ev) c w = (w1, e) -> e <> Stopped ->
    zip_name m -> content [m] w1 = Some d -> content [m] w = Some d \/ (In m (listed c) /\ content [m] w = None /\ ~ In m (extracted_zips w) /\ sent ev m d).
  Proof.
    intros ev c w w1 e m d Ec ND F D NS Z C. destruct (download_phase _ _ _ _ _ F D) as (F1 & T1 & _ & _ & R & _).
    destruct (in_dec string_dec m (remaining c w)) as [I|N]; [|left; rewrite <- C; symmetry; apply (Td_other c w w1 m T1 N)].
    right. assert (I' := I). apply remaining_spec in I'. destruct I' as (I1 & I2 & I3). split; [exact I1|]. split.
    { destruct (content [m] w) eqn:X; [|reflexivity]. exfalso. apply I2. split; [exact Z|unfold present; congruence]. }
    split; [exact I3|]. destruct (R ND NS m I Z) as [(j & H & A & _)|(A & _)]; [|congruence]. exists j. split; [exact H|]. apply result_whole. congruence.
  Qed.

  Lemma run_new_mark : forall ev w w' o n c, folder w -> main unzip ev w = (w', o) -> configuration ev = Some c -> NoDup (listed c) -> plain n ->
    ~ marked n w -> marked n w' -> content [n] w' = None /\ exists d, valid unzip d /\ unpacked unzip d w' /\ (content [n] w = Some d \/ In n (listed c) /\ sent ev n d).
  Proof.
    intros ev w w' o n c F E Ec ND P NM M. destruct (main_phases ev w w' o F E) as [(-> & _)|(c' & w1 & e & Ec' & D & H)]; [contradiction|].
    assert (c' = c) by congruence. subst c'. destruct (download_phase _ _ _ _ _ F D) as (F1 & T1 & _).
    assert (NM1 : ~ marked n w1) by (rewrite (Td_marked _ _ _ n T1); exact NM).
    destruct H as [(_ & -> & _)|(NS & u & U & _)]; [contradiction|]. destruct (unzip_phase _ _ _ _ _ F1 U) as (_ & _ & X & L & _).
    destruct (mark_source w1 w' n P X L NM1 M) as (d & C & C' & V & UP). split; [exact C'|]. exists d. split; [exact V|]. split; [exact UP|].
    destruct (archive_source ev c w w1 e n d Ec ND F D NS (plain_zip n P) C) as [A|(A & _ & _ & B)]; auto.
  Qed.

  Lemma run_files : forall ev w w' o c p x, folder w -> main unzip ev w = (w', o) -> configuration ev = Some c -> NoDup (listed c) -> content p w' = Some x ->
    content p w = Some x \/ (exists m, p = [m] /\ In m (listed c)) \/ (exists y, p = [".cache"; y]) \/
    exists m d, zip_name m /\ (content [m] w = Some d \/ In m (listed c) /\ sent ev m d) /\ In (p, x) (fst (unzip d)).
  Proof.
    intros ev w w' o c p x F E Ec ND C. destruct (main_phases ev w w' o F E) as [(-> & _)|(c' & w1 & e & Ec' & D & H)]; [auto|].
    assert (c' = c) by congruence. subst c'. destruct (download_phase _ _ _ _ _ F D) as (F1 & T1 & _).
    assert (S1 : content p w1 = Some x -> content p w = Some x \/ exists m, p = [m] /\ In m (listed c)).
    { intros C1. assert (DEC : (exists m, p = [m] /\ In m (remaining c w)) \/ forall m, In m (remaining c w) -> p <> [m]).
      { destruct p as [|m [|? ?]]; try (right; intros; discriminate). destruct (in_dec string_dec m (remaining c w)) as [I|N]; [left; eauto|]. right. intros m' I E'. injection E' as ->. contradiction. }
      destruct DEC as [(m & -> & I)|N]; [right; exists m; split; [reflexivity|apply remaining_spec in I; apply I]|]. left. rewrite <- (proj1 T1 p N). exact C1. }
    destruct H as [(_ & -> & _)|(NS & u & U & _)]; [destruct (S1 C); auto|].
    destruct (unzip_phase _ _ _ _ _ F1 U) as ((_ & _ & J3) & _). destruct (J3 p x C) as [C1|[(m & d & Z & Cm & I)|Y]]; [destruct (S1 C1); auto| |auto].
    right. right. right. exists m, d. split; [exact Z|]. split; [|exact I]. destruct (archive_source ev c w w1 e m d Ec ND F D NS Z Cm) as [A|(A & _ & _ & B)]; auto.
  Qed.

  Lemma run_times : forall ev w w' o c n, folder w -> main unzip ev w = (w', o) -> configuration ev = Some c -> NoDup (listed c) -> (times n w' <= times n w + 3)%nat.
  Proof.
    intros ev w w' o c n F E Ec ND. destruct (main_phases ev w w' o F E) as [(-> & _)|(c' & w1 & e & Ec' & D & H)]; [lia|].
    assert (c' = c) by congruence. subst c'. destruct (download_phase _ _ _ _ _ F D) as (F1 & _ & B & _). specialize (B ND n).
    destruct H as [(_ & -> & _)|(NS & u & U & _)]; [exact B|]. destruct (unzip_phase _ _ _ _ _ F1 U) as (_ & T & _). rewrite (Tu_times _ _ n T). exact B.
  Qed.

  Lemma space_ok : forall c w ev, configuration ev = Some c -> enough_space ev c ->
    main unzip ev w = let (w1, d) := download_zips_in_parallel (download_rounds ev) c w in
      match d with Stopped => (w1, Killed) | _ => let (w2, u) := unzip_files_in_parallel unzip (unzip_rounds ev) c w1 in match u with Stopped => (w2, Killed) | _ => (w2, Ended d u) end end.
  Proof.
    intros c w ev Ec S. unfold main. rewrite Ec.
    assert (L : (inject_Z (Z.of_nat (List.length (remaining c w) * 6 + 10)) <= free_space ev)%Q).
    { eapply Qle_trans; [|exact S]. rewrite <- Zle_Qle. assert (B : (List.length (remaining c w) <= List.length (wanted c))%nat); [|lia].
      unfold remaining, get_zip_file_count, remove_existing_files. change (wanted c) with (listed c). generalize (existing_zips w ++ extracted_zips w) (listed c). intros a l.
      induction l as [|y l IH]; [cbn; lia|]. cbn [filter]. destruct (negb _); cbn [List.length]; lia. }
    apply Qle_bool_iff in L. rewrite L. reflexivity.
  Qed.

  (** One archive gets through. *)
  Lemma run_success : forall ev w w' o c n, folder w -> main unzip ev w = (w', o) -> configuration ev = Some c -> NoDup (listed c) -> enough_space ev c -> o <> Killed ->
    zip_name n -> In n (listed c) -> ~ In n (extracted_zips w) \/ content [n] w <> None ->
    (forall d, content [n] w = Some d -> extractable unzip ev n d) -> (content [n] w = None -> fetchable unzip ev n) ->
    content [n] w' = None /\ (plain n -> marked n w') /\ exists d, (content [n] w = Some d \/ sent ev n d) /\ valid unzip d /\ unpacked unzip d w'.
  Proof.
    intros ev w w' o c n F E Ec ND SP NK Z I NM HP HF. destruct (main_phases ev w w' o F E) as [(_ & (x & ->))|(c' & w1 & e & Ec' & D & H)].
    { exfalso. rewrite (space_ok c w ev Ec SP) in E. destruct (download_zips_in_parallel _ c w) as [w1 d]. destruct d; try discriminate; destruct (unzip_files_in_parallel unzip _ c w1) as [w2 u]; destruct u; discriminate. }
    assert (c' = c) by congruence. subst c'. destruct (download_phase _ _ _ _ _ F D) as (F1 & T1 & _ & _ & R & _).
    destruct H as [(_ & _ & ->)|(NS & u & U & Ou)]; [contradiction|]. assert (NU : u <> Stopped) by (destruct Ou as [(-> & ->)|(? & _)]; [contradiction|assumption]).
    assert (S : exists d, content [n] w1 = Some d /\ (content [n] w = Some d \/ sent ev n d) /\ extractable unzip ev n d).
    { destruct (content [n] w) as [d|] eqn:C.
      - exists d. split; [rewrite (Td_content c w w1 n T1 Z) by (unfold present; congruence); exact C|]. split; [left; reflexivity|apply HP; reflexivity].
      - destruct (HF eq_refl) as ((d0 & j0 & Hj0 & S0) & HS). assert (IR : In n (remaining c w)).
        { apply remaining_spec. split; [exact I|]. split; [intros (_ & X); apply X; exact C|]. destruct NM as [X|X]; [exact X|congruence]. }
        destruct (R ND NS n IR Z) as [(j & Hj & A & B & _)|(_ & B)].
        + destruct (content [n] w1) as [d|] eqn:C1; [|congruence]. assert (SE : sent ev n d) by (exists j; split; [exact Hj|apply result_whole; congruence]).
          exists d. split; [reflexivity|]. split; [right; exact SE|apply HS; exact SE].
        + exfalso. specialize (B j0 Hj0). apply result_whole in S0. congruence. }
    destruct S as (d & C1 & SRC & V & j & Hj & Er & EA). destruct (unzip_phase _ _ _ _ _ F1 U) as (_ & _ & _ & _ & Q & _).
    destruct (Q NU n d Z C1) with (2 := V) as (A & B & UP); [exists j; auto|]. split; [exact A|]. split; [intros P; apply marked_path; [exact P|apply B; exact P]|].
    exists d. auto.
  Qed.
End Main.
