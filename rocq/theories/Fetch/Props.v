(** Properties C53 and C54: the downloader. *)
From Coq Require Import List Bool String Ascii Arith QArith Lia.
From Verif.Base Require Import Py PyFacts.
From Verif.Fetch Require Import Model Spec Proofs.
Import ListNotations.
Local Open Scope string_scope.
Local Open Scope list_scope.

(** * C53 *)

Lemma runs_inv : forall unzip (I : world -> Prop), (forall ev w w' o, I w -> main unzip ev w = (w', o) -> I w') -> forall evs w, I w -> I (runs unzip evs w).
Proof.
  intros unzip I H evs. induction evs as [|ev evs IH]; intros w Iw; [exact Iw|]. unfold runs. cbn [fold_left]. apply IH.
  destruct (main unzip ev w) as [w' o] eqn:E. exact (H ev w w' o Iw E).
Qed.

(** An extracted archive stays extracted and is never requested again, in any number of
    runs, killed or not. *)
Theorem C53_extracted_stays : forall unzip n evs w, harmless unzip -> folder w -> plain n -> marked n w ->
  marked n (runs unzip evs w) /\ times n (runs unzip evs w) = times n w.
Proof.
  intros unzip n evs w HA F P M.
  apply (runs_inv unzip (fun v => folder v /\ marked n v /\ times n v = times n w)); [|auto].
  intros ev v v' o (F' & M' & T') E. split; [exact (run_folder unzip HA ev v v' o F' E)|].
  destruct (run_marked unzip HA ev v v' o n F' E P M') as (A & B). split; [exact A|congruence].
Qed.

(** An archive in the folder is not requested again.  After a run it is unchanged and not
    newly marked, or it is gone, was good and its members are there. *)
Theorem C53_archive : forall unzip ev w w' o n data, harmless unzip -> folder w -> main unzip ev w = (w', o) -> plain n -> content [n] w = Some data ->
  times n w' = times n w /\
  ((content [n] w' = Some data /\ (marked n w' <-> marked n w)) \/ (content [n] w' = None /\ valid unzip data /\ unpacked unzip data w')).
Proof.
  intros unzip ev w w' o n data HA F E P C. destruct (run_present unzip HA ev w w' o n data F E (plain_zip n P) C) as (A & [(B & D)|B]); auto.
Qed.

(** A new mark: a good archive, found in the folder or sent by the server, was extracted and
    deleted. *)
Theorem C53_mark : forall unzip ev c w w' o n, harmless unzip -> folder w -> main unzip ev w = (w', o) -> configuration ev = Some c -> NoDup (wanted c) ->
  plain n -> ~ marked n w -> marked n w' ->
  content [n] w' = None /\ exists data, valid unzip data /\ unpacked unzip data w' /\ (content [n] w = Some data \/ In n (wanted c) /\ sent ev n data).
Proof. intros unzip ev c w w' o n HA F E Ec ND P. apply (run_new_mark unzip HA ev w w' o n c F E Ec ND P). Qed.

(** Nothing else is written: listed archives, marks and the members of archives. *)
Theorem C53_files : forall unzip ev c w w' o p x, harmless unzip -> folder w -> main unzip ev w = (w', o) -> configuration ev = Some c -> NoDup (wanted c) ->
  content p w' = Some x ->
  content p w = Some x \/ (exists n, p = [n] /\ In n (wanted c)) \/ (exists y, p = [".cache"; y]) \/
  exists n data, zip_name n /\ (content [n] w = Some data \/ In n (wanted c) /\ sent ev n data) /\ In (p, x) (fst (unzip data)).
Proof. intros unzip ev c w w' o p x HA F E Ec ND. apply (run_files unzip HA ev w w' o c p x F E Ec ND). Qed.

(** At most three requests in a run. *)
Theorem C53_three_requests : forall unzip ev c w w' o n, harmless unzip -> folder w -> main unzip ev w = (w', o) -> configuration ev = Some c -> NoDup (wanted c) ->
  (times n w' <= times n w + 3)%nat.
Proof. intros unzip ev c w w' o n HA F E Ec ND. exact (run_times unzip HA ev w w' o c n F E Ec ND). Qed.

(** An archive that the server sends and that is good gets through, whatever happens to the
    other ones. *)
Theorem C53_success : forall unzip ev c w w' o n, harmless unzip -> folder w -> main unzip ev w = (w', o) -> configuration ev = Some c -> NoDup (wanted c) ->
  enough_space ev c -> o <> Killed -> plain n -> In n (wanted c) -> ~ marked n w ->
  (forall data, content [n] w = Some data -> extractable unzip ev n data) -> (content [n] w = None -> fetchable unzip ev n) ->
  marked n w' /\ content [n] w' = None /\ exists data, (content [n] w = Some data \/ sent ev n data) /\ unpacked unzip data w'.
Proof.
  intros unzip ev c w w' o n HA F E Ec ND SP NK P I NM H1 H2.
  destruct (run_success unzip HA ev w w' o c n F E Ec ND SP NK (plain_zip n P) I) as (A & B & d & C & _ & U); try assumption.
  { left. rewrite extracted_spec by exact P. exact NM. }
  split; [apply B; exact P|]. split; [exact A|]. exists d. auto.
Qed.

(** Without failures everything ends up extracted, and the program says so. *)
Theorem C53_all : forall unzip ev c w w' o, harmless unzip -> folder w -> main unzip ev w = (w', o) -> configuration ev = Some c -> NoDup (wanted c) ->
  enough_space ev c -> o <> Killed -> (forall n, In n (wanted c) -> plain n) ->
  (forall n data, zip_name n -> content [n] w = Some data -> extractable unzip ev n data) ->
  (forall n, In n (wanted c) -> ~ marked n w -> content [n] w = None -> fetchable unzip ev n) ->
  o = Ended Complete Complete /\ (forall n, In n (wanted c) -> marked n w') /\ (forall n, zip_name n -> ~ present n w').
Proof.
  intros unzip ev c w w' o HA F E Ec ND SP NK PL H1 H2. destruct (main_phases unzip ev w w' o F E) as [(_ & (x & ->))|(c' & w1 & e & Ec' & D & H)].
  { exfalso. rewrite (space_ok unzip c w ev Ec SP) in E. destruct (download_zips_in_parallel _ c w) as [w1 d]. destruct d; try discriminate; destruct (unzip_files_in_parallel unzip _ c w1) as [w2 u]; destruct u; discriminate. }
  assert (c' = c) by congruence. subst c'. destruct (download_phase _ _ _ _ _ F D) as (F1 & T1 & _ & EN & R & _).
  destruct H as [(_ & _ & ->)|(NS & u & U & Ou)]; [contradiction|]. assert (NU : u <> Stopped) by (destruct Ou as [(-> & ->)|(? & _)]; [contradiction|assumption]).
  destruct (unzip_phase unzip HA _ _ _ _ _ F1 U) as ((_ & J2 & _) & T2 & _ & _ & Q & EU). specialize (EU NU).
  assert (GOOD : forall n data, zip_name n -> content [n] w1 = Some data -> extractable unzip ev n data).
  { intros n data Z C. destruct (archive_source ev c w w1 e n data Ec ND F D NS Z C) as [A|(A & B & X & S)]; [apply H1; assumption|].
    apply (H2 n A); [|exact B|exact S]. rewrite <- (extracted_spec n w (PL n A)). exact X. }
  assert (DONE : forall n data, zip_name n -> content [n] w1 = Some data -> content [n] w' = None /\ (plain n -> content (cache_path n) w' <> None)).
  { intros n data Z C. destruct (GOOD n data Z C) as (V & j & Hj & Er & EA). destruct (Q NU n data Z C) with (2 := V) as (A & B & _); [exists j; auto|auto]. }
  assert (NONE : forall n, zip_name n -> content [n] w' = None).
  { intros n Z. destruct (content [n] w1) as [data|] eqn:C; [apply (DONE n data Z C)|]. destruct (J2 n Z) as [X|X]; congruence. }
  assert (REM : remaining c w1 = []).
  { destruct (remaining c w1) as [|n l] eqn:RE; [reflexivity|exfalso]. assert (I1 : In n (remaining c w1)) by (rewrite RE; left; reflexivity).
    assert (I := remaining_shrinks c w w1 T1 n I1). assert (I' := I). apply remaining_spec in I'. destruct I' as (A & B & X). apply remaining_spec in I1. destruct I1 as (_ & B1 & _).
    assert (P := PL n A). assert (Z := plain_zip n P). assert (C : content [n] w = None).
    { destruct (content [n] w) eqn:Y; [|reflexivity]. exfalso. apply B. split; [exact Z|unfold present; congruence]. }
    destruct (H2 n A) as ((d0 & j0 & Hj0 & S0) & _); [rewrite <- (extracted_spec n w P); exact X|exact C|].
    destruct (R ND NS n I Z) as [(j & _ & _ & Y & _)|(_ & Y)]; [apply B1; split; [exact Z|exact Y]|]. specialize (Y j0 Hj0). apply result_whole in S0. congruence. }
  split; [|split].
  - destruct Ou as [(-> & _)|(_ & ->)]; [contradiction|]. destruct (EN NS) as [(-> & _)|(_ & Y)]; [|contradiction]. f_equal. apply EU.
    destruct (existing_zips w') as [|n l] eqn:Y; [reflexivity|exfalso]. assert (I : In n (existing_zips w')) by (rewrite Y; left; reflexivity).
    apply existing_spec in I. destruct I as (Z & PR). apply PR. apply NONE. exact Z.
  - intros n I. assert (P := PL n I). destruct (content [n] w1) as [data|] eqn:C.
    + apply marked_path; [exact P|]. apply (DONE n data (plain_zip n P) C). exact P.
    + apply (Tu_marked _ _ n T2). rewrite <- (extracted_spec n w1 P). destruct (in_dec string_dec n (extracted_zips w1)) as [Y|N]; [exact Y|exfalso].
      assert (M : In n (remaining c w1)) by (apply remaining_spec; split; [exact I|]; split; [intros (_ & X); apply X; exact C|exact N]). rewrite REM in M. destruct M.
  - intros n Z PR. apply PR. apply NONE. exact Z.
Qed.

(** "Extraction complete" means that no archive is left, even if some were not downloaded. *)
Theorem C53_report : forall unzip ev w w' e u, harmless unzip -> folder w -> main unzip ev w = (w', Ended e u) ->
  (u = Complete <-> forall n, zip_name n -> ~ present n w').
Proof.
  intros unzip ev w w' e u HA F E. destruct (main_phases unzip ev w w' _ F E) as [(_ & (x & X))|(c & w1 & e' & Ec & D & H)]; [discriminate|].
  destruct (download_phase _ _ _ _ _ F D) as (F1 & _). destruct H as [(_ & _ & X)|(_ & u' & U & [(_ & X)|(NU & X)])]; try discriminate. injection X as <- <-.
  destruct (unzip_phase unzip HA _ _ _ _ _ F1 U) as (_ & _ & _ & _ & _ & EU). rewrite (EU NU). split.
  - intros Y n Z P. assert (I : In n (existing_zips w')) by (apply existing_spec; auto). rewrite Y in I. destruct I.
  - intros Y. destruct (existing_zips w') as [|n l] eqn:EX; [reflexivity|exfalso]. assert (I : In n (existing_zips w')) by (rewrite EX; left; reflexivity).
    apply existing_spec in I. exact (Y n (proj1 I) (proj2 I)).
Qed.

(** The numbers that are reported: the archives for which no answer was taken, and how many
    marks are missing. *)
Theorem C53_downloaded : forall unzip ev c w w' e u missing, harmless unzip -> folder w -> main unzip ev w = (w', Ended e u) -> configuration ev = Some c ->
  NoDup (wanted c) -> (forall n, In n (wanted c) -> plain n) -> NoDup missing ->
  (forall n, In n missing <-> In n (wanted c) /\ ~ present n w /\ ~ marked n w /\ forall j, (j < 3)%nat -> noticed (replies (download_rounds ev j) n)) ->
  (missing = [] /\ e = Complete) \/ (missing <> [] /\ e = Unable (List.length missing)).
Proof.
  intros unzip ev c w w' e u missing HA F E Ec ND PL NM HM.
  destruct (main_phases unzip ev w w' _ F E) as [(_ & (x & X))|(c' & w1 & e' & Ec' & D & H)]; [discriminate|]. assert (c' = c) by congruence. subst c'.
  destruct (download_phase _ _ _ _ _ F D) as (F1 & T1 & _ & EN & R & _). destruct H as [(_ & _ & X)|(NS & u' & _ & [(_ & X)|(_ & X)])]; try discriminate. injection X as <- <-.
  assert (EQ : forall n, In n (remaining c w1) <-> In n missing).
  { intros n. rewrite HM. split.
    - intros I. assert (I0 := remaining_shrinks c w w1 T1 n I). assert (I0' := I0). apply remaining_spec in I, I0'. destruct I0' as (A & B & X), I as (_ & B1 & _).
      assert (P := PL n A). assert (Z := plain_zip n P). split; [exact A|]. split; [intros Y; apply B; auto|]. split; [rewrite <- (extracted_spec n w P); exact X|].
      intros j J. apply result_noticed. destruct (R ND NS n I0 Z) as [(k & _ & _ & Y & _)|(_ & Y)]; [exfalso; apply B1; split; [exact Z|exact Y]|auto].
    - intros (A & B & X & Y). assert (P := PL n A). assert (Z := plain_zip n P).
      assert (I0 : In n (remaining c w)) by (apply remaining_spec; split; [exact A|]; split; [tauto|]; rewrite (extracted_spec n w P); exact X).
      apply remaining_spec. split; [exact A|]. split.
      + intros (_ & PR). destruct (R ND NS n I0 Z) as [(k & K & C & N & _)|(C & _)]; [|exact (PR C)]. apply N. rewrite C. apply result_noticed. auto.
      + rewrite (extracted_spec n w1 P), (Td_marked _ _ _ n T1). exact X. }
  assert (L : List.length (remaining c w1) = List.length missing).
  { apply Nat.le_antisymm; apply NoDup_incl_length; [apply remaining_nodup; exact ND| |exact NM|]; intros n; apply EQ. }
  destruct (EN NS) as [(-> & Z)|(-> & Z)]; [left|right].
  - split; [|reflexivity]. destruct missing as [|n l]; [reflexivity|]. rewrite Z in L. discriminate.
  - rewrite L. split; [|reflexivity]. intros ->. destruct (remaining c w1); [contradiction|discriminate].
Qed.

Lemma marks_length : forall w marks, folder w -> NoDup marks -> (forall x, In x marks <-> mark_name x /\ content [".cache"; x] w <> None) ->
  List.length (extracted_zips w) = List.length marks.
Proof.
  intros w marks F ND H.
  set (g := fun p : path => match p with [d; n] => if String.eqb d ".cache" then if glob_match ".cache" n then [n] else [] else [] | _ => [] end).
  assert (L : List.length (extracted_zips w) = List.length (flat_map g (dkeys (files w)))).
  { unfold extracted_zips. induction (dkeys (files w)) as [|p l IH]; [reflexivity|]. cbn [flat_map]. rewrite !app_length, IH. f_equal.
    destruct p as [|d [|n [|? ?]]]; try reflexivity. cbn [g]. destruct (String.eqb d ".cache"); [|reflexivity]. destruct (glob_match ".cache" n); reflexivity. }
  assert (MN : forall x, glob_match ".cache" x = true <-> mark_name x).
  { intros x. unfold glob_match, mark_name. rewrite andb_true_iff, ends_with_spec, negb_true_iff, <- not_true_iff_false, prefix_spec. firstorder. }
  assert (S : forall x, In x (flat_map g (dkeys (files w))) <-> In x marks).
  { intros x. rewrite H, in_flat_map. split.
    - intros (p & I & J). destruct p as [|d [|n [|? ?]]]; try destruct J. cbn [g] in J. destruct (String.eqb_spec d ".cache") as [->|]; [|destruct J].
      destruct (glob_match ".cache" n) eqn:G; [|destruct J]. destruct J as [<-|[]]. split; [apply MN; exact G|apply in_keys; exact I].
    - intros (M & C). exists [".cache"; x]. split; [apply in_keys; exact C|]. apply MN in M. cbn [g]. rewrite String.eqb_refl, M. left. reflexivity. }
  assert (N : NoDup (flat_map g (dkeys (files w)))).
  { unfold folder in F. unfold dkeys. induction F as [|p l NI N IH]; [constructor|]. cbn [flat_map].
    destruct p as [|d [|n [|? ?]]]; try exact IH. cbn [g]. destruct (String.eqb_spec d ".cache") as [->|]; [|exact IH].
    destruct (glob_match ".cache" n); [|exact IH]. cbn [app]. constructor; [|exact IH]. intros I. apply NI. apply in_flat_map in I. destruct I as (p & I & J).
    destruct p as [|d' [|n' [|? ?]]]; try destruct J. cbn [g] in J. destruct (String.eqb_spec d' ".cache") as [->|]; [|destruct J].
    destruct (glob_match ".cache" n'); [|destruct J]. destruct J as [->|[]]. exact I. }
  rewrite L. apply Nat.le_antisymm; apply NoDup_incl_length; auto; intros x; apply S.
Qed.

Lemma unzip_number : forall unzip rounds c fuel k l w w' e, unzip_loop unzip rounds c fuel k l w = (w', e) -> e <> Stopped -> e <> Complete ->
  let n := List.length (extracted_zips w') in let m := List.length (listed c) in ((n < m)%nat /\ e = Unable (m - n)) \/ ((m <= n)%nat /\ e = Silent).
Proof.
  intros unzip rounds c fuel. induction fuel as [|fuel IH]; intros k l w w' e E NS NC; cbn [unzip_loop get_zip_file_count] in E.
  - injection E as <- <-. destruct (Nat.ltb_spec (List.length (extracted_zips w)) (List.length (listed c))); auto.
  - destruct (parallel _ _ w) as [w1 ps]. destruct (finished ps); [|injection E as _ <-; contradiction].
    destruct (Nat.eqb _ 0); [injection E as _ <-; contradiction|]. exact (IH _ _ _ _ _ E NS NC).
Qed.

Theorem C53_extracted : forall unzip ev c w w' e u marks, harmless unzip -> folder w -> main unzip ev w = (w', Ended e u) -> configuration ev = Some c ->
  NoDup marks -> (forall x, In x marks <-> mark_name x /\ content [".cache"; x] w' <> None) -> u <> Complete ->
  let n := List.length marks in let m := List.length (wanted c) in ((n < m)%nat /\ u = Unable (m - n)) \/ ((m <= n)%nat /\ u = Silent).
Proof.
  intros unzip ev c w w' e u marks HA F E Ec ND HM NC. assert (F' := run_folder unzip HA ev w w' _ F E). rewrite <- (marks_length w' marks F' ND HM).
  destruct (main_phases unzip ev w w' _ F E) as [(_ & (x & X))|(c' & w1 & e' & Ec' & D & H)]; [discriminate|]. assert (c' = c) by congruence. subst c'.
  destruct H as [(_ & _ & X)|(_ & u' & U & [(_ & X)|(NS & X)])]; try discriminate. injection X as <- <-.
  unfold unzip_files_in_parallel in U. destruct (Nat.eqb _ 0); [injection U as _ <-; contradiction|]. exact (unzip_number _ _ _ _ _ _ _ _ _ U NS NC).
Qed.

(** A listed name without .zip at its end is fetched three times in every run. *)
Theorem C53_other_names : forall unzip ev c w w' o n, harmless unzip -> folder w -> main unzip ev w = (w', o) -> configuration ev = Some c -> NoDup (wanted c) ->
  enough_space ev c -> o <> Killed -> In n (wanted c) -> (forall stem, n <> (stem ++ ".zip")%string) ->
  times n w' = (times n w + 3)%nat /\ exists left u, o = Ended (Unable left) u.
Proof.
  intros unzip ev c w w' o n HA F E Ec ND SP NK I Z. destruct (main_phases unzip ev w w' o F E) as [(_ & (x & ->))|(c' & w1 & e & Ec' & D & H)].
  { exfalso. rewrite (space_ok unzip c w ev Ec SP) in E. destruct (download_zips_in_parallel _ c w) as [w1 d]. destruct d; try discriminate; destruct (unzip_files_in_parallel unzip _ c w1) as [w2 u]; destruct u; discriminate. }
  assert (c' = c) by congruence. subst c'. destruct (download_phase _ _ _ _ _ F D) as (F1 & _ & _ & _ & _ & UT).
  destruct H as [(_ & _ & ->)|(NS & u & U & Ou)]; [contradiction|]. destruct (UT ND NS n I Z) as (A & left & ->).
  destruct (unzip_phase unzip HA _ _ _ _ _ F1 U) as (_ & T & _). rewrite (Tu_times _ _ n T). split; [exact A|].
  destruct Ou as [(_ & ->)|(_ & ->)]; [contradiction|]. eauto.
Qed.

(** It does not start without 6 GB for every missing archive and 10 GB more. *)
Theorem C53_space : forall unzip ev c w missing, configuration ev = Some c -> NoDup (wanted c) -> (forall n, In n (wanted c) -> plain n) ->
  NoDup missing -> (forall n, In n missing <-> In n (wanted c) /\ ~ present n w /\ ~ marked n w) ->
  (free_space ev < inject_Z (Z.of_nat (6 * List.length missing + 10)))%Q ->
  main unzip ev w = (w, Failed RuntimeError).
Proof.
  intros unzip ev c w missing Ec ND PL NM HM SP. unfold main. rewrite Ec.
  assert (L : List.length (remaining c w) = List.length missing).
  { assert (EQ : forall n, In n (remaining c w) <-> In n missing).
    { intros n. rewrite remaining_spec, HM. split.
      - intros (A & B & C). split; [exact A|]. split; [intros X; apply B; split; [apply plain_zip, PL, A|exact X]|]. rewrite <- (extracted_spec n w (PL n A)). exact C.
      - intros (A & B & C). split; [exact A|]. split; [tauto|]. rewrite (extracted_spec n w (PL n A)). exact C. }
    apply Nat.le_antisymm; apply NoDup_incl_length; [apply remaining_nodup; exact ND| |exact NM|]; intros n; apply EQ. }
  rewrite L. destruct (Qle_bool _ (free_space ev)) eqn:Q; [|reflexivity]. exfalso. apply Qle_bool_iff in Q.
  assert (W : (List.length missing * 6 + 10 = 6 * List.length missing + 10)%nat) by lia. rewrite W in Q. exact (Qlt_not_le _ _ SP Q).
Qed.

(** * C54 *)

(** A bad archive stays for ever: it is not fetched again and not extracted. *)
Theorem C54_poisoned : forall unzip n data w, harmless unzip -> folder w -> plain n -> content [n] w = Some data -> ~ valid unzip data -> ~ marked n w ->
  forall evs, content [n] (runs unzip evs w) = Some data /\ ~ marked n (runs unzip evs w) /\ times n (runs unzip evs w) = times n w.
Proof.
  intros unzip n data w HA F P C NV NM evs.
  apply (runs_inv unzip (fun v => folder v /\ content [n] v = Some data /\ ~ marked n v /\ times n v = times n w)); [|auto].
  intros ev v v' o (F' & C' & M' & T') E. split; [exact (run_folder unzip HA ev v v' o F' E)|].
  destruct (run_present unzip HA ev v v' o n data F' E (plain_zip n P) C') as (A & [(B & D)|(_ & V & _)]); [|contradiction].
  split; [exact B|]. split; [rewrite (D P); exact M'|congruence].
Qed.

Lemma parallel_app : forall a b ps w, parallel (a ++ b) ps w = let (w', ps') := parallel a ps w in parallel b ps' w'.
Proof.
  intros a. induction a as [|i a IH]; intros b ps w; [reflexivity|]. cbn [app parallel]. destruct (nth_error ps i) as [[|f]|]; try apply IH. destruct (f w). apply IH.
Qed.

Lemma partial_write : forall n pre post fine acc fs rq, let w := World (dset path_eqb [n] acc fs) rq in
  exists fs', parallel (repeat 0%nat (List.length pre)) [write_all n (pre ++ post) fine] w = (World fs' rq, [write_all n post fine]) /\
    content [n] (World fs' rq) = Some (acc ++ String.concat "" pre)%string /\ (folder w -> folder (World fs' rq)) /\ forall p, p <> [n] -> content p (World fs' rq) = content p w.
Proof.
  intros n pre. induction pre as [|x pre IH]; intros post fine acc fs rq w.
  - exists (files w). cbn. split; [reflexivity|]. split; [rewrite sapp_nil; apply (content_put_same [n] acc (World fs rq))|auto].
  - cbn [app write_all List.length repeat parallel nth_error update].
    assert (A : Model.append [n] x w = World (dset path_eqb [n] (acc ++ x)%string (files w)) rq).
    { unfold Model.append. assert (C : content [n] w = Some acc) by (apply (content_put_same [n] acc (World fs rq))). rewrite C. reflexivity. }
    rewrite A. destruct (IH post fine (acc ++ x)%string (files w) rq) as (fs' & E1 & E2 & E3 & E4). exists fs'. split; [exact E1|]. split; [|split].
    + rewrite E2, concat_cons, sapp_assoc. reflexivity.
    + intros F. apply E3. apply (folder_put [n] (acc ++ x)%string w F).
    + intros p N. rewrite E4 by exact N. apply (content_put_other [n] p (acc ++ x)%string w). congruence.
Qed.

(** A run that is killed while an archive is written: although the server would always send
    it, no number of later runs fetches or extracts it. *)
Theorem C54_killed : forall unzip n pre post, harmless unzip -> plain n -> valid unzip (String.concat "" (pre ++ post)) -> ~ valid unzip (String.concat "" pre) ->
  exists ev w', configuration ev = Some (Config [n] []) /\ (forall j, whole (replies (download_rounds ev j) n) (String.concat "" (pre ++ post))) /\
    main unzip ev (World [] []) = (w', Killed) /\
    forall evs, content [n] (runs unzip evs w') = Some (String.concat "" pre) /\ ~ marked n (runs unzip evs w') /\ times n (runs unzip evs w') = 1%nat.
Proof.
  intros unzip n pre post HA P V NV. set (order := 0%nat :: 0%nat :: repeat 0%nat (List.length pre)).
  set (ev := Events (Some (Config [n] [])) 16 (fun _ => DownloadRound (fun _ => Body 1 (pre ++ post) true) order) (fun _ => UnzipRound (fun _ => None) [])).
  destruct (partial_write n pre post true "" [] [n]) as (fs & E1 & E2 & E3 & E4).
  exists ev, (World fs [n]). split; [reflexivity|]. split; [intros j; exists 1%nat, (pre ++ post); auto|].
  assert (NP : post <> []) by (intros ->; rewrite app_nil_r in V; contradiction).
  assert (RE : remaining (Config [n] []) (World [] []) = [n]) by reflexivity.
  split.
  - unfold main. cbn [configuration ev]. rewrite RE. cbn [List.length]. assert (Q : Qle_bool (inject_Z (Z.of_nat (1 * 6 + 10))) (free_space ev) = true) by reflexivity. rewrite Q. cbn [negb].
    unfold download_zips_in_parallel. rewrite RE. cbn [List.length Nat.eqb]. unfold MAX_RETRIES. cbn [download_loop download_rounds ev download_order replies map].
    unfold order. cbn [parallel nth_error download_one update]. unfold request, put. cbn [files requests app Nat.eqb]. rewrite E1.
    destruct post as [|x post]; [contradiction|]. reflexivity.
  - intros evs. replace 1%nat with (times n (World fs [n])) by (unfold times; cbn; destruct (string_dec n n); congruence).
    apply C54_poisoned; auto.
    + apply E3. repeat constructor; auto.
    + intros (stem & _ & M). apply M. rewrite E4 by discriminate. apply (content_put_other [n] _ "" (World [] [n])). discriminate.
Qed.

(** A server that cuts its answer short: the same, without any crash. *)
Theorem C54_short_answers : forall unzip ev c w w' o n, harmless unzip -> folder w -> main unzip ev w = (w', o) -> configuration ev = Some c -> NoDup (wanted c) ->
  enough_space ev c -> o <> Killed -> plain n -> In n (wanted c) -> ~ marked n w -> ~ present n w ->
  (exists data, sent ev n data) -> (forall data, sent ev n data -> ~ valid unzip data) ->
  exists data, sent ev n data /\ forall evs,
    content [n] (runs unzip evs w') = Some data /\ ~ marked n (runs unzip evs w') /\ times n (runs unzip evs w') = times n w'.
Proof.
  intros unzip ev c w w' o n HA F E Ec ND SP NK P I NM NP (d0 & j0 & Hj0 & S0) BAD. destruct (main_phases unzip ev w w' o F E) as [(_ & (x & ->))|(c' & w1 & e & Ec' & D & H)].
  { exfalso. rewrite (space_ok unzip c w ev Ec SP) in E. destruct (download_zips_in_parallel _ c w) as [w1 d]. destruct d; try discriminate; destruct (unzip_files_in_parallel unzip _ c w1) as [w2 u]; destruct u; discriminate. }
  assert (c' = c) by congruence. subst c'. destruct (download_phase _ _ _ _ _ F D) as (F1 & T1 & _ & _ & R & _).
  destruct H as [(_ & _ & ->)|(NS & u & U & Ou)]; [contradiction|]. assert (Z := plain_zip n P).
  assert (IR : In n (remaining c w)) by (apply remaining_spec; split; [exact I|]; split; [tauto|]; rewrite (extracted_spec n w P); exact NM).
  destruct (R ND NS n IR Z) as [(j & Hj & A & B & _)|(_ & B)]; [|exfalso; specialize (B j0 Hj0); apply result_whole in S0; congruence].
  destruct (content [n] w1) as [data|] eqn:C1; [|congruence]. assert (SE : sent ev n data) by (exists j; split; [exact Hj|apply result_whole; congruence]).
  exists data. split; [exact SE|]. destruct (unzip_phase unzip HA _ _ _ _ _ F1 U) as (_ & _ & _ & L & _).
  destruct (L n data Z C1) as [(A' & B')|(_ & V & _)]; [|exfalso; exact (BAD data SE V)].
  apply C54_poisoned; auto; [exact (run_folder unzip HA ev w w' o F E)|]. rewrite marked_path by exact P. rewrite (B' P).
  rewrite <- marked_path by exact P. rewrite (Td_marked _ _ _ n T1). exact NM.
Qed.

(** * Example *)

(** An archive is "PK" followed by the text of one file. *)
Definition ex_unzip (data : string) : list (path * string) * bool :=
  if String.prefix "PK" data then ([(["scenes"; "a.txt"], String.substring 2 (String.length data) data)], true) else ([], false).
Lemma ex_harmless : harmless ex_unzip.
Proof.
  intros data p x I. unfold ex_unzip in I. destruct (String.prefix "PK" data); [|destruct I]. destruct I as [E|[]]. injection E as <- _. split; intros; discriminate.
Qed.
Lemma ex_plain : plain "a.zip".
Proof.
  exists "a". split; [reflexivity|]. split; [intros r E; discriminate|].
  assert (H : forall x, (1 < String.length x)%nat -> ~ occurs x "a").
  { intros x L (p & q & E). apply (f_equal String.length) in E. rewrite !sapp_len in E. cbn in E. lia. }
  split; apply H; cbn; lia.
Qed.

(** No failure: one request and the text is there.  A crash after the first chunk: the
    recovery that one would expect does not happen. *)
Example C53_example :
  let ev := Events (Some (Config ["a.zip"] [])) 16 (fun _ => DownloadRound (fun _ => Body 7 ["P"; "Khello"] true) [0; 0; 0; 0]%nat)
                   (fun _ => UnzipRound (fun _ => None) [0; 0; 0; 0; 0]%nat) in
  let w := fst (main ex_unzip ev (World [] [])) in
  snd (main ex_unzip ev (World [] [])) = Ended Complete Complete /\ content ["scenes"; "a.txt"] w = Some "hello" /\
  content [".cache"; "a.cache"] w = Some "complete" /\ requests w = ["a.zip"] /\ content ["a.zip"] w = None.
Proof. vm_compute. repeat split. Qed.

Theorem C54_recovery_refuted : exists unzip n ev w data, harmless unzip /\ valid unzip data /\ (forall j, whole (replies (download_rounds ev j) n) data) /\
  configuration ev = Some (Config [n] []) /\ main unzip ev (World [] []) = (w, Killed) /\
  forall evs, ~ marked n (runs unzip evs w) /\ present n (runs unzip evs w) /\ times n (runs unzip evs w) = 1%nat.
Proof.
  destruct (C54_killed ex_unzip "a.zip" ["P"] ["Khello"] ex_harmless ex_plain) as (ev & w & A & B & C & D); [reflexivity|discriminate|].
  exists ex_unzip, "a.zip", ev, w, "PKhello". split; [exact ex_harmless|]. split; [reflexivity|]. split; [exact B|]. split; [exact A|]. split; [exact C|].
  intros evs. destruct (D evs) as (X & Y & Z). split; [exact Y|]. split; [unfold present; congruence|exact Z].
Qed.

Print Assumptions C53_extracted_stays.
Print Assumptions C53_archive.
Print Assumptions C53_mark.
Print Assumptions C53_files.
Print Assumptions C53_three_requests.
Print Assumptions C53_success.
Print Assumptions C53_all.
Print Assumptions C53_report.
Print Assumptions C53_downloaded.
Print Assumptions C53_extracted.
Print Assumptions C53_other_names.
Print Assumptions C53_space.
Print Assumptions C54_poisoned.
Print Assumptions C54_killed.
Print Assumptions C54_short_answers.
Print Assumptions C54_recovery_refuted.
