(** C44: saving and loading TIFF images.  C77: the image classes. *)
From Coq Require Import Reals List ZArith Lra Lia Bool String.
From Verif.Depth Require Import Model Spec Proofs Props.
From Verif.Cloud Require Import Model.
From Verif.Base Require Import Py PyFacts Fs FsFacts.
From Verif.Tiff Require Import Model Spec Proofs.
Import ListNotations.
Local Open Scope string_scope.
Local Open Scope list_scope.
Local Open Scope R_scope.

(** * C44 *)

Lemma pixels_of : forall A B C (f : A -> res B) (g : B -> C) (r : A -> C -> Prop) a b c,
  (forall v u, (v < height a)%nat -> (u < width a)%nat -> forall y, f (pixel a v u) = Ok y -> r (pixel a v u) (g y)) ->
  pixelwise f a b -> pixelwise (fun k => Ok (g k)) b c -> pixels r a c.
Proof.
  intros A B C f g r a b c H (H1 & W1 & P1) (H2 & W2 & P2). split; [congruence|]. split; [congruence|].
  intros v u Hv Hu. assert (E := P1 v u Hv Hu). assert (E' := P2 v u ltac:(congruence) ltac:(congruence)).
  injection E' as <-. apply H; auto.
Qed.

(** Saving and then loading gives back the color, category and instance images, the
    depths as far as 16 bits hold them, and nothing else. *)
Theorem C44_roundtrip : forall f32 f64, rounding f32 -> rounding f64 ->
  forall junk16 junkd near m p s s', 0 < near -> f32 (f32 near) = f32 near ->
  NoDup (dkeys m) -> (forall k a, In (k, a) m -> array_filled a) ->
  save f32 f64 junk16 m p near s = (s', Ok tt) ->
  exists a m' d, depth_source m a /\ load f32 f64 junk16 junkd p s' = (s', Ok m') /\
    sget "depth" m' = Some (Array (Float32 d) true) /\ depth_back (f32 near) a d /\
    (exists im, option_map data (sget "rgb" m) = Some (Rgb8 im)) /\
    (forall k, k = "rgb" \/ k = "category" \/ k = "instance" -> option_map data (sget k m') = option_map data (sget k m)) /\
    (forall k, ~ In k ["rgb"; "depth"; "category"; "instance"] -> sget k m' = None).
Proof.
  intros f32 f64 R32 R64 junk16 junkd near m p s s' N ID ND FL SV.
  destruct (trip f32 f64 R32 R64 junk16 junkd near m p s s' N ID ND FL SV) as (a & m' & inv & d & SRC & LO & CO & PD & SD & FI & (im & RG & RG') & LB & REST).
  assert (N32 : 0 < f32 near) by (apply round_pos; auto).
  exists a, m', d. do 3 (split; [assumption|]). split.
  - assert (FA : array_filled a) by (destruct SRC as (l & k & r & -> & _); apply (FL k a), in_or_app; right; left; reflexivity).
    unfold depth_back, coded, array_filled in *. destruct (data a) as [|im'|im'|]; try contradiction.
    + subst inv. destruct PD as (H & W & P). split; [exact H|]. split; [exact W|]. intros v u Hv Hu. assert (E := P v u Hv Hu). injection E as <-.
      apply decode_ok; auto. apply FA; auto.
    + apply (pixels_of _ _ _ _ _ (stored (f32 near)) im' inv d) with (2 := CO) (3 := PD). intros v u _ _ y Y. apply stored_ok; auto.
  - split; [exists im; exact RG|]. split; [|exact REST]. intros k [->|[->| ->]].
    + transitivity (Some (Rgb8 im)); [|symmetry; exact RG]. unfold RGB in RG'. rewrite RG'. reflexivity.
    + destruct (LB "category" (or_introl eq_refl)) as [(A & B)|(i & A & B)]; rewrite B; [rewrite A; reflexivity|symmetry; exact A].
    + destruct (LB "instance" (or_intror eq_refl)) as [(A & B)|(i & A & B)]; rewrite B; [rewrite A; reflexivity|symmetry; exact A].
Qed.

Lemma load_keys : forall f32 f64 junk16 junkd p s s' m, load f32 f64 junk16 junkd p s = (s', Ok m) -> NoDup (dkeys m).
Proof.
  intros f32 f64 junk16 junkd p s s' m E. unfold load, ibind, ilift in E. destruct (readRgbdTiff _ _ _ _) as [s1 [r|]]; [|discriminate].
  apply (f_equal snd) in E. cbn [snd] in E.
  assert (SL : forall l st st', NoDup (dkeys (fst st)) -> foldM (load_slot f32 f64 junk16 (fst r)) st l = Ok st' -> NoDup (dkeys (fst st'))).
  { intros l. induction l as [|t l IH]; intros st st' N Q; cbn [foldM] in Q; [injection Q as <-; exact N|].
    destruct (load_slot f32 f64 junk16 (fst r) st t) as [st1|] eqn:L; [|discriminate]. cbn [bind] in Q. apply (IH st1); [|exact Q]. clear IH Q.
    unfold load_slot in L. destruct (dget tiff_eqb t (fst r)) as [[x|]|]; try (injection L as <-; exact N).
    destruct (mat_empty x); [injection L as <-; exact N|]. unfold load_page, array_from_mat1w in L.
    destruct t, x; cbn [bind] in L; try discriminate; try (injection L as <-; apply NoDup_dset; [exact str_eqb_spec|exact N]).
    destruct (uint16_of_uint8_inverse_depth_map _ _ _ _ _); [|discriminate]. injection L as <-. apply NoDup_dset; [exact str_eqb_spec|exact N]. }
  destruct (foldM (load_slot f32 f64 junk16 (fst r)) ([], depthNearPlane (snd r)) all_types) as [st|] eqn:F; [|discriminate]. cbn [bind] in E. apply SL in F; [|constructor].
  destruct (sgetE Depth (fst st)) as [a|]; [|discriminate]. cbn [bind] in E. destruct (data a); try discriminate.
  destruct (depth_image_of_inverse_depth_map _ _ _ _ _); [|discriminate]. injection E as <-. apply NoDup_dset; [exact str_eqb_spec|exact F].
Qed.

(** The loss happens once: saving what was loaded, with the same near, and loading it
    again gives the same depths exactly. *)
Theorem C44_again : forall f32 f64, rounding f32 -> rounding f64 ->
  forall junk16 junkd near m p s s' p2 s2 m', 0 < near -> f32 (f32 near) = f32 near ->
  NoDup (dkeys m) -> (forall k a, In (k, a) m -> array_filled a) ->
  save f32 f64 junk16 m p near s = (s', Ok tt) -> load f32 f64 junk16 junkd p s' = (s', Ok m') ->
  save f32 f64 junk16 m' p2 near s' = (s2, Ok tt) ->
  exists m2 d d2, load f32 f64 junk16 junkd p2 s2 = (s2, Ok m2) /\
    sget "depth" m' = Some (Array (Float32 d) true) /\ sget "depth" m2 = Some (Array (Float32 d2) true) /\ pixels eq d d2.
Proof.
  intros f32 f64 R32 R64 junk16 junkd near m p s s' p2 s2 m' N ID ND FL SV LO SV'.
  assert (ND' := load_keys _ _ _ _ _ _ _ _ LO).
  destruct (trip f32 f64 R32 R64 junk16 junkd near m p s s' N ID ND FL SV) as (a & m1 & inv & d & SRC & LO1 & CO & PD & SD & FI & (im & RG & RG') & LB & REST).
  rewrite LO in LO1. injection LO1 as <-.
  assert (N32 : 0 < f32 near) by (apply round_pos; auto).
  assert (FA : array_filled a) by (destruct SRC as (l & k & r & -> & _); apply (FL k a), in_or_app; right; left; reflexivity).
  assert (BI : forall v u, (v < height inv)%nat -> (u < width inv)%nat -> (0 <= pixel inv v u <= 65535)%Z).
  { unfold coded, array_filled in *. destruct (data a) as [|im'|im'|]; try contradiction.
    - subst inv. intros v u Hv Hu. apply FA; auto.
    - destruct CO as (H & W & P). intros v u Hv Hu. apply (encode_range f32 f64 R32 R64 (pixel im' v u) (f32 near)); auto. apply P; congruence. }
  assert (FD : filled d). { destruct PD as (H & W & _). destruct FI. split; congruence. }
  assert (FLm : forall k b, In (k, b) m' -> array_filled b).
  { intros k b I. assert (G : sget k m' = Some b) by (apply (dget_NoDup _ str_eqb_spec); auto).
    destruct (in_dec string_dec k [RGB; Depth; Category; Instance]) as [K|K]; [|rewrite (REST k K) in G; discriminate].
    assert (FG : forall x i, option_map data (sget x m) = Some i -> exists c, In (x, c) m /\ data c = i).
    { intros x i Q. destruct (sget x m) as [c|] eqn:E; [|discriminate]. injection Q as <-. exists c. split; [apply (dget_In _ str_eqb_spec); exact E|reflexivity]. }
    unfold array_filled. destruct K as [<-|[<-|[<-|[<-|[]]]]].
    - rewrite RG' in G. injection G as <-. destruct (FG _ _ RG) as (c & I' & D). assert (F := FL _ _ I'). unfold array_filled in F. rewrite D in F. exact F.
    - rewrite SD in G. injection G as <-. exact FD.
    - destruct (LB Category (or_introl eq_refl)) as [(_ & Q)|(i & Q1 & Q2)]; [rewrite Q in G; discriminate|]. rewrite Q2 in G. injection G as <-.
      destruct (FG _ _ Q1) as (c & I' & D). assert (F := FL _ _ I'). unfold array_filled in F. rewrite D in F. exact F.
    - destruct (LB Instance (or_intror eq_refl)) as [(_ & Q)|(i & Q1 & Q2)]; [rewrite Q in G; discriminate|]. rewrite Q2 in G. injection G as <-.
      destruct (FG _ _ Q1) as (c & I' & D). assert (F := FL _ _ I'). unfold array_filled in F. rewrite D in F. exact F. }
  destruct (trip f32 f64 R32 R64 junk16 junkd near m' p2 s' s2 N ID ND' FLm SV') as (a2 & m2 & inv2 & d2 & SRC2 & LO2 & CO2 & PD2 & SD2 & _).
  exists m2, d, d2. do 3 (split; [assumption|]).
  assert (A2 : a2 = Array (Float32 d) true).
  { destruct SRC2 as (l & k & r & E & K & _). assert (I : In (k, a2) m') by (rewrite E; apply in_or_app; right; left; reflexivity).
    assert (G : sget k m' = Some a2) by (apply (dget_NoDup _ str_eqb_spec); auto). destruct K as [->| ->].
    - unfold Depth in SD. congruence.
    - rewrite REST in G; [discriminate|]. cbn. intuition discriminate. }
  subst a2. unfold coded in CO2. cbn [data] in CO2.
  destruct PD as (H & W & P). destruct CO2 as (H2 & W2 & P2). destruct PD2 as (H3 & W3 & P3).
  split; [congruence|]. split; [congruence|]. intros v u Hv Hu.
  assert (E1 := P v u ltac:(congruence) ltac:(congruence)). injection E1 as E1.
  assert (E2 := P2 v u Hv Hu). assert (E3 := P3 v u ltac:(congruence) ltac:(congruence)). injection E3 as E3.
  destruct (C33_code_roundtrip f32 f64 R32 R64 (f32 near) N32) as (RT & _).
  rewrite <- E1 in E2. rewrite RT in E2 by (apply BI; congruence). injection E2 as E2. rewrite <- E3, <- E2. congruence.
Qed.

(** Saving pages of the right types to a path that can be written succeeds, and only
    that file changes. *)
Theorem C44_save : forall f32 f64, rounding f32 -> rounding f64 ->
  forall junk16 near m p s, 0 < near -> (forall k a, In (k, a) m -> storable k a) ->
  In "rgb" (dkeys m) -> (In "depth" (dkeys m) \/ In "invdepth" (dkeys m)) -> writable s p ->
  exists s', save f32 f64 junk16 m p near s = (s', Ok tt) /\
    forall q, resolve s q <> resolve s p -> snd (read q s') = snd (read q s).
Proof.
  intros f32 f64 R32 R64 junk16 near m p s N ST RG DE (W1 & W2 & W3).
  assert (N32 : 0 < f32 near) by (apply round_pos; auto).
  assert (GET : forall k, In k (dkeys m) -> exists a, sget k m = Some a /\ storable k a).
  { intros k I. destruct (sget k m) as [a|] eqn:G.
    - exists a. split; [reflexivity|]. apply ST, (dget_In _ str_eqb_spec), G.
    - apply (dget_None _ str_eqb_spec) in G. contradiction. }
  assert (V : _validate m = Ok tt).
  { unfold _validate, dgetE. change RGB with "rgb". destruct (GET _ RG) as (a & -> & [(_ & _ & im & D)|[(K & _)|(K & _)]]); [|discriminate|intuition discriminate].
    cbn [bind]. rewrite D. cbn [bind]. unfold Depth, InverseDepth.
    destruct (sget "depth" m) as [b|] eqn:G.
    - assert (I : storable "depth" b) by (apply ST, (dget_In _ str_eqb_spec), G).
      destruct I as [(K & _)|[(_ & im' & ->)|(K & _)]]; [discriminate|reflexivity|intuition discriminate].
    - destruct (sget "invdepth" m) as [b|] eqn:G'; [|reflexivity]. assert (I : storable "invdepth" b) by (apply ST, (dget_In _ str_eqb_spec), G').
      destruct I as [(K & _)|[(K & _)|(_ & _ & im' & ->)]]; [discriminate|discriminate|reflexivity]. }
  destruct (C33_maps f32 f64 R32 R64 (f32 near) N32) as (_ & ENC & _).
  assert (PG : forall k a out, storable k a -> exists t x, target k = Some t /\ (forall im, x <> M1b im) /\
             save_page f32 f64 junk16 near out (k, a) = Ok (dset tiff_eqb t x out)).
  { intros k a out [(-> & C & im & D)|[(-> & im & D)|(K & C & im & D)]].
    - exists TRgb, (M3b im). split; [reflexivity|]. split; [discriminate|]. unfold save_page. cbn [String.eqb Ascii.eqb Bool.eqb Depth InverseDepth RGB].
      unfold mat3b_from_array. cbn. rewrite D, C. reflexivity.
    - destruct (ENC junk16 im) as (inv & E & _). exists TInverseDepth, (M1w inv). split; [reflexivity|]. split; [discriminate|].
      unfold save_page. cbn. rewrite D, E. reflexivity.
    - destruct K as [->|[->| ->]]; [exists TInverseDepth, (M1w im)|exists TCategory, (M1w im)|exists TInstance, (M1w im)];
        (split; [reflexivity|]; split; [discriminate|]; unfold save_page, mat1w_from_array; cbn; rewrite D, C; reflexivity). }
  assert (FO : forall l acc, (forall k a, In (k, a) l -> storable k a) -> (forall t im, dget tiff_eqb t acc <> Some (M1b im)) ->
     exists out, foldM (save_page f32 f64 junk16 near) acc l = Ok out /\ (forall t im, dget tiff_eqb t out <> Some (M1b im)) /\
       forall t, dmem tiff_eqb t acc = true \/ (exists k, In k (dkeys l) /\ target k = Some t) -> dmem tiff_eqb t out = true).
  { intros l. induction l as [|[k a] l IH]; intros acc L A.
    - exists acc. split; [reflexivity|]. split; [exact A|]. intros t [H|(k & [] & _)]. exact H.
    - destruct (PG k a acc (L _ _ (or_introl eq_refl))) as (t & x & T & X & E). cbn [foldM]. rewrite E. cbn [bind].
      destruct (IH (dset tiff_eqb t x acc)) as (out & O & O1 & O2).
      + intros k' a' I. apply L. right. exact I.
      + intros t' im. destruct (tiff_eqb_dec t t') as [<-|NE].
        * rewrite (dget_dset_same _ tiff_eqb_spec). intros Q. injection Q as Q. destruct (X im Q).
        * rewrite (dget_dset_other _ tiff_eqb_spec) by exact NE. apply A.
      + exists out. split; [exact O|]. split; [exact O1|]. intros t' [H|(k' & [<-|I] & T')]; apply O2.
        * left. unfold dmem in *. destruct (tiff_eqb_dec t t') as [<-|NE]; [rewrite (dget_dset_same _ tiff_eqb_spec); reflexivity|].
          rewrite (dget_dset_other _ tiff_eqb_spec) by exact NE. exact H.
        * left. cbn [fst] in T'. rewrite T in T'. injection T' as <-. unfold dmem. rewrite (dget_dset_same _ tiff_eqb_spec). reflexivity.
        * right. exists k'. split; assumption. }
  destruct (FO m [] ST ltac:(intros; discriminate)) as (out & O & O1 & O2).
  unfold save, ibind, ilift. rewrite V, O. unfold writeRgbdTiff.
  rewrite (O2 TRgb) by (right; exists "rgb"; split; [exact RG|reflexivity]).
  rewrite (O2 TInverseDepth) by (right; destruct DE as [DE|DE]; [exists "depth"|exists "invdepth"]; (split; [exact DE|reflexivity])).
  cbn [negb].
  assert (WR : forall l acc, exists ds, foldM (fun ds t => match dget tiff_eqb t out with
                | None => Ok ds | Some m => let* d := writeImage m t in Ok (ds ++ [d]) end) acc l = Ok ds).
  { intros l. induction l as [|t l IH]; intros acc; [exists acc; reflexivity|]. cbn [foldM]. destruct (dget tiff_eqb t out) as [x|] eqn:E; [|apply IH].
    destruct x as [im|im|im]; try apply IH. destruct (O1 t im E). }
  destruct (WR all_types []) as (ds & ->). unfold write, write_at. rewrite W2, W3. cbn [andb negb].
  destruct (resolve s p) as [|x l] eqn:RS; [contradiction|]. eexists. split; [reflexivity|].
  intros q Q. unfold read, read_at. cbn [snd files].
  replace (resolve (Fs (dset loc_eqb (x :: l) (Tiff (TiffFile (Some (writeMetadata (Metadata 0 (f32 near)))) ds)) (files s)) (dirs s) (cwd s)) q) with (resolve s q) by (destruct q; reflexivity).
  rewrite (dget_dset_other _ loc_eqb_spec) by congruence. reflexivity.
Qed.

(** Loading any file with readable pages of known names: for each type the last page is
    taken, the depth decoded with the near plane of the file. *)
Theorem C44_load : forall f32 f64, rounding f32 -> rounding f64 ->
  forall junk16 junkd p s t n, read p s = (s, Ok (Tiff t)) -> near_plane f32 (description t) n -> 0 < n ->
  (forall d, In d (directories t) -> good d) ->
  (absent (directories t) TRgb \/ exists im, shows (directories t) TRgb (Three8 im) /\ filled im) ->
  (absent (directories t) TCategory \/ exists c im, shows (directories t) TCategory c /\ labels c im /\ filled im) ->
  (absent (directories t) TInstance \/ exists c im, shows (directories t) TInstance c /\ labels c im /\ filled im) ->
  forall c im, shows (directories t) TInverseDepth c -> filled im ->
  (c = One16 im /\ bounded 65535 im) \/ (c = One8 im /\ bounded 255 im) ->
  exists m d, load f32 f64 junk16 junkd p s = (s, Ok m) /\
    sget "depth" m = Some (Array (Float32 d) true) /\
    pixels (match c with One8 _ => old_decoded (f32 (f64 (3 / 10))) | _ => decoded n end) im d /\
    color_page (directories t) (sget "rgb" m) /\
    label_page (directories t) TCategory (sget "category" m) /\
    label_page (directories t) TInstance (sget "instance" m) /\
    forall k, ~ In k ["rgb"; "depth"; "category"; "instance"] -> sget k m = None.
Proof.
  intros f32 f64 R32 R64 junk16 junkd p s t n E NP N G C1 C2 C3 c im D F K.
  destruct (load_ok f32 f64 R32 R64 junk16 junkd p s t n c E NP N G C1 C2 C3 D) as (m & d & LO & PD & SD & CP & L1 & L2 & REST).
  { destruct K as [(-> & _)|(-> & _)]; exact F. }
  exists m, d. do 2 (split; [assumption|]). split; [|do 3 (split; [assumption|]); exact REST].
  destruct K as [(-> & B)|(-> & B)]; cbn [depth_page] in PD.
  - destruct PD as (H & W & P). split; [exact H|]. split; [exact W|]. intros v u Hv Hu. assert (Q := P v u Hv Hu). injection Q as <-.
    apply decode_ok; auto.
  - destruct PD as (w & P1 & P2). apply (pixels_of _ _ _ _ _ _ im w d) with (2 := P1) (3 := P2).
    intros v u Hv Hu y Y. apply (old_ok f32 f64 R32 R64 _ _ (B v u Hv Hu) Y).
Qed.

(** Loading never changes a file; errors of loading. *)
Theorem C44_load_errors : forall f32 f64, rounding f32 -> rounding f64 -> forall junk16 junkd p s,
  fst (load f32 f64 junk16 junkd p s) = s /\
  ((forall t, read p s <> (s, Ok (Tiff t))) -> snd (load f32 f64 junk16 junkd p s) = Err RuntimeError) /\
  (forall t n, read p s = (s, Ok (Tiff t)) -> near_plane f32 (description t) n -> 0 < n ->
     (* a page the reader stops at *)
     (forall l d r, directories t = l ++ d :: r -> (forall d', In d' l -> good d') ->
        (readable d = false -> (exists t', kind d t') -> snd (load f32 f64 junk16 junkd p s) = Err RuntimeError \/
            exists im, content d = Three16 im) /\
        (forall x b, content d = OtherSamples x b -> ~ (In x [1; 3] /\ In b [8; 16])%nat -> snd (load f32 f64 junk16 junkd p s) = Err RuntimeError) /\
        (forall name, page_name d = Some name -> ~ In name (map fst known_names) ->
           (match content d with OtherSamples _ _ => False | _ => True end) -> snd (load f32 f64 junk16 junkd p s) = Err IndexError)) /\
     (* all pages are readable *)
     ((forall d, In d (directories t) -> good d) ->
        (forall c, shows (directories t) TRgb c -> (forall im, (c = One8 im \/ c = One16 im) -> filled im -> snd (load f32 f64 junk16 junkd p s) = Err ValueError)) /\
        (absent (directories t) TRgb \/ (exists im, shows (directories t) TRgb (Three8 im) /\ filled im) ->
           (forall im, shows (directories t) TInverseDepth (Three8 im) -> filled im -> snd (load f32 f64 junk16 junkd p s) = Err ValueError) /\
           (absent (directories t) TInverseDepth ->
            (absent (directories t) TCategory \/ exists c im, shows (directories t) TCategory c /\ labels c im /\ filled im) ->
            (absent (directories t) TInstance \/ exists c im, shows (directories t) TInstance c /\ labels c im /\ filled im) ->
            snd (load f32 f64 junk16 junkd p s) = Err KeyError)))).
Proof.
  intros f32 f64 R32 R64 junk16 junkd p s.
  assert (PR : forall r, readRgbdTiff f32 p slots0 s = (s, r) -> load f32 f64 junk16 junkd p s = (s,
    match r with Err e => Err e | Ok r =>
      let* st := foldM (load_slot f32 f64 junk16 (fst r)) ([], depthNearPlane (snd r)) all_types in
      let* inv_depth := sgetE Depth (fst st) in
      match data inv_depth with
      | Uint16 im => let* d := depth_image_of_inverse_depth_map f32 f64 junkd im (snd st) in Ok (sset Depth (Array (Float32 d) true) (fst st))
      | _ => Err AssertionError
      end end)).
  { intros r E. unfold load, ibind, ilift. fold slots0. rewrite E. destruct r; reflexivity. }
  assert (ST : exists r, readRgbdTiff f32 p slots0 s = (s, r)).
  { unfold readRgbdTiff, read. destruct (read_at s (resolve s p)) as [[t|]|]; eauto. }
  split; [destruct ST as (r & E); rewrite (PR r E); reflexivity|]. split.
  - intros N. rewrite (PR (Err RuntimeError)); [reflexivity|]. unfold readRgbdTiff. destruct (read p s) as [s1 [[t|]|e]] eqn:E.
    + assert (s1 = s) by (unfold read in E; congruence). subst s1. destruct (N t eq_refl).
    + unfold read in E. congruence.
    + unfold read in E. congruence.
  - intros t n E NP N. split.
    + intros l d r DS GL.
      destruct (near_ok f32 t n NP) as (v & M). destruct (read_pages l slots0 full0 GL) as (slots & F & H).
      assert (FU : full slots). { intros k. unfold dmem. destruct (H k) as [(_ & ->)|(c & m & _ & _ & ->)]; [|reflexivity]. destruct k; reflexivity. }
      assert (ST' : forall e, readImage d slots = Err e -> snd (load f32 f64 junk16 junkd p s) = Err e).
      { intros e Q. rewrite (PR (Err e)); [reflexivity|]. unfold readRgbdTiff. rewrite E, M. cbn [bind]. rewrite DS.
        assert (A : forall l s0 s1, foldM (fun slots d => readImage d slots) s0 l = Ok s1 ->
                 foldM (fun slots d => readImage d slots) s0 (l ++ d :: r) = foldM (fun slots d => readImage d slots) s1 (d :: r)).
        { intros l0. induction l0 as [|x l0 IH]; intros s0 s1 Q1; cbn [foldM app] in *; [injection Q1 as ->; reflexivity|].
          destruct (readImage x s0); [|discriminate]. cbn [bind] in *. apply IH. exact Q1. }
        rewrite (A l _ _ F). cbn [foldM]. rewrite Q. reflexivity. }
      split; [|split].
      * intros RD (t' & K). destruct (content d) as [im|im|im|im|x b] eqn:C.
        2: { right. eauto. }
        all: left; apply ST'; unfold readImage; rewrite C; cbn [samples_per_pixel bits_per_sample Nat.eqb negb andb].
        1-3: assert (T : readTiffPageType d (samples_per_pixel (content d)) = Ok t') by
            (unfold readTiffPageType; unfold kind in K; destruct (page_name d); [apply names_table; exact K|rewrite C in *; subst; reflexivity]);
          rewrite C in T; cbn [samples_per_pixel] in T; rewrite T; cbn [bind]; rewrite FU; cbn [negb bind]; rewrite RD; reflexivity.
        destruct (negb (x =? 3)%nat && negb (x =? 1)%nat); [reflexivity|]. destruct (negb (b =? 8)%nat && negb (b =? 16)%nat); [reflexivity|].
        unfold readTiffPageType. unfold kind in K. destruct (page_name d); [|rewrite C in K; contradiction].
        apply names_table in K. rewrite K. cbn [bind]. rewrite FU. reflexivity.
      * intros x b C NI. apply ST'. unfold readImage. rewrite C. cbn [samples_per_pixel bits_per_sample].
        destruct (negb (x =? 3)%nat && negb (x =? 1)%nat) eqn:X; [reflexivity|]. destruct (negb (b =? 8)%nat && negb (b =? 16)%nat) eqn:B; [reflexivity|].
        exfalso. apply NI. apply andb_false_iff in X, B. rewrite !negb_false_iff, !Nat.eqb_eq in *. cbn. lia.
      * intros name PN NI C. apply ST'. unfold readImage.
        assert (T : strToPageType name = Err IndexError).
        { destruct (strToPageType name) as [t'|e] eqn:Q.
          - exfalso. apply NI. apply names_table in Q. apply (in_map fst) in Q. exact Q.
          - unfold strToPageType in Q. destruct (sget name kStrToPageType); congruence. }
        unfold readTiffPageType. rewrite PN. destruct (content d); try contradiction; cbn [samples_per_pixel bits_per_sample Nat.eqb negb andb]; rewrite T; reflexivity.
    + intros G. destruct (load_reads f32 p s t n E NP G) as (slots & v & RD & H). specialize (PR _ RD). cbn [fst snd depthNearPlane] in PR.
      rewrite PR. clear PR. unfold all_types. cbn [snd foldM]. split.
      * intros c S im C FI. assert (L : load_slot f32 f64 junk16 slots ([], n) TRgb = Err ValueError).
        { unfold load_slot. destruct (H TRgb) as [(A & _)|(c' & m & S' & M & ->)]; [destruct (shows_absent _ _ _ S A)|].
          rewrite (shows_fun _ _ _ _ S' S) in M. assert (NE : mat_empty m = false) by (apply (filled_mat _ _ M); destruct C as [->| ->]; exact FI).
          rewrite NE. destruct C as [->| ->]; injection M as <-; reflexivity. }
        rewrite L. reflexivity.
      * intros C1. destruct (load_rgb f32 f64 junk16 _ slots ([], n) (H TRgb) C1) as (r1 & P1 & L1). rewrite L1. cbn [bind fst snd]. split.
        -- intros im S FI. assert (L : load_slot f32 f64 junk16 slots (put RGB r1 [], n) TInverseDepth = Err ValueError).
           { unfold load_slot. destruct (H TInverseDepth) as [(A & _)|(c' & m & S' & M & ->)]; [destruct (shows_absent _ _ _ S A)|].
             rewrite (shows_fun _ _ _ _ S' S) in M. rewrite (filled_mat _ _ M FI). injection M as <-. reflexivity. }
           rewrite L. reflexivity.
        -- intros A C2 C3. assert (L : load_slot f32 f64 junk16 slots (put RGB r1 [], n) TInverseDepth = Ok (put RGB r1 [], n)).
           { unfold load_slot. destruct (H TInverseDepth) as [(_ & ->)|(c' & m & S' & _)]; [reflexivity|destruct (shows_absent _ _ _ S' A)]. }
           rewrite L. cbn [bind].
           destruct (load_labels f32 f64 junk16 _ slots (put RGB r1 [], n) TCategory Category (or_introl (conj eq_refl eq_refl)) (H TCategory) C2) as (r3 & P3 & L3).
           rewrite L3. cbn [bind fst snd].
           destruct (load_labels f32 f64 junk16 _ slots (put Category r3 (put RGB r1 []), n) TInstance Instance (or_intror (conj eq_refl eq_refl)) (H TInstance) C3) as (r4 & P4 & L4).
           rewrite L4. cbn [bind fst snd]. destruct r1, r3, r4; reflexivity.
Qed.

(** The metadata: a description that is not a JSON object, or has members of the wrong
    type, raises RuntimeError. *)
Theorem C44_bad_metadata : forall f32 f64 junk16 junkd p s t, read p s = (s, Ok (Tiff t)) ->
  (forall n, ~ near_plane f32 (description t) n) -> load f32 f64 junk16 junkd p s = (s, Err RuntimeError).
Proof.
  intros f32 f64 junk16 junkd p s t E N. unfold load, ibind, ilift. unfold readRgbdTiff at 1. rewrite E.
  assert (M : readMetadata f32 t = Err RuntimeError); [|rewrite M; reflexivity].
  unfold readMetadata. destruct (description t) as [j|] eqn:D; [|destruct (N 1); constructor].
  destruct j as [k|x|l|]; try reflexivity.
  destruct (sget "version" l) as [jv|] eqn:V.
  - destruct jv as [k|x|l'|]; try reflexivity. cbn [get_int64 bind].
    assert (VO : forall j, sget "version" l = Some j -> exists k, j = JInt k) by (intros j Q; rewrite V in Q; injection Q as <-; eauto).
    destruct (sget "near" l) as [jn|] eqn:NE; [|destruct (N 1); apply no_near; auto].
    destruct jn as [k'|x|l'|]; try reflexivity; exfalso; eapply N; eapply with_near; eauto; constructor.
  - assert (VO : forall j, sget "version" l = Some j -> exists k, j = JInt k) by (intros j Q; congruence). cbn [bind].
    destruct (sget "near" l) as [jn|] eqn:NE; [|destruct (N 1); apply no_near; auto].
    destruct jn as [k'|x|l'|]; try reflexivity; exfalso; eapply N; eapply with_near; eauto; constructor.
Qed.

(** Errors of saving; a failed save writes nothing. *)
Theorem C44_save_errors : forall f32 f64 junk16 m p near s,
  (forall s' e, save f32 f64 junk16 m p near s = (s', Err e) -> s' = s) /\
  (~ In "rgb" (dkeys m) -> snd (save f32 f64 junk16 m p near s) = Err KeyError) /\
  (forall a, sget "rgb" m = Some a -> (forall im, data a <> Rgb8 im) -> snd (save f32 f64 junk16 m p near s) = Err ValueError) /\
  (forall a im, sget "rgb" m = Some a -> data a = Rgb8 im ->
     (forall b, sget "depth" m = Some b -> (forall im, data b <> Float32 im) -> snd (save f32 f64 junk16 m p near s) = Err ValueError) /\
     (forall b, sget "depth" m = None -> sget "invdepth" m = Some b -> (forall im, data b <> Uint16 im) -> snd (save f32 f64 junk16 m p near s) = Err ValueError)) /\
  (forall im rest, m = [("rgb", Array (Rgb8 im) true)] ++ rest -> (forall k a, In (k, a) rest -> (k = "category" \/ k = "instance") /\ exists i, a = Array (Uint16 i) true) ->
     snd (save f32 f64 junk16 m p near s) = Err RuntimeError) /\
  (forall l k a r, m = l ++ (k, a) :: r -> ~ In k ["rgb"; "depth"; "invdepth"; "category"; "instance"] ->
     forall s', save f32 f64 junk16 m p near s <> (s', Ok tt)).
Proof.
  intros f32 f64 junk16 m p near s.
  assert (VD : forall e, _validate m = Err e -> snd (save f32 f64 junk16 m p near s) = Err e).
  { intros e V. unfold save, ibind, ilift. rewrite V. reflexivity. }
  split; [|split; [|split; [|split; [|split]]]].
  - intros s' e E. unfold save, ibind, ilift in E. destruct (_validate m); [|injection E; auto].
    destruct (foldM (save_page f32 f64 junk16 near) [] m) as [out|]; [|injection E; auto].
    unfold writeRgbdTiff in E. destruct (negb (dmem tiff_eqb TRgb out)); [injection E; auto|]. destruct (negb (dmem tiff_eqb TInverseDepth out)); [injection E; auto|].
    destruct (foldM _ [] all_types) as [ds|]; [|injection E; auto].
    unfold write, write_at in E. destruct (resolve s p); [injection E; auto|]. destruct (_ && _); [discriminate|injection E; auto].
  - intros N. apply VD. unfold _validate. assert (G : sget RGB m = None).
    { destruct (sget RGB m) as [a|] eqn:G; [|reflexivity]. exfalso. apply N. apply (dget_In _ str_eqb_spec) in G. apply (in_map fst) in G. exact G. }
    unfold dgetE. rewrite G. reflexivity.
  - intros a G D. apply VD. unfold _validate, dgetE. change RGB with "rgb". rewrite G. cbn [bind]. destruct (data a) as [im| | |]; try reflexivity. destruct (D im eq_refl).
  - intros a im G D. split; [intros b B N|intros b B0 B N]; apply VD; unfold _validate, dgetE; change RGB with "rgb"; rewrite G; cbn [bind]; rewrite D; cbn [bind]; unfold Depth, InverseDepth.
    + rewrite B. destruct (data b) as [| |im'|]; try reflexivity. destruct (N im' eq_refl).
    + rewrite B0, B. destruct (data b) as [|im'| |]; try reflexivity. destruct (N im' eq_refl).
  - intros im rest -> R. 
    assert (ND : forall k, k = Depth \/ k = InverseDepth -> sget k ([("rgb", Array (Rgb8 im) true)] ++ rest) = None).
    { intros k K. destruct (sget k _) as [a|] eqn:G; [|reflexivity]. exfalso. apply (dget_In _ str_eqb_spec) in G. destruct G as [G|G].
      - injection G as <- _. destruct K; discriminate.
      - destruct (R _ _ G) as ([->| ->] & _); destruct K; discriminate. }
    assert (V : _validate ([("rgb", Array (Rgb8 im) true)] ++ rest) = Ok tt).
    { unfold _validate. rewrite (ND Depth), (ND InverseDepth) by auto. reflexivity. }
    assert (SP : exists out, foldM (save_page f32 f64 junk16 near) [] ([("rgb", Array (Rgb8 im) true)] ++ rest) = Ok out /\ dget tiff_eqb TInverseDepth out = None).
    { assert (GEN : forall l acc, dget tiff_eqb TInverseDepth acc = None ->
          (forall k a, In (k, a) l -> (k = "category" \/ k = "instance") /\ exists i, a = Array (Uint16 i) true) ->
          exists out, foldM (save_page f32 f64 junk16 near) acc l = Ok out /\ dget tiff_eqb TInverseDepth out = None).
      { intros l. induction l as [|[k a] l IH]; intros acc A L; [exists acc; auto|].
        destruct (L k a (or_introl eq_refl)) as (K & i & ->).
        assert (Q : exists t, t <> TInverseDepth /\ save_page f32 f64 junk16 near acc (k, Array (Uint16 i) true) = Ok (dset tiff_eqb t (M1w i) acc)).
        { destruct K as [->| ->]; [exists TCategory|exists TInstance]; (split; [discriminate|reflexivity]). }
        destruct Q as (t & T & Q). cbn [foldM]. rewrite Q. cbn [bind]. apply IH.
        - rewrite (dget_dset_other _ tiff_eqb_spec) by congruence. exact A.
        - intros k' a' I. apply L. right. exact I. }
      cbn [app foldM]. apply (GEN rest [(TRgb, M3b im)]); [reflexivity|exact R]. }
    destruct SP as (out & SP & DO). unfold save, ibind, ilift. rewrite V, SP. unfold writeRgbdTiff.
    destruct (negb (dmem tiff_eqb TRgb out)); [reflexivity|]. unfold dmem. rewrite DO. reflexivity.
  - intros l k a r E K s' SV. destruct (save_inv _ _ _ _ _ _ _ _ SV) as (out & SP & _). rewrite E in SP. clear E SV. revert SP. generalize (@nil (tiff_type * mat)) as acc.
    induction l as [|[k' a'] l IH]; intros acc SP; cbn [app foldM] in SP.
    + destruct (save_page f32 f64 junk16 near acc (k, a)) as [o|] eqn:Q; [|discriminate]. destruct (save_page_inv _ _ _ _ _ _ _ _ Q) as (t & x & T & _).
      apply K. unfold target in T. cbn.
      repeat match type of T with context [String.eqb k ?x] => destruct (String.eqb_spec k x) as [->|_]; [tauto|] end. discriminate.
    + destruct (save_page f32 f64 junk16 near acc (k', a')) as [o|]; [|discriminate]. cbn [bind] in SP.
      exact (IH o SP).
Qed.

(** A page of three 16 bit samples is written past the end of its image. *)
Theorem C44_wide_rgb_refuted : exists t, forall f32 f64 junk16 junkd p s, read p s = (s, Ok (Tiff t)) ->
  (forall d, In d (directories t) -> readable d = true /\ exists k, kind d k) /\
  snd (load f32 f64 junk16 junkd p s) = Err Undefined.
Proof.
  exists (TiffFile None [Directory (Some "rgb") (Three16 (Image 1 1 (fun _ _ => Color 0 0 0))) true]). intros f32 f64 junk16 junkd p s E. split.
  - intros d [<-|[]]. split; [reflexivity|]. exists TRgb. cbn. auto.
  - unfold load, ibind, ilift, readRgbdTiff. rewrite E. reflexivity.
Qed.

(** * C77 *)

(** The constructors take images of the right types, keep them, and refuse all others. *)
Theorem C77_new : forall rgb range category inst,
  (((exists im, data rgb = Rgb8 im) /\ (exists im, data range = Float32 im)) ->
     exists x, new_rgbd360 rgb range = Ok x /\ r_rgb x = rgb /\ r_range x = range) /\
  (~ ((exists im, data rgb = Rgb8 im) /\ (exists im, data range = Float32 im)) -> new_rgbd360 rgb range = Err TypeError) /\
  (((exists im, data rgb = Rgb8 im) /\ (exists im, data range = Float32 im) /\ (exists im, data category = Uint16 im) /\ (exists im, data inst = Uint16 im)) ->
     exists x, new_rgbdci360 rgb range category inst = Ok x /\ c_rgb x = rgb /\ c_range x = range /\ c_category x = category /\ c_instance x = inst) /\
  (~ ((exists im, data rgb = Rgb8 im) /\ (exists im, data range = Float32 im) /\ (exists im, data category = Uint16 im) /\ (exists im, data inst = Uint16 im)) ->
     new_rgbdci360 rgb range category inst = Err TypeError).
Proof.
  intros rgb range category inst. unfold new_rgbd360, new_rgbdci360. split; [|split; [|split]].
  - intros ((i1 & ->) & i2 & ->). eexists. split; [reflexivity|]. auto.
  - intros N. destruct (data rgb) as [i1| | |]; try reflexivity. destruct (data range) as [| |i2|]; try reflexivity. destruct N. split; eexists; reflexivity.
  - intros ((i1 & ->) & (i2 & ->) & (i3 & ->) & i4 & ->). eexists. split; [reflexivity|]. auto.
  - intros N. destruct (data rgb) as [i1| | |]; try reflexivity. destruct (data range) as [| |i2|]; try reflexivity.
    destruct (data category) as [|i3| |]; try reflexivity. destruct (data inst) as [|i4| |]; try reflexivity. destruct N. do 3 (split; [eexists; reflexivity|]). eexists; reflexivity.
Qed.

Lemma option_data : forall (o : option array) d, option_map data o = Some d -> exists a, o = Some a /\ data a = d.
Proof. intros [a|] d E; [|discriminate]. injection E as <-. eauto. Qed.

Lemma sgetE_get : forall (k : string) (m : pages), sgetE k m = match sget k m with Some a => Ok a | None => Err KeyError end.
Proof. reflexivity. Qed.

(** Rgbd360: what was saved is loaded; Rgbdci360 cannot load it. *)
Theorem C77_rgbd : forall f32 f64, rounding f32 -> rounding f64 -> forall junk16 junkd near rgb range x p s,
  0 < near -> f32 (f32 near) = f32 near -> new_rgbd360 rgb range = Ok x -> array_filled rgb -> array_filled range ->
  contiguous rgb = true -> writable s p ->
  exists s' y i r d, rgbd360_save f32 f64 junk16 x p near s = (s', Ok tt) /\ rgbd360_load f32 f64 junk16 junkd p s' = (s', Ok y) /\
    data (r_rgb y) = Rgb8 i /\ data rgb = Rgb8 i /\ data range = Float32 r /\ data (r_range y) = Float32 d /\ pixels (stored (f32 near)) r d /\
    rgbdci360_load f32 f64 junk16 junkd p s' = (s', Err KeyError).
Proof.
  intros f32 f64 R32 R64 junk16 junkd near rgb range x p s N ID NW F1 F2 C W.
  unfold new_rgbd360 in NW. destruct (data rgb) as [i| | |] eqn:D1; try discriminate. destruct (data range) as [| |r|] eqn:D2; try discriminate.
  injection NW as <-. unfold rgbd360_save. cbn [r_rgb r_range].
  set (m := [(RGB, rgb); (Depth, range)]).
  assert (FL : forall k a, In (k, a) m -> array_filled a) by (intros k a [Q|[Q|[]]]; injection Q as <- <-; assumption).
  assert (ND : NoDup (dkeys m)) by (repeat constructor; cbn; intuition discriminate).
  destruct (C44_save f32 f64 R32 R64 junk16 near m p s N) as (s' & SV & _); auto.
  { intros k a [Q|[Q|[]]]; injection Q as <- <-; [left; eauto|right; left; eauto]. }
  { left; reflexivity. }
  { left; right; left; reflexivity. }
  destruct (C44_roundtrip f32 f64 R32 R64 junk16 junkd near m p s s' N ID ND FL SV) as (a & m' & d & SRC & LO & SD & DB & _ & KE & _).
  assert (A : a = range).
  { destruct SRC as (l & k & r' & E & K & _). assert (I : In (k, a) m) by (rewrite E; apply in_or_app; right; left; reflexivity).
    destruct I as [Q|[Q|[]]]; injection Q; intros; subst; [|reflexivity]. destruct K; discriminate. }
  subst a. unfold depth_back in DB. rewrite D2 in DB.
  assert (K1 := KE "rgb" (or_introl eq_refl)). cbn in K1. rewrite D1 in K1. destruct (option_data _ _ K1) as (b & B1 & B2).
  assert (K2 := KE "category" (or_intror (or_introl eq_refl))). cbn in K2. destruct (sget "category" m') as [c|] eqn:Q2; [discriminate|].
  exists s', (Rgbd360 b (Array (Float32 d) true)), i, r, d. split; [exact SV|].
  split; [|repeat (split; [first [assumption | reflexivity]|])].
  - unfold rgbd360_load, ibind, ilift. rewrite LO, !sgetE_get. unfold RGB, Depth. rewrite B1, SD. cbn [bind]. unfold new_rgbd360. rewrite B2. reflexivity.
  - unfold rgbdci360_load, ibind, ilift. rewrite LO, !sgetE_get. unfold RGB, Depth, Category. rewrite B1, SD, Q2. reflexivity.
Qed.

(** Rgbdci360: what was saved is loaded; Rgbd360 loads two of the images. *)
Theorem C77_rgbdci : forall f32 f64, rounding f32 -> rounding f64 -> forall junk16 junkd near rgb range category inst x p s,
  0 < near -> f32 (f32 near) = f32 near -> new_rgbdci360 rgb range category inst = Ok x ->
  (forall a, In a [rgb; range; category; inst] -> array_filled a) -> (forall a, In a [rgb; category; inst] -> contiguous a = true) -> writable s p ->
  exists s' y z r d, rgbdci360_save f32 f64 junk16 x p near s = (s', Ok tt) /\ rgbdci360_load f32 f64 junk16 junkd p s' = (s', Ok y) /\
    data (c_rgb y) = data rgb /\ data (c_category y) = data category /\ data (c_instance y) = data inst /\
    data range = Float32 r /\ data (c_range y) = Float32 d /\ pixels (stored (f32 near)) r d /\
    rgbd360_load f32 f64 junk16 junkd p s' = (s', Ok z) /\ r_rgb z = c_rgb y /\ r_range z = c_range y.
Proof.
  intros f32 f64 R32 R64 junk16 junkd near rgb range category inst x p s N ID NW F C W.
  unfold new_rgbdci360 in NW. destruct (data rgb) as [i| | |] eqn:D1; try discriminate. destruct (data range) as [| |r|] eqn:D2; try discriminate.
  destruct (data category) as [|i3| |] eqn:D3; try discriminate. destruct (data inst) as [|i4| |] eqn:D4; try discriminate.
  injection NW as <-. unfold rgbdci360_save. cbn [c_rgb c_range c_category c_instance].
  set (m := [(RGB, rgb); (Depth, range); (Category, category); (Instance, inst)]).
  assert (FL : forall k a, In (k, a) m -> array_filled a) by (intros k a [Q|[Q|[Q|[Q|[]]]]]; injection Q as <- <-; apply F; cbn; tauto).
  assert (ND : NoDup (dkeys m)) by (repeat constructor; cbn; intuition discriminate).
  assert (C1 := C rgb ltac:(cbn; tauto)). assert (C3 := C category ltac:(cbn; tauto)). assert (C4 := C inst ltac:(cbn; tauto)).
  destruct (C44_save f32 f64 R32 R64 junk16 near m p s N) as (s' & SV & _); auto.
  { intros k a [Q|[Q|[Q|[Q|[]]]]]; injection Q as <- <-; [left|right; left|right; right|right; right]; unfold Category, Instance; eauto 10. }
  { left; reflexivity. }
  { left; right; left; reflexivity. }
  destruct (C44_roundtrip f32 f64 R32 R64 junk16 junkd near m p s s' N ID ND FL SV) as (a & m' & d & SRC & LO & SD & DB & _ & KE & _).
  assert (A : a = range).
  { destruct SRC as (l & k & r' & E & K & _). assert (I : In (k, a) m) by (rewrite E; apply in_or_app; right; left; reflexivity).
    destruct I as [Q|[Q|[Q|[Q|[]]]]]; injection Q; intros; subst; try reflexivity; destruct K; discriminate. }
  subst a. unfold depth_back in DB. rewrite D2 in DB.
  assert (K1 := KE "rgb" (or_introl eq_refl)). cbn in K1. rewrite D1 in K1. destruct (option_data _ _ K1) as (b & B1 & B2).
  assert (K3 := KE "category" (or_intror (or_introl eq_refl))). cbn in K3. rewrite D3 in K3. destruct (option_data _ _ K3) as (b3 & B3 & B3').
  assert (K4 := KE "instance" (or_intror (or_intror eq_refl))). cbn in K4. rewrite D4 in K4. destruct (option_data _ _ K4) as (b4 & B4 & B4').
  exists s', (Rgbdci360 b (Array (Float32 d) true) b3 b4), (Rgbd360 b (Array (Float32 d) true)), r, d. split; [exact SV|].
  split; [|repeat (split; [first [assumption | reflexivity | congruence]|])].
  - unfold rgbdci360_load, ibind, ilift. rewrite LO, !sgetE_get. unfold RGB, Depth, Category, Instance. rewrite B1, SD, B3, B4. cbn [bind]. unfold new_rgbdci360. rewrite B2, B3', B4'. reflexivity.
  - split; [|split; reflexivity]. unfold rgbd360_load, ibind, ilift. rewrite LO, !sgetE_get. unfold RGB, Depth. rewrite B1, SD. cbn [bind]. unfold new_rgbd360. rewrite B2. reflexivity.
Qed.

(** MultiImageTiff: the properties are the pages, or None; after saving and loading,
    color and labels are the same and the range is the stored depth. *)
Theorem C77_multi : forall f32 f64, rounding f32 -> rounding f64 -> forall junk16 junkd near m p s s', 0 < near -> f32 (f32 near) = f32 near ->
  NoDup (dkeys m) -> (forall k a, In (k, a) m -> array_filled a) ->
  (forall a, (In ("rgb", a) m <-> multi_rgb m = Some a) /\ (In ("depth", a) m <-> multi_range m = Some a) /\
             (In ("category", a) m <-> multi_category m = Some a) /\ (In ("instance", a) m <-> multi_instance m = Some a)) /\
  (multi_save f32 f64 junk16 m p near s = (s', Ok tt) ->
   exists m', multi_load f32 f64 junk16 junkd p s' = (s', Ok m') /\
    option_map data (multi_rgb m') = option_map data (multi_rgb m) /\
    option_map data (multi_category m') = option_map data (multi_category m) /\
    option_map data (multi_instance m') = option_map data (multi_instance m) /\
    exists a d, depth_source m a /\ multi_range m' = Some (Array (Float32 d) true) /\ depth_back (f32 near) a d).
Proof.
  intros f32 f64 R32 R64 junk16 junkd near m p s s' N ID ND FL.
  assert (G : forall k m, get_image k m = sget k m). { intros k m0. unfold get_image, dmem. destruct (sget k m0); reflexivity. }
  unfold multi_rgb, multi_range, multi_category, multi_instance. rewrite !G. split.
  - intros a. assert (Q : forall k, In (k, a) m <-> sget k m = Some a).
    { intros k. split; intros I; [apply (dget_NoDup _ str_eqb_spec); assumption|apply (dget_In _ str_eqb_spec); exact I]. }
    rewrite !Q. repeat split; auto.
  - intros SV. destruct (C44_roundtrip f32 f64 R32 R64 junk16 junkd near m p s s' N ID ND FL SV) as (a & m' & d & SRC & LO & SD & DB & _ & KE & _).
    exists m'. split; [exact LO|]. rewrite !G. do 3 (split; [apply KE; cbn; tauto|]). eauto.
Qed.

(** A 1x2 picture with depths 3/2 and infinity, and near plane 3/10. *)
Example C44_example :
  let id := fun x : R => x in let rgb := Image 1 2 (fun _ u => Color (Z.of_nat u) 7 9) in
  let range := Image 1 2 (fun _ u => match u with O => Fin (3 / 2) | _ => Inf end) in
  let s := Fs (A := file) [] [] [] in
  exists s' m d, save id id (fun _ _ => 0%Z) [("rgb", Array (Rgb8 rgb) true); ("depth", Array (Float32 range) true)] (Rel ["a.tif"]) (3 / 10) s = (s', Ok tt) /\
    load id id (fun _ _ => 0%Z) (fun _ _ => Inf) (Rel ["a.tif"]) s' = (s', Ok m) /\
    sget "depth" m = Some (Array (Float32 d) true) /\ pixels (stored (3 / 10)) range d /\ sget "category" m = None.
Proof.
  intros id rgb range s. assert (RI := rounding_exists).
  set (m := [("rgb", Array (Rgb8 rgb) true); ("depth", Array (Float32 range) true)]).
  assert (N : 0 < 3 / 10) by lra.
  assert (FL : forall k a, In (k, a) m -> array_filled a).
  { intros k a [Q|[Q|[]]]; injection Q as <- <-; split; cbn; lia. }
  assert (ND : NoDup (dkeys m)) by (repeat constructor; cbn; intuition discriminate).
  destruct (C44_save id id RI RI (fun _ _ => 0%Z) (3 / 10) m (Rel ["a.tif"]) s N) as (s' & SV & _).
  { intros k a [Q|[Q|[]]]; injection Q as <- <-; [left|right; left]; [split; [reflexivity|]; split; [reflexivity|]|split; [reflexivity|]]; eexists; reflexivity. }
  { left; reflexivity. }
  { left; right; left; reflexivity. }
  { split; [discriminate|]. split; reflexivity. }
  destruct (C44_roundtrip id id RI RI (fun _ _ => 0%Z) (fun _ _ => Inf) (3 / 10) m (Rel ["a.tif"]) s s' N eq_refl ND FL SV) as (a & m' & d & SRC & LO & SD & DB & _ & KE & _).
  assert (A : a = Array (Float32 range) true).
  { destruct SRC as (l & k & r' & E & K & _). assert (I : In (k, a) m) by (rewrite E; apply in_or_app; right; left; reflexivity).
    destruct I as [Q|[Q|[]]]; injection Q; intros; subst; [|reflexivity]. destruct K; discriminate. }
  subst a. exists s', m', d. do 4 (split; [assumption|]).
  assert (K2 := KE "category" (or_intror (or_introl eq_refl))). cbn in K2. destruct (sget "category" m'); [discriminate|reflexivity].
Qed.

Print Assumptions C44_roundtrip.
Print Assumptions C44_again.
Print Assumptions C44_save.
Print Assumptions C44_load.
Print Assumptions C44_load_errors.
Print Assumptions C44_bad_metadata.
Print Assumptions C44_save_errors.
Print Assumptions C44_wide_rgb_refuted.
Print Assumptions C77_new.
Print Assumptions C77_rgbd.
Print Assumptions C77_rgbdci.
Print Assumptions C77_multi.
