From Coq Require Import Reals List ZArith Lra Lia Bool String.
From Verif.Depth Require Import Model Spec Proofs Props.
From Verif.Cloud Require Import Model.
From Verif.Base Require Import Py PyFacts Fs FsFacts.
From Verif.Tiff Require Import Model Spec.
Import ListNotations.
Local Open Scope string_scope.
Local Open Scope list_scope.

Lemma tiff_eqb_spec : forall a b, tiff_eqb a b = true <-> a = b.
Proof. intros [] []; split; cbn; congruence. Qed.
Lemma tiff_eqb_dec : forall a b, reflect (a = b) (tiff_eqb a b).
Proof. intros [] []; constructor; congruence. Qed.

(** * Depths *)

Section Codes.
  Local Open Scope R_scope.
  Variables f32 f64 : R -> R.
  Hypothesis R32 : rounding f32.
  Hypothesis R64 : rounding f64.

  Lemma decode_ok : forall near k, 0 < near -> (0 <= k <= 65535)%Z -> decoded near k (depth_of_inverse_depth f32 f64 k near).
  Proof.
    intros near k N K. unfold depth_of_inverse_depth, decoded. destruct (Z.eqb_spec k 0) as [->|NZ]; [left; auto|right].
    split; [exact NZ|]. eexists. split; [|split; [reflexivity|]].
    - apply round_pos; auto. apply round_pos; auto. apply Rmult_lt_0_compat; [apply round_pos; auto|apply Rinv_0_lt_compat, IZR_lt; lia].
      apply Rmult_lt_0_compat; [exact N|]. unfold PIXEL_MAX. lra.
    - assert (U := u_pos). assert (UV := u_val). unfold PIXEL_MAX.
      assert (KB : 1 <= IZR k <= 65535) by (split; apply IZR_le; lia).
      assert (D := decode_near 65535 (IZR k) near f64 f32 R64 R32 N ltac:(lra) ltac:(lra)).
      assert (P : 0 < near * 65535 / IZR k) by (apply Rmult_lt_0_compat; [lra|apply Rinv_0_lt_compat; lra]).
      assert (I := near_inv (5 * u) _ _ (near * 65535) ltac:(lra) P ltac:(lra) D).
      replace (near * 65535 / (near * 65535 / IZR k)) with (IZR k) in I by (field; lra).
      assert (BD := near_abs (2 * (5 * u)) 65535 (IZR k) _ ltac:(lra) ltac:(lra) I).
      rewrite UV in BD. unfold Rabs. destruct (Rcase_abs _); lra.
  Qed.

  Lemma encode_range : forall d near k, 0 < near -> inverse_depth_of_depth f64 d near = Ok k -> (0 <= k <= 65535)%Z.
  Proof.
    intros d near k N E. destruct (C33_clipping f32 f64 R32 R64 near N) as (T & _). destruct (T d) as (k' & E' & K). congruence.
  Qed.

  Lemma stored_ok : forall d near k, 0 < near -> inverse_depth_of_depth f64 d near = Ok k ->
    stored near d (depth_of_inverse_depth f32 f64 k near).
  Proof.
    intros d near k N E. destruct (C33_clipping f32 f64 R32 R64 near N) as (_ & _ & Z0 & NR). unfold stored. destruct d as [x|].
    - destruct (Req_EM_T x 0) as [->|NZ].
      + destruct (Z0 (Fin 0) (or_intror eq_refl)) as (E' & _). rewrite E in E'. injection E' as ->. reflexivity.
      + destruct (Rle_dec x near) as [L|L].
        * destruct (NR x L NZ) as (E' & _). rewrite E in E'. injection E' as ->.
          destruct (decode_ok near 65535 N ltac:(lia)) as [(Q & _)|(_ & y & Y & -> & B)]; [discriminate|]. cbn [per]. lra.
        * destruct (C33_quantisation f32 f64 R32 R64 near x ltac:(lra)) as (k' & E' & B). rewrite E in E'. injection E' as ->. exact B.
    - destruct (Z0 Inf (or_introl eq_refl)) as (E' & _). rewrite E in E'. injection E' as ->. reflexivity.
  Qed.

  Lemma old_ok : forall k j, (0 <= k <= 255)%Z -> inverse_depth_from_uint8 f32 f64 k 1 = Ok j ->
    (0 <= j <= 65535)%Z /\
    old_decoded (default_near32 f32 f64) k (depth_of_inverse_depth f32 f64 j (default_near32 f32 f64)).
  Proof.
    intros k j K E. assert (U := u_pos). assert (UV := u_val).
    assert (N0 : near_to u (3 / 10) (f64 (3 / 10))) by (apply round_near; auto; lra).
    assert (N1 : 0 < f64 (3 / 10)) by (apply round_pos; auto; lra).
    assert (N2 : near_to u (f64 (3 / 10)) (f32 (f64 (3 / 10)))) by (apply round_near; auto; lra).
    assert (N3 := near_trans u u (3 / 10) _ _ ltac:(lra) ltac:(lra) ltac:(lra) ltac:(lra) ltac:(lra) N0 N2).
    assert (N : 1 / 4 < default_near32 f32 f64 < 4 / 10).
    { unfold default_near32, default_near64. destruct N3 as (A & B). rewrite UV in *. lra. }
    set (n := default_near32 f32 f64) in *. unfold inverse_depth_from_uint8 in E. fold n in E.
    assert (JR := encode_range _ n j ltac:(lra) E). split; [exact JR|].
    unfold depth_of_uint8_inverse_depth in E. destruct (Z.eqb_spec k 0) as [->|NZ].
    { destruct (C33_clipping f32 f64 R32 R64 n ltac:(lra)) as (_ & _ & Z0 & _).
      destruct (Z0 Inf (or_introl eq_refl)) as (E' & _). rewrite E in E'. injection E' as ->. left. auto. }
    right. split; [exact NZ|]. assert (KB : 1 <= IZR k <= 255) by (split; apply IZR_le; lia).
    assert (D := decode_near 255 (IZR k) 1 f64 f32 R64 R32 ltac:(lra) ltac:(lra) ltac:(lra)).
    set (x := f32 (f64 (f64 (1 * 255) / IZR k))) in *.
    assert (P : 1 <= 1 * 255 / IZR k). { apply Rmult_le_reg_r with (IZR k); [lra|]. unfold Rdiv. rewrite Rmult_assoc, Rinv_l by lra. lra. }
    assert (X : 1 / 2 < x). { destruct D as (D & _). assert (1 * (1 - 5 * u) <= 1 * 255 / IZR k * (1 - 5 * u)) by (apply Rmult_le_compat_r; lra). rewrite UV in *. lra. }
    assert (I := near_inv (5 * u) (1 * 255 / IZR k) x (n * 65535) ltac:(lra) ltac:(lra) ltac:(lra) D).
    assert (Q : n * 65535 / (1 * 255 / IZR k) = n * 65535 * (IZR k / 255)) by (field; lra). rewrite Q in I.
    assert (KB' : / 255 <= IZR k / 255 <= 1). { unfold Rdiv. split; [|]; lra. }
    assert (VB : 64 <= n * 65535 * (IZR k / 255) <= 27000).
    { assert (16000 <= n * 65535 <= 27000) by lra. split; [|].
      - assert (16383 * / 255 <= n * 65535 * (IZR k / 255)); [|lra]. apply Rmult_le_compat; lra.
      - assert (n * 65535 * (IZR k / 255) <= n * 65535 * 1); [|lra]. apply Rmult_le_compat_l; lra. }
    assert (BD := near_abs (2 * (5 * u)) 27000 (n * 65535 * (IZR k / 255)) (n * 65535 / x) ltac:(lra) ltac:(lra) I).
    assert (XN : n < x) by lra.
    destruct (encode_value f64 R64 PIXEL_MAX x n f64 OverflowError R64 ltac:(lra) ltac:(unfold PIXEL_MAX; lia) XN) as (j' & E' & J & V).
    unfold inverse_depth_of_depth in E. destruct (Req_EM_T x 0); [lra|]. destruct (Rle_dec x n); [lra|].
    apply to_uint16_ok in E'. rewrite E in E'. injection E' as <-. unfold PIXEL_MAX in V.
    assert (V' : - (52/100) <= IZR j - n * 65535 / x <= 52/100) by (unfold Rabs in V; destruct (Rcase_abs _); lra).
    assert (NJ : j <> 0%Z). { intros ->. rewrite UV in BD. lra. }
    destruct (decode_ok n j ltac:(lra) JR) as [(Q' & _)|(_ & y & Y & -> & B)]; [contradiction|].
    exists y. split; [exact Y|]. split; [reflexivity|]. rewrite UV in BD.
    assert (B' : - / 10 <= n * 65535 / y - IZR j <= / 10) by (unfold Rabs in B; destruct (Rcase_abs _); lra).
    apply Rabs_le. lra.
  Qed.
End Codes.

(** * Reading *)

Section Reading.
  Variables f32 f64 : R -> R.

  Lemma near_ok : forall t n, near_plane f32 (description t) n ->
    exists v, readMetadata f32 t = Ok (Metadata v n).
  Proof.
    intros t n H. unfold readMetadata. inversion H as [D|l V NN D E|l j x V NN NX D E]; subst; [eauto| |].
    - rewrite NN. destruct (sget "version" l) as [j'|]; [destruct (V j' eq_refl) as (k & ->)|]; cbn; eauto.
    - rewrite NN. destruct NX; (destruct (sget "version" l) as [j'|]; [destruct (V j' eq_refl) as (k' & ->)|]); cbn; eauto.
  Qed.

  Definition mat_of (c : samples) : option mat :=
    match c with Three8 im => Some (M3b im) | One8 im => Some (M1b im) | One16 im => Some (M1w im) | _ => None end.

  Lemma names_table : forall s t, In (s, t) known_names <-> strToPageType s = Ok t.
  Proof.
    intros s t. unfold strToPageType, kStrToPageType, known_names. split.
    - intros H. repeat (destruct H as [H|H]; [injection H as <- <-; reflexivity|]). destruct H.
    - cbn [dget]. repeat match goal with |- context [String.eqb s ?x] => destruct (String.eqb_spec s x) as [->|_]; [intros E; injection E as <-; cbn; tauto|] end.
      intros E. discriminate E.
  Qed.

  Lemma kind_fun : forall d t t', kind d t -> kind d t' -> t = t'.
  Proof.
    intros d t t' H H'. unfold kind in *. destruct (page_name d).
    - apply names_table in H, H'. congruence.
    - destruct (content d); congruence || contradiction.
  Qed.

  Definition full (slots : page_slots) : Prop := forall t, dmem tiff_eqb t slots = true.

  Lemma full_dset : forall slots t v, full slots -> full (dset tiff_eqb t v slots).
  Proof.
    intros slots t v F t'. unfold dmem. destruct (tiff_eqb_dec t' t) as [->|N].
    - rewrite (dget_dset_same _ tiff_eqb_spec). reflexivity.
    - rewrite (dget_dset_other _ tiff_eqb_spec) by congruence. apply F.
  Qed.

  Lemma readImage_good : forall d t slots, full slots -> good d -> kind d t ->
    exists m, mat_of (content d) = Some m /\ readImage d slots = Ok (dset tiff_eqb t (Some m) slots).
  Proof.
    intros d t slots F (RD & _ & C) K. unfold readImage.
    assert (T : readTiffPageType d (samples_per_pixel (content d)) = Ok t).
    { unfold readTiffPageType. unfold kind in K. destruct (page_name d) as [s|].
      - apply names_table. exact K.
      - destruct (content d); try contradiction; subst; reflexivity. }
    destruct (content d) eqn:E; try contradiction; cbn [samples_per_pixel bits_per_sample Nat.eqb negb andb] in *;
      rewrite T; cbn [bind]; rewrite F; cbn [negb bind]; rewrite RD; eexists; (split; [reflexivity|]); reflexivity.
  Qed.

  Definition slot_for (ds : list directory) (t : tiff_type) (old : option (option mat)) (r : option (option mat)) : Prop :=
    (absent ds t /\ r = old) \/ (exists c m, shows ds t c /\ mat_of c = Some m /\ r = Some (Some m)).

  Lemma read_pages : forall ds slots, full slots -> (forall d, In d ds -> good d) ->
    exists slots', foldM (fun slots d => readImage d slots) slots ds = Ok slots' /\
      forall t, slot_for ds t (dget tiff_eqb t slots) (dget tiff_eqb t slots').
  Proof.
    intros ds. induction ds as [|d ds IH]; intros slots F G.
    - exists slots. split; [reflexivity|]. intros t. left. split; [intros d []|reflexivity].
    - assert (Gd := G d (or_introl eq_refl)). destruct Gd as (RD & (t & K) & C).
      destruct (readImage_good d t slots F (conj RD (conj (ex_intro _ t K) C)) K) as (m & M & E).
      destruct (IH (dset tiff_eqb t (Some m) slots)) as (slots' & E' & H); [apply full_dset; exact F|intros d' I; apply G; right; exact I|].
      exists slots'. split; [cbn [foldM]; rewrite E; exact E'|].
      intros t'. destruct (H t') as [(A & R)|(c & m' & (l & d' & r & -> & K' & C' & N) & M' & R)].
      + destruct (tiff_eqb_dec t' t) as [->|NT].
        * right. exists (content d), m. rewrite R, (dget_dset_same _ tiff_eqb_spec). split; [|auto].
          exists [], d, ds. split; [reflexivity|]. split; [exact K|]. split; [reflexivity|exact A].
        * left. rewrite R, (dget_dset_other _ tiff_eqb_spec) by congruence. split; [|reflexivity].
          intros d' [<-|I]; [|apply A; exact I]. intros K'. apply NT. exact (kind_fun _ _ _ K' K).
      + right. exists c, m'. split; [|auto]. exists (d :: l), d', r. auto.
  Qed.

  Lemma shows_fun : forall ds t c c', shows ds t c -> shows ds t c' -> c = c'.
  Proof.
    intros ds t c c' (l & d & r & -> & K & <- & N) (l' & d' & r' & E & K' & <- & N').
    revert l' E. induction l as [|x l IH]; intros [|x' l'] E; cbn in E.
    - injection E as -> _. reflexivity.
    - injection E as -> E. exfalso. apply (N d'); [|exact K']. rewrite E. apply in_or_app. right. left. reflexivity.
    - injection E as -> E. exfalso. apply (N' d); [|exact K]. rewrite <- E. apply in_or_app. right. left. reflexivity.
    - injection E as _ E. apply (IH l' E).
  Qed.

  Lemma shows_absent : forall ds t c, shows ds t c -> absent ds t -> False.
  Proof. intros ds t c (l & d & r & -> & K & _) A. apply (A d); [apply in_or_app; right; left; reflexivity|exact K]. Qed.

  Variables (junk16 : nat -> nat -> Z) (junkd : nat -> nat -> depth).

  Definition slots0 : page_slots := map (fun t => (t, None)) all_types.

  Lemma full0 : full slots0.
  Proof. intros []; reflexivity. Qed.

  (** What the slots hold once all directories are read. *)
  Lemma load_reads : forall p s t n, read p s = (s, Ok (Tiff t)) -> near_plane f32 (description t) n ->
    (forall d, In d (directories t) -> good d) ->
    exists slots v, readRgbdTiff f32 p slots0 s = (s, Ok (slots, Metadata v n)) /\
      forall k, slot_for (directories t) k (Some None) (dget tiff_eqb k slots).
  Proof.
    intros p s t n E N G. destruct (near_ok t n N) as (v & M). destruct (read_pages (directories t) slots0 full0 G) as (slots & F & H).
    exists slots, v. split.
    - unfold readRgbdTiff. rewrite E, M. cbn [bind]. rewrite F. reflexivity.
    - intros k. specialize (H k). destruct k; exact H.
  Qed.
End Reading.

Section Loading.
  Variables f32 f64 : R -> R.
  Hypothesis R32 : rounding f32.
  Hypothesis R64 : rounding f64.
  Variables (junk16 : nat -> nat -> Z) (junkd : nat -> nat -> depth).

  Definition put (k : string) (r : option array) (m : pages) : pages := match r with Some a => sset k a m | None => m end.

  Lemma filled_mat : forall (c : samples) (m : mat), mat_of c = Some m ->
    match c with Three8 im => filled im | One8 im | One16 im => filled im | _ => False end -> mat_empty m = false.
  Proof.
    intros c m M F. destruct c; cbn in M; try discriminate; injection M as <-; destruct F as (H & W); cbn;
      (destruct (Nat.eqb_spec (height im) 0); [lia|]); (destruct (Nat.eqb_spec (width im) 0); [lia|]); reflexivity.
  Qed.

  Lemma load_rgb : forall ds slots st, slot_for ds TRgb (Some None) (dget tiff_eqb TRgb slots) ->
    (absent ds TRgb \/ exists im, shows ds TRgb (Three8 im) /\ filled im) ->
    exists r, color_page ds r /\ load_slot f32 f64 junk16 slots st TRgb = Ok (put RGB r (fst st), snd st).
  Proof.
    intros ds slots [pm n] H C. unfold load_slot. destruct C as [A|(im & S & F)].
    - destruct H as [(_ & ->)|(c & m & S & _)]; [|destruct (shows_absent _ _ _ S A)].
      exists None. split; [left; auto|reflexivity].
    - destruct H as [(A & _)|(c & m & S' & M & ->)]; [destruct (shows_absent _ _ _ S A)|].
      rewrite (shows_fun _ _ _ _ S' S) in M. rewrite (filled_mat _ _ M F). injection M as <-.
      exists (Some (Array (Rgb8 im) true)). split; [right; eauto|reflexivity].
  Qed.

  Lemma load_labels : forall ds slots st t key, (t = TCategory /\ key = Category) \/ (t = TInstance /\ key = Instance) ->
    slot_for ds t (Some None) (dget tiff_eqb t slots) ->
    (absent ds t \/ exists c im, shows ds t c /\ labels c im /\ filled im) ->
    exists r, label_page ds t r /\ load_slot f32 f64 junk16 slots st t = Ok (put key r (fst st), snd st).
  Proof.
    intros ds slots [pm n] t key T H C. unfold load_slot. destruct C as [A|(c & im & S & L & F)].
    - destruct H as [(_ & ->)|(c & m & S & _)]; [|destruct (shows_absent _ _ _ S A)].
      exists None. split; [left; auto|reflexivity].
    - destruct H as [(A & _)|(c' & m & S' & M & ->)]; [destruct (shows_absent _ _ _ S A)|].
      rewrite (shows_fun _ _ _ _ S' S) in M.
      assert (NE : mat_empty m = false) by (apply (filled_mat _ _ M); destruct L as [->| ->]; exact F). rewrite NE.
      exists (Some (Array (Uint16 im) true)). split; [right; exists c, im; auto|].
      destruct L as [->| ->]; injection M as <-; destruct T as [(-> & ->)|(-> & ->)]; reflexivity.
  Qed.

  (** How the depth page is decoded. *)
  Definition depth_page (n : R) (c : samples) (d : image depth) : Prop :=
    match c with
    | One16 im => pixelwise (fun k => Ok (depth_of_inverse_depth f32 f64 k n)) im d
    | One8 im => exists w, pixelwise (fun k => inverse_depth_from_uint8 f32 f64 k 1) im w /\
                   pixelwise (fun k => Ok (depth_of_inverse_depth f32 f64 k (default_near32 f32 f64))) w d
    | _ => False
    end.

  Lemma default_pos : (0 < default_near32 f32 f64)%R.
  Proof. unfold default_near32, default_near64. apply round_pos; auto. apply round_pos; auto. lra. Qed.

  Lemma load_depth : forall ds slots st c n, slot_for ds TInverseDepth (Some None) (dget tiff_eqb TInverseDepth slots) ->
    shows ds TInverseDepth c -> match c with One8 im | One16 im => filled im | _ => False end -> (0 < n)%R ->
    exists w n', load_slot f32 f64 junk16 slots (st, n) TInverseDepth = Ok (sset Depth (Array (Uint16 w) true) st, n') /\
      exists d, depth_image_of_inverse_depth_map f32 f64 junkd w n' = Ok d /\ depth_page n c d.
  Proof.
    intros ds slots st c n H S F N. unfold load_slot.
    destruct H as [(A & _)|(c' & m & S' & M & ->)]; [destruct (shows_absent _ _ _ S A)|].
    rewrite (shows_fun _ _ _ _ S' S) in M.
    assert (NE : mat_empty m = false) by (apply (filled_mat _ _ M); destruct c; try contradiction; exact F). rewrite NE.
    destruct c; try contradiction; injection M as <-; cbn [load_page fst snd].
    - destruct (C33_maps f32 f64 R32 R64 1 ltac:(lra)) as (_ & _ & _ & _ & M5). destruct (M5 junk16 im) as (w & E & P).
      rewrite E. cbn [bind]. exists w, (default_near32 f32 f64). split; [reflexivity|].
      destruct (C33_maps f32 f64 R32 R64 _ default_pos) as (_ & _ & M3 & _). destruct (M3 junkd w) as (d & E' & P').
      exists d. split; [exact E'|]. exists w. auto.
    - exists im, n. split; [reflexivity|]. destruct (C33_maps f32 f64 R32 R64 n N) as (_ & _ & M3 & _).
      destruct (M3 junkd im) as (d & E' & P'). exists d. auto.
  Qed.

  Lemma load_ok : forall p s t n c, read p s = (s, Ok (Tiff t)) -> near_plane f32 (description t) n -> (0 < n)%R ->
    (forall d, In d (directories t) -> good d) ->
    (absent (directories t) TRgb \/ exists im, shows (directories t) TRgb (Three8 im) /\ filled im) ->
    (absent (directories t) TCategory \/ exists c im, shows (directories t) TCategory c /\ labels c im /\ filled im) ->
    (absent (directories t) TInstance \/ exists c im, shows (directories t) TInstance c /\ labels c im /\ filled im) ->
    shows (directories t) TInverseDepth c -> match c with One8 im | One16 im => filled im | _ => False end ->
    exists m d, load f32 f64 junk16 junkd p s = (s, Ok m) /\ depth_page n c d /\
      sget Depth m = Some (Array (Float32 d) true) /\ color_page (directories t) (sget RGB m) /\
      label_page (directories t) TCategory (sget Category m) /\ label_page (directories t) TInstance (sget Instance m) /\
      forall k, ~ In k [RGB; Depth; Category; Instance] -> sget k m = None.
  Proof.
    intros p s t n c E N NP G C1 C2 C3 D F.
    destruct (load_reads f32 p s t n E N G) as (slots & v & RD & H).
    destruct (load_rgb _ slots ([], n) (H TRgb) C1) as (r1 & P1 & L1).
    destruct (load_depth _ slots (put RGB r1 []) c n (H TInverseDepth) D F NP) as (w & n' & L2 & d & E2 & PD).
    destruct (load_labels _ slots (sset Depth (Array (Uint16 w) true) (put RGB r1 []), n') TCategory Category (or_introl (conj eq_refl eq_refl)) (H TCategory) C2) as (r3 & P3 & L3).
    destruct (load_labels _ slots (put Category r3 (sset Depth (Array (Uint16 w) true) (put RGB r1 [])), n') TInstance Instance (or_intror (conj eq_refl eq_refl)) (H TInstance) C3) as (r4 & P4 & L4).
    cbn [fst snd] in *.
    set (m0 := put Instance r4 (put Category r3 (sset Depth (Array (Uint16 w) true) (put RGB r1 [])))) in *.
    assert (SD : sgetE Depth m0 = Ok (Array (Uint16 w) true)) by (destruct r1, r3, r4; reflexivity).
    exists (sset Depth (Array (Float32 d) true) m0), d. split.
    - unfold load. unfold ibind. fold slots0. rewrite RD. unfold ilift. cbn [fst snd depthNearPlane].
      unfold all_types. cbn [foldM]. rewrite L1. cbn [bind]. rewrite L2. cbn [bind]. rewrite L3. cbn [bind]. rewrite L4. cbn [bind fst snd].
      rewrite SD. cbn [bind data]. rewrite E2. reflexivity.
    - split; [exact PD|].
      assert (G1 : sget RGB (sset Depth (Array (Float32 d) true) m0) = r1) by (destruct r1, r3, r4; reflexivity).
      assert (G2 : sget Depth (sset Depth (Array (Float32 d) true) m0) = Some (Array (Float32 d) true)) by (destruct r1, r3, r4; reflexivity).
      assert (G3 : sget Category (sset Depth (Array (Float32 d) true) m0) = r3) by (destruct r1, r3, r4; reflexivity).
      assert (G4 : sget Instance (sset Depth (Array (Float32 d) true) m0) = r4) by (destruct r1, r3, r4; reflexivity).
      rewrite G1, G2, G3, G4. do 4 (split; [assumption || reflexivity|]).
      intros k K. destruct (sget k (sset Depth (Array (Float32 d) true) m0)) as [a|] eqn:EQ; [|reflexivity].
      exfalso. apply K. apply (dget_In _ str_eqb_spec) in EQ. apply (in_map fst) in EQ. cbn [fst] in EQ.
      destruct r1, r3, r4; cbn in EQ; cbn; intuition (subst; auto).
  Qed.
End Loading.

(** * Saving *)

Section Saving.
  Variables f32 f64 : R -> R.
  Variables (junk16 : nat -> nat -> Z).

  (** The page a key is written to, and what is written. *)
  Definition target (k : string) : option tiff_type :=
    if String.eqb k Depth then Some TInverseDepth else if String.eqb k InverseDepth then Some TInverseDepth
    else if String.eqb k RGB then Some TRgb else if String.eqb k Category then Some TCategory
    else if String.eqb k Instance then Some TInstance else None.

  Definition holds (near : R) (t : tiff_type) (a : array) (m : mat) : Prop :=
    match t with
    | TRgb => exists im, data a = Rgb8 im /\ m = M3b im
    | TCategory | TInstance => exists im, data a = Uint16 im /\ m = M1w im
    | TInverseDepth =>
        (exists im, data a = Uint16 im /\ m = M1w im) \/
        (exists im inv, data a = Float32 im /\ inverse_depth_map_of_depth_image f64 junk16 im (f32 near) = Ok inv /\ m = M1w inv)
    end.

  Lemma save_page_inv : forall near out k a out', save_page f32 f64 junk16 near out (k, a) = Ok out' ->
    exists t m, target k = Some t /\ holds near t a m /\ out' = dset tiff_eqb t m out.
  Proof.
    intros near out k a out' E. unfold save_page in E. unfold target.
    assert (W : forall t, (let* m := mat1w_from_array a in Ok (dset tiff_eqb t m out)) = Ok out' ->
              exists im, data a = Uint16 im /\ out' = dset tiff_eqb t (M1w im) out).
    { intros t Q. unfold mat1w_from_array in Q. destruct (data a) as [|im| |]; try discriminate. destruct (contiguous a); [|discriminate].
      injection Q as <-. eauto. }
    destruct (String.eqb k Depth).
    - destruct (data a) as [| |im|] eqn:D; try discriminate. unfold bind in E.
      destruct (inverse_depth_map_of_depth_image f64 junk16 im (f32 near)) as [inv|] eqn:I; [|discriminate].
      cbn in E. injection E as <-. exists TInverseDepth, (M1w inv). split; [reflexivity|]. split; [right; eauto|reflexivity].
    - destruct (String.eqb k InverseDepth); [destruct (W _ E) as (im & D & ->); exists TInverseDepth, (M1w im); cbn; eauto 6|].
      destruct (String.eqb k RGB).
      + unfold mat3b_from_array in E. destruct (data a) as [im| | |] eqn:D; try discriminate. destruct (contiguous a); [|discriminate].
        injection E as <-. exists TRgb, (M3b im). cbn. eauto 6.
      + destruct (String.eqb k Category); [destruct (W _ E) as (im & D & ->); exists TCategory, (M1w im); cbn; eauto 6|].
        destruct (String.eqb k Instance); [destruct (W _ E) as (im & D & ->); exists TInstance, (M1w im); cbn; eauto 6|discriminate].
  Qed.

  Fixpoint last_target (t : tiff_type) (m : pages) : option array :=
    match m with
    | [] => None
    | (k, a) :: r =>
        match last_target t r with
        | Some b => Some b
        | None => match target k with Some t' => if tiff_eqb t' t then Some a else None | None => None end
        end
    end.

  Lemma save_pages : forall near m out out', foldM (save_page f32 f64 junk16 near) out m = Ok out' ->
    forall t, match last_target t m with
              | Some a => exists x, dget tiff_eqb t out' = Some x /\ holds near t a x
              | None => dget tiff_eqb t out' = dget tiff_eqb t out
              end.
  Proof.
    intros near m. induction m as [|[k a] m IH]; intros out out' E t.
    - cbn in E. injection E as <-. reflexivity.
    - cbn [foldM] in E. destruct (save_page f32 f64 junk16 near out (k, a)) as [o|] eqn:P; [|discriminate]. cbn [bind] in E.
      destruct (save_page_inv _ _ _ _ _ P) as (t' & x & T & H & ->). specialize (IH _ _ E t). cbn [last_target].
      destruct (last_target t m) as [b|]; [exact IH|]. rewrite T. destruct (tiff_eqb_dec t' t) as [->|N].
      + exists x. rewrite IH, (dget_dset_same _ tiff_eqb_spec). auto.
      + rewrite IH, (dget_dset_other _ tiff_eqb_spec) by congruence. reflexivity.
  Qed.

  (** For the types with one key it is the entry of the dict. *)
  Lemma last_target_get : forall t key m, NoDup (dkeys m) -> (forall k, target k = Some t <-> k = key) -> last_target t m = sget key m.
  Proof.
    intros t key m ND U. induction m as [|[k a] m IH]; [reflexivity|]. cbn in ND. inversion ND as [|? ? NI ND']; subst.
    cbn [last_target dget]. rewrite IH by exact ND'. destruct (String.eqb_spec key k) as [->|N].
    - destruct (sget k m) as [b|] eqn:E; [exfalso; apply NI; apply (dget_In _ str_eqb_spec) in E; apply (in_map fst) in E; exact E|].
      rewrite (proj2 (U k) eq_refl). destruct (tiff_eqb_dec t t); congruence.
    - destruct (sget key m); [reflexivity|]. destruct (target k) as [t'|] eqn:T; [|reflexivity].
      destruct (tiff_eqb_dec t' t) as [->|]; [|reflexivity]. apply U in T. congruence.
  Qed.

  Lemma target_unique : forall t key, (t = TRgb /\ key = RGB) \/ (t = TCategory /\ key = Category) \/ (t = TInstance /\ key = Instance) ->
    forall k, target k = Some t <-> k = key.
  Proof.
    intros t key H k. unfold target.
    split.
    - repeat match goal with |- context [String.eqb k ?x] => destruct (String.eqb_spec k x) as [->|_] end;
      intros E; try discriminate E; injection E as <-; destruct H as [(A & ->)|[(A & ->)|(A & ->)]]; congruence.
    - intros ->. destruct H as [(-> & ->)|[(-> & ->)|(-> & ->)]]; reflexivity.
  Qed.

  Lemma target_depth : forall k, target k = Some TInverseDepth <-> k = Depth \/ k = InverseDepth.
  Proof.
    intros k. unfold target.
    repeat match goal with |- context [String.eqb k ?x] => destruct (String.eqb_spec k x) as [->|?] end;
      (split; [intros E; try discriminate E; auto | intros [E|E]; congruence]).
  Qed.

  Lemma last_target_depth : forall m a, depth_source m a <-> last_target TInverseDepth m = Some a.
  Proof.
    assert (Z : forall m, last_target TInverseDepth m = None <-> forall e, In e m -> fst e <> Depth /\ fst e <> InverseDepth).
    { intros m. induction m as [|[k a] m IH]; [cbn; split; [intros _ e []|reflexivity]|]. cbn [last_target].
      destruct (last_target TInverseDepth m) as [b|].
      - split; [discriminate|]. intros H. assert (Q : Some b = None) by (apply IH; intros e I; apply H; right; exact I). discriminate.
      - destruct (target k) as [t|] eqn:T.
        + destruct (tiff_eqb_dec t TInverseDepth) as [->|N].
          * split; [discriminate|]. intros H. apply target_depth in T. specialize (H (k, a) (or_introl eq_refl)). cbn in H. tauto.
          * split; [|reflexivity]. intros _ e [<-|I]; [|apply IH; auto]. cbn. split; intros ->; apply N; cbn in T; congruence.
        + split; [|reflexivity]. intros _ e [<-|I]; [|apply IH; auto]. cbn. split; intros ->; cbn in T; discriminate. }
    intros m a. split.
    - intros (l & k & r & -> & K & N). induction l as [|[k' a'] l IH].
      + cbn. rewrite (proj2 (Z r)) by exact N. assert (T : target k = Some TInverseDepth) by (apply target_depth; exact K). rewrite T. reflexivity.
      + cbn. rewrite IH. reflexivity.
    - induction m as [|[k b] m IH]; [discriminate|]. cbn. destruct (last_target TInverseDepth m) as [c|] eqn:L.
      + intros E. injection E as ->. destruct (IH eq_refl) as (l & k' & r & -> & K & N). exists ((k, b) :: l), k', r. auto.
      + intros E. destruct (target k) as [t|] eqn:T; [|discriminate]. destruct (tiff_eqb_dec t TInverseDepth) as [->|]; [|discriminate].
        injection E as ->. exists [], k, m. split; [reflexivity|]. split; [apply target_depth; exact T|apply Z; exact L].
  Qed.

  (** The file written. *)
  Definition dir_for (t : tiff_type) (m : mat) : list directory :=
    match m with
    | M3b im => [Directory (Some (pageTypeToStr t)) (Three8 im) true]
    | M1w im => [Directory (Some (pageTypeToStr t)) (One16 im) true]
    | M1b _ => []
    end.
  Definition dirs_for (out : list (tiff_type * mat)) : list directory :=
    flat_map (fun t => match dget tiff_eqb t out with Some m => dir_for t m | None => [] end) all_types.

  Lemma write_dirs : forall out ds, foldM (fun ds t =>
        match dget tiff_eqb t out with
        | None => Ok ds
        | Some m => let* d := writeImage m t in Ok (ds ++ [d])
        end) [] all_types = Ok ds -> ds = dirs_for out.
  Proof.
    intros out. unfold dirs_for. assert (G : forall l acc ds, foldM (fun ds t =>
        match dget tiff_eqb t out with
        | None => Ok ds
        | Some m => let* d := writeImage m t in Ok (ds ++ [d])
        end) acc l = Ok ds -> ds = acc ++ flat_map (fun t => match dget tiff_eqb t out with Some m => dir_for t m | None => [] end) l).
    { intros l. induction l as [|t l IH]; intros acc ds E; cbn [foldM flat_map] in *.
      - injection E as <-. rewrite app_nil_r. reflexivity.
      - destruct (dget tiff_eqb t out) as [m|]; [|apply IH; exact E].
        destruct m; cbn in E; try discriminate; apply IH in E; rewrite <- app_assoc in E; exact E. }
    intros ds E. apply G in E. exact E.
  Qed.

  Lemma resolve_write : forall A (s s' : fs A) p b, write p b s = (s', Ok tt) -> read p s' = (s', Ok b).
  Proof.
    intros A s s' p b E. unfold write, write_at in E. unfold read, read_at.
    destruct (resolve s p) as [|x l] eqn:RS; [discriminate|].
    destruct (isdir_at s (removelast (x :: l)) && negb (isdir_at s (x :: l))); [|discriminate].
    injection E as <-. assert (R' : resolve (Fs (dset loc_eqb (x :: l) b (files s)) (dirs s) (cwd s)) p = x :: l).
    { rewrite <- RS. destruct p; reflexivity. }
    rewrite R'. cbn [files]. rewrite (dget_dset_same _ loc_eqb_spec). reflexivity.
  Qed.

  Lemma save_inv : forall m p near s s', save f32 f64 junk16 m p near s = (s', Ok tt) ->
    exists out, foldM (save_page f32 f64 junk16 near) [] m = Ok out /\ dmem tiff_eqb TRgb out = true /\ dmem tiff_eqb TInverseDepth out = true /\
      read p s' = (s', Ok (Tiff (TiffFile (Some (writeMetadata (Metadata 0 (f32 near)))) (dirs_for out)))).
  Proof.
    intros m p near s s' E. unfold save, ibind, ilift in E. destruct (_validate m); [|discriminate].
    destruct (foldM (save_page f32 f64 junk16 near) [] m) as [out|]; [|discriminate].
    exists out. split; [reflexivity|]. unfold writeRgbdTiff in E.
    destruct (dmem tiff_eqb TRgb out); [|discriminate]. destruct (dmem tiff_eqb TInverseDepth out); [|discriminate]. cbn [negb] in E.
    destruct (foldM _ [] all_types) as [ds|] eqn:F; [|discriminate]. apply write_dirs in F. subst ds.
    do 2 (split; [reflexivity|]).
    destruct (write p _ s) as [s1 r] eqn:W. destruct r as [x|]; [|discriminate]. injection E as <-. destruct x.
    exact (resolve_write _ _ _ _ _ W).
  Qed.
End Saving.

(** * The written file read again *)

Section Written.
  Definition page_of (t : tiff_type) (m : mat) : option (samples) :=
    match m with M3b im => Some (Three8 im) | M1w im => Some (One16 im) | M1b _ => None end.

  Lemma dir_for_kind : forall t m d, In d (dir_for t m) -> kind d t /\ good d.
  Proof.
    intros t m d I. assert (K : forall c, kind (Directory (Some (pageTypeToStr t)) c true) t).
    { intros c. unfold kind. cbn [page_name]. destruct t; cbn; tauto. }
    destruct m; cbn in I; try contradiction; destruct I as [<-|[]]; (split; [apply K|]);
      (split; [reflexivity|]; split; [exists t; apply K|exact I]).
  Qed.

  Definition part (out : list (tiff_type * mat)) (t : tiff_type) : list directory :=
    match dget tiff_eqb t out with Some m => dir_for t m | None => [] end.

  Lemma part_kind : forall out t d, In d (part out t) -> kind d t /\ good d.
  Proof. intros out t d I. unfold part in I. destruct (dget tiff_eqb t out); [exact (dir_for_kind _ _ _ I)|destruct I]. Qed.

  Lemma dirs_good : forall out d, In d (dirs_for out) -> good d.
  Proof. intros out d I. apply in_flat_map in I. destruct I as (t & _ & I). apply (part_kind out t d). exact I. Qed.

  Lemma part_other : forall out t t', t' <> t -> forall d, In d (part out t') -> ~ kind d t.
  Proof. intros out t t' N d I K. apply part_kind in I. destruct I as (K' & _). apply N. exact (kind_fun _ _ _ K' K). Qed.

  Lemma dirs_split : forall out t, exists l r, dirs_for out = l ++ part out t ++ r /\
    (forall d, In d l -> ~ kind d t) /\ (forall d, In d r -> ~ kind d t).
  Proof.
    intros out t.
    assert (E : dirs_for out = part out TRgb ++ part out TInverseDepth ++ part out TCategory ++ part out TInstance).
    { unfold dirs_for, all_types. cbn [flat_map]. rewrite app_nil_r. reflexivity. }
    assert (N : forall t', t' <> t -> forall d, In d (part out t') -> ~ kind d t) by apply part_other.
    destruct t; rewrite E.
    - exists [], (part out TInverseDepth ++ part out TCategory ++ part out TInstance). split; [reflexivity|]. split; [intros d []|].
      intros d I. repeat (apply in_app_or in I; destruct I as [I|I]); (eapply N; [|exact I]); discriminate.
    - exists (part out TRgb), (part out TCategory ++ part out TInstance). split; [reflexivity|]. split.
      + intros d I. (eapply N; [|exact I]); discriminate.
      + intros d I. repeat (apply in_app_or in I; destruct I as [I|I]); (eapply N; [|exact I]); discriminate.
    - exists (part out TRgb ++ part out TInverseDepth), (part out TInstance). split; [rewrite <- !app_assoc; reflexivity|]. split.
      + intros d I. repeat (apply in_app_or in I; destruct I as [I|I]); (eapply N; [|exact I]); discriminate.
      + intros d I. (eapply N; [|exact I]); discriminate.
    - exists (part out TRgb ++ part out TInverseDepth ++ part out TCategory), []. split; [rewrite <- !app_assoc, app_nil_r; reflexivity|]. split; [|intros d []].
      intros d I. repeat (apply in_app_or in I; destruct I as [I|I]); (eapply N; [|exact I]); discriminate.
  Qed.

  Lemma dirs_absent : forall out t, dget tiff_eqb t out = None -> absent (dirs_for out) t.
  Proof.
    intros out t E d I. destruct (dirs_split out t) as (l & r & EQ & L & R). rewrite EQ in I. unfold part in I. rewrite E in I.
    apply in_app_or in I. destruct I as [I|I]; auto.
  Qed.

  Lemma dirs_shows : forall out t m c, dget tiff_eqb t out = Some m -> page_of t m = Some c -> shows (dirs_for out) t c.
  Proof.
    intros out t m c E P. destruct (dirs_split out t) as (l & r & -> & L & R).
    assert (Q : exists d, part out t = [d] /\ content d = c /\ kind d t).
    { assert (K := part_kind out t). unfold part in *. rewrite E in *. destruct m; cbn in P; try discriminate; injection P as <-;
      eexists; (split; [reflexivity|]); (split; [reflexivity|]); apply K; left; reflexivity. }
    destruct Q as (d & -> & C & K). exists l, d, r. auto.
  Qed.
End Written.

Lemma shows_dirs_inv : forall out t c, shows (dirs_for out) t c -> exists m, dget tiff_eqb t out = Some m /\ page_of t m = Some c.
Proof.
  intros out t c S. destruct (dget tiff_eqb t out) as [m|] eqn:E.
  - exists m. split; [reflexivity|]. destruct (page_of t m) as [c'|] eqn:P.
    + rewrite (shows_fun _ _ _ _ S (dirs_shows _ _ _ _ E P)). reflexivity.
    + exfalso. destruct S as (l & d & r & EQ & K & _). destruct (dirs_split out t) as (l' & r' & EQ' & L & R).
      assert (I : In d (dirs_for out)) by (rewrite EQ; apply in_or_app; right; left; reflexivity).
      rewrite EQ' in I. unfold part in I. rewrite E in I. destruct m; cbn in P; try discriminate. cbn [dir_for app] in I.
      apply in_app_or in I. destruct I as [I|I]; [exact (L _ I K)|exact (R _ I K)].
  - exfalso. exact (shows_absent _ _ _ S (dirs_absent _ _ E)).
Qed.

(** Saving and loading, with the codes in between. *)
Section Trip.
  Variables f32 f64 : R -> R.
  Hypothesis R32 : rounding f32.
  Hypothesis R64 : rounding f64.
  Variables (junk16 : nat -> nat -> Z) (junkd : nat -> nat -> depth).

  Definition coded (near : R) (a : array) (inv : image Z) : Prop :=
    match data a with
    | Uint16 im => inv = im
    | Float32 im => pixelwise (fun d => inverse_depth_of_depth f64 d near) im inv
    | _ => False
    end.

  Lemma trip : forall near m p s s', (0 < near)%R -> f32 (f32 near) = f32 near ->
    NoDup (dkeys m) -> (forall k a, In (k, a) m -> array_filled a) ->
    save f32 f64 junk16 m p near s = (s', Ok tt) ->
    exists a m' inv d, depth_source m a /\ load f32 f64 junk16 junkd p s' = (s', Ok m') /\
      coded (f32 near) a inv /\ pixelwise (fun k => Ok (depth_of_inverse_depth f32 f64 k (f32 near))) inv d /\
      sget Depth m' = Some (Array (Float32 d) true) /\ filled inv /\
      (exists im, option_map data (sget RGB m) = Some (Rgb8 im) /\ sget RGB m' = Some (Array (Rgb8 im) true)) /\
      (forall k, k = Category \/ k = Instance ->
         (sget k m = None /\ sget k m' = None) \/
         exists im, option_map data (sget k m) = Some (Uint16 im) /\ sget k m' = Some (Array (Uint16 im) true)) /\
      (forall k, ~ In k [RGB; Depth; Category; Instance] -> sget k m' = None).
  Proof.
    intros near m p s s' NP ID ND FL SV. destruct (save_inv _ _ _ _ _ _ _ _ SV) as (out & SP & MR & MD & RD).
    assert (N32 : (0 < f32 near)%R) by (apply round_pos; auto).
    assert (G := save_pages _ _ _ _ _ _ _ SP).
    assert (IN : forall k a, sget k m = Some a -> array_filled a).
    { intros k a E. apply (FL k a). apply (dget_In _ str_eqb_spec). exact E. }
    (* the depth page *)
    assert (GD := G TInverseDepth). destruct (last_target TInverseDepth m) as [a|] eqn:LD.
    2: { cbn in GD. unfold dmem in MD. rewrite GD in MD. discriminate. }
    assert (SRC : depth_source m a) by (apply last_target_depth; exact LD).
    assert (FA : array_filled a).
    { destruct SRC as (l & k & r & -> & _). apply (FL k a). apply in_or_app. right. left. reflexivity. }
    destruct GD as (x & DX & HX).
    assert (HI : exists inv, x = M1w inv /\ coded (f32 near) a inv /\ filled inv).
    { unfold array_filled in FA. unfold coded. destruct HX as [(im & D & ->)|(im & inv & D & E & ->)]; rewrite D in *.
      - exists im. repeat split; apply FA.
      - exists inv. destruct (C33_maps f32 f64 R32 R64 (f32 near) N32) as (_ & M2 & _).
        destruct (M2 junk16 im) as (inv' & E' & P). rewrite E in E'. injection E' as <-. split; [reflexivity|]. split; [exact P|].
        destruct P as (H & W & _). destruct FA as (FH & FW). split; congruence. }
    destruct HI as (inv & -> & CO & FI).
    (* color *)
    assert (GC := G TRgb). rewrite (last_target_get TRgb RGB m ND (target_unique TRgb RGB (or_introl (conj eq_refl eq_refl)))) in GC.
    assert (HC : exists im b, sget RGB m = Some b /\ data b = Rgb8 im /\ filled im /\ dget tiff_eqb TRgb out = Some (M3b im)).
    { destruct (sget RGB m) as [b|] eqn:E; [|cbn in GC; unfold dmem in MR; rewrite GC in MR; discriminate].
      destruct GC as (y & Y & (im & D & ->)). exists im, b. assert (F := IN _ _ E). unfold array_filled in F. rewrite D in F. auto. }
    destruct HC as (im & b & EB & DB & FB & OB).
    (* labels *)
    assert (HL : forall t key, (t = TCategory /\ key = Category) \/ (t = TInstance /\ key = Instance) ->
      (sget key m = None /\ dget tiff_eqb t out = None) \/
      exists im c, sget key m = Some c /\ data c = Uint16 im /\ filled im /\ dget tiff_eqb t out = Some (M1w im)).
    { intros t key T. assert (GT := G t). rewrite (last_target_get t key m ND (target_unique t key (or_intror T))) in GT.
      destruct (sget key m) as [c|] eqn:E; [right|left; split; [reflexivity|exact GT]].
      destruct GT as (y & Y & HY). assert (F := IN _ _ E).
      assert (HY' : exists im, data c = Uint16 im /\ y = M1w im) by (destruct T as [(-> & _)|(-> & _)]; exact HY).
      destruct HY' as (im' & D & ->). exists im', c. unfold array_filled in F. rewrite D in F. split; [reflexivity|]. split; [exact D|]. split; [apply F|exact Y]. }
    assert (LC := HL TCategory Category (or_introl (conj eq_refl eq_refl))).
    assert (LI := HL TInstance Instance (or_intror (conj eq_refl eq_refl))). clear HL.
    assert (OK : forall t key, (sget key m = None /\ dget tiff_eqb t out = None) \/
        (exists im c, sget key m = Some c /\ data c = Uint16 im /\ filled im /\ dget tiff_eqb t out = Some (M1w im)) ->
        absent (dirs_for out) t \/ exists c im, shows (dirs_for out) t c /\ labels c im /\ filled im).
    { intros t key [(_ & N)|(im' & c & _ & _ & F & D)]; [left; apply dirs_absent; exact N|right].
      exists (One16 im'), im'. split; [apply (dirs_shows _ _ _ _ D); reflexivity|]. split; [left; reflexivity|exact F]. }
    destruct (load_ok f32 f64 R32 R64 junk16 junkd p s' _ (f32 near) (One16 inv) RD) as (m' & d & LO & PD & SD & CP & LP1 & LP2 & REST);
      cbn [directories description].
    - rewrite <- ID at 2. apply with_near with (j := JDouble (f32 near)); [|reflexivity|constructor].
      intros j J. cbn in J. injection J as <-. eauto.
    - exact N32.
    - apply dirs_good.
    - right. exists im. split; [apply (dirs_shows _ _ _ _ OB); reflexivity|exact FB].
    - exact (OK _ _ LC).
    - exact (OK _ _ LI).
    - apply (dirs_shows _ _ _ _ DX). reflexivity.
    - exact FI.
    - cbn [directories] in *. exists a, m', inv, d. do 6 (split; [assumption|]).
      assert (SH : shows (dirs_for out) TRgb (Three8 im)) by (apply (dirs_shows _ _ _ _ OB); reflexivity).
      split.
      { exists im. rewrite EB. cbn. rewrite DB. split; [reflexivity|].
        destruct CP as [(A & _)|(im' & S' & _ & ->)]; [destruct (shows_absent _ _ _ SH A)|].
        assert (Q := shows_fun _ _ _ _ S' SH). injection Q as ->. reflexivity. }
      split; [|exact REST].
      assert (FIN : forall t key, (sget key m = None /\ dget tiff_eqb t out = None) \/
          (exists im c, sget key m = Some c /\ data c = Uint16 im /\ filled im /\ dget tiff_eqb t out = Some (M1w im)) ->
          label_page (dirs_for out) t (sget key m') ->
          (sget key m = None /\ sget key m' = None) \/
          exists im, option_map data (sget key m) = Some (Uint16 im) /\ sget key m' = Some (Array (Uint16 im) true)).
      { intros t key [(N & D)|(im' & c & E & D & F & O)] LP.
        - left. split; [exact N|]. destruct LP as [(_ & ->)|(c & im' & S' & _)]; [reflexivity|]. destruct (shows_absent _ _ _ S' (dirs_absent _ _ D)).
        - right. exists im'. rewrite E. cbn. rewrite D. split; [reflexivity|].
          assert (S' : shows (dirs_for out) t (One16 im')) by (apply (dirs_shows _ _ _ _ O); reflexivity).
          destruct LP as [(A & _)|(c' & im'' & S'' & L & _ & ->)]; [destruct (shows_absent _ _ _ S' A)|].
          rewrite (shows_fun _ _ _ _ S'' S') in L. destruct L as [L|L]; [injection L as ->; reflexivity|discriminate]. }
      intros k [->| ->]; [exact (FIN _ _ LC LP1)|exact (FIN _ _ LI LP2)].
  Qed.
End Trip.
