(** The picture that comes out. *)
From Coq Require Import List Bool ZArith Ascii String Lia.
From Verif.Base Require Import Py.
From Verif.Png Require Import Model.
From Verif.Png Require Import Spec.
From Verif.Png Require Import Rows Chunks Passes.
Import ListNotations.
Local Open Scope Z_scope.

Lemma mapM_all : forall A B (f : A -> res B) g l, (forall x, In x l -> f x = Ok (g x)) -> mapM f l = Ok (map g l).
Proof. intros A B f g l H. induction l as [|x l IH]; [reflexivity|]. cbn [mapM map]. rewrite (H x (or_introl eq_refl)). cbn [bind]. rewrite IH by (intros y Y; apply H; right; exact Y). reflexivity. Qed.
Lemma flat_concat : forall A (f : A -> list Z) (rows : list (list A)), flat_map (flat_map f) rows = List.concat (map f (List.concat rows)).
Proof. intros A f rows. induction rows as [|r rows IH]; [reflexivity|]. cbn [flat_map List.concat]. rewrite map_app, concat_app, <- IH. rewrite flat_map_concat_map. reflexivity. Qed.
Lemma concat_map_map : forall (f : list Z -> list Z) (rows : list (list (list Z))), List.concat (map (map f) rows) = map f (List.concat rows).
Proof. intros f rows. induction rows as [|r rows IH]; [reflexivity|]. cbn [map List.concat]. rewrite map_app, IH. reflexivity. Qed.
Lemma same_ok : forall a b, same a b = true <-> a = b.
Proof.
  induction a as [|x a IH]; intros [|y b]; cbn [same]; split; intros H; try discriminate H; try reflexivity.
  - apply andb_true_iff in H. destruct H as [H1 H2]. apply Z.eqb_eq in H1. apply IH in H2. congruence.
  - injection H as -> ->. rewrite Z.eqb_refl. apply IH. reflexivity.
Qed.
Lemma any_bits : forall p, allowed (shade p) (bits p) -> In (bits p) [1; 2; 4; 8; 16].
Proof. intros p A. unfold allowed in A. destruct (shade p); cbn [In] in *; tauto. Qed.
Lemma few_bits : forall p, allowed (shade p) (bits p) -> bits p < 8 -> (shade p = Grey \/ shade p = Indexed) /\ In (bits p) [1; 2; 4].
Proof. intros p A L. unfold allowed in A. destruct (shade p); cbn [In] in *; intuition lia. Qed.

Section photo.
Context (p : photo) (OK : photo_ok p).
Notation sc := (scaled (bits p) (color_type (shade p))).
Lemma scaled_injective : forall v w, sc v = sc w -> v = w.
Proof.
  intros v w. unfold scaled. destruct (Z.ltb_spec (bits p) 8) as [L|L]; cbn [andb]; [|tauto]. destruct (color_type (shade p) =? 0); [|tauto].
  destruct (few_bits p (ok_bits p OK) L) as [_ [B|[B|[B|[]]]]]; rewrite <- B; unfold depth_scale; cbn [Z.eqb Pos.eqb]; lia.
Qed.
Lemma map_scaled_injective : forall a b, map sc a = map sc b -> a = b.
Proof. induction a as [|x a IH]; intros [|y b] E; try discriminate E; [reflexivity|]. cbn [map] in E. injection E as E1 E2. apply scaled_injective in E1. apply IH in E2. congruence. Qed.
Lemma eight_scaled : forall v, shade p <> Indexed -> sample p v -> (if bits p =? 16 then sc v / 256 else sc v) = eight p v.
Proof.
  intros v NI V. unfold eight, sample in *. destruct (Z.eqb_spec (bits p) 16) as [E|N].
  - rewrite E. reflexivity.
  - unfold scaled. destruct (Z.ltb_spec (bits p) 8) as [L|L]; cbn [andb].
    + destruct (few_bits p (ok_bits p OK) L) as [[S|S] B]; [|contradiction]. rewrite S. cbn [color_type]. change (0 =? 0) with true. cbv iota.
      destruct B as [B|[B|[B|[]]]]; rewrite <- B; unfold depth_scale; cbn [Z.eqb Pos.eqb].
      * change (2 ^ 1 - 1) with 1. rewrite Z.div_1_r. lia.
      * change (2 ^ 2 - 1) with 3. replace (v * 255) with (85 * v * 3) by lia. rewrite Z.div_mul by lia. reflexivity.
      * change (2 ^ 4 - 1) with 15. replace (v * 255) with (17 * v * 15) by lia. rewrite Z.div_mul by lia. reflexivity.
    + assert (B := any_bits p (ok_bits p OK)). assert (E : bits p = 8) by (cbn [In] in B; lia). rewrite E. change (2 ^ 8 - 1) with 255. rewrite Z.div_mul by lia. reflexivity.
Qed.
Definition down (v : Z) : Z := if bits p =? 16 then v / 256 else v.
Definition alpha_added (q : list Z) : list Z :=
  match transparent p with Some c => add_alpha (if bits p =? 16 then 65535 else 255) (key_color p c) q | None => q end.
Lemma plain_pixel : forall px, shade p <> Indexed -> Forall (sample p) px -> map down (alpha_added (map sc px)) = shown_pixel p px.
Proof.
  intros px NI F.
  assert (M : map down (map sc px) = map (eight p) px). { rewrite map_map. apply map_ext_in. intros v I. apply (eight_scaled v NI). apply (proj1 (Forall_forall _ _) F), I. }
  unfold shown_pixel, alpha_added. replace (match shade p with Indexed => _ | _ => map (eight p) px ++ match transparent p with Some c => [if list_eq_dec Z.eq_dec px c then 0 else 255] | None => [] end end)
    with (map (eight p) px ++ match transparent p with Some c => [if list_eq_dec Z.eq_dec px c then 0 else 255] | None => [] end) by (destruct (shade p); [reflexivity|reflexivity|contradiction|reflexivity|reflexivity]).
  destruct (transparent p) as [c|]; [|rewrite app_nil_r; exact M]. unfold add_alpha. rewrite map_app, M. f_equal. cbn [map]. f_equal. unfold key_color, down.
  destruct (list_eq_dec Z.eq_dec px c) as [->|N].
  - replace (same (map sc c) (map sc c)) with true by (symmetry; apply same_ok; reflexivity). destruct (bits p =? 16); reflexivity.
  - destruct (same (map sc px) (map sc c)) eqn:E; [apply same_ok, map_scaled_injective in E; contradiction|]. destruct (bits p =? 16); reflexivity.
Qed.

(** The palette. *)
Lemma nth_alphas : forall cs al i c, Forall (fun c : list Z => List.length c = 3%nat) cs -> nth_error cs i = Some c -> nth_error (set_alphas (map opaque cs) al) i = Some (c ++ [nth i al 255]).
Proof.
  intros cs al i c F. revert al i. induction F as [|x cs L F IH]; intros al i N; [destruct i; discriminate N|]. destruct al as [|a al]; cbn [map set_alphas].
  - replace (nth i [] 255) with 255 by (destruct i; reflexivity). change (opaque x :: map opaque cs) with (map opaque (x :: cs)). rewrite nth_error_map, N. reflexivity.
  - destruct i as [|i]; cbn [nth_error nth] in *; [injection N as ->|apply IH, N]. unfold opaque. rewrite (take_app _ c [255] 3 (eq_sym L)). reflexivity.
Qed.
Definition final (z : list Z) : png := more_data (after_trns p) z.
Lemma final_fields : forall z, let f := final z in
  first f = false /\ iphone f = false /\ img_x f = width p /\ img_y f = height p /\ depth f = bits p /\ color f = color_type (shade p) /\ interlace f = weaving p /\ img_n f = channels (shade p) /\ idata f = z /\
  (shade p <> Indexed -> pal_img_n f = 0 /\ trans f = option_map (key_color p) (transparent p)) /\
  (shade p = Indexed -> pal_img_n f = shown_channels p /\ trans f = None /\ palette f = match alphas p with Some l => set_alphas (map opaque (colors p)) l | None => map opaque (colors p) end).
Proof.
  intros z. unfold final, more_data, after_trns, after_plte, after_ihdr, shown_channels. cbv zeta. destruct (shade p) eqn:S; [| |destruct (alphas p) as [l|]| |]; try destruct (transparent p) as [c|]; cbn; rewrite ?S; cbn;
  repeat (split; [reflexivity|]); (split; [intros X; try (exfalso; apply X; reflexivity); split; reflexivity|intros X; try discriminate X; repeat split]).
Qed.
Lemma indexed_pixel : forall z px, shade p = Indexed -> len px = 1 -> Forall (fun v => 0 <= v < len (colors p)) px -> expand (final z) (map sc px) = Ok (shown_pixel p px).
Proof.
  intros z px S L F. assert (FF := final_fields z). cbv zeta in FF. destruct FF as (_ & _ & _ & _ & _ & _ & _ & _ & _ & _ & FP). destruct (FP S) as (PN & _ & PA). destruct px as [|v [|]]; [discriminate L| |unfold len in L; cbn [List.length] in L; lia]. inversion F as [|? ? V _]; subst.
  assert (O := ok_palette p OK). rewrite S in O. destruct O as (_ & FC & _ & _).
  assert (F3 : Forall (fun c : list Z => List.length c = 3%nat) (colors p)) by (eapply Forall_impl; [|exact FC]; intros a [A _]; unfold len in A; lia).
  assert (SV : sc v = v) by (unfold scaled; rewrite S; cbn [color_type]; change (3 =? 0) with false; rewrite andb_false_r; reflexivity).
  unfold expand. rewrite PN, PA. cbn [map hd]. rewrite SV. unfold shown_pixel. rewrite S. cbn [hd].
  assert (I : (Z.to_nat v < List.length (colors p))%nat) by (unfold len in V; lia). assert (N := nth_error_nth' (colors p) [] I). set (c := nth (Z.to_nat v) (colors p) []) in *. clearbody c.
  assert (C3 : List.length c = 3%nat) by (apply (proj1 (Forall_forall _ _) F3), (nth_error_In _ _ N)). unfold shown_channels. rewrite S. destruct (alphas p) as [l|].
  - rewrite (nth_alphas _ l _ c F3 N). f_equal. apply firstn_all2. rewrite app_length, C3. cbn. lia.
  - rewrite nth_error_map, N. cbn [option_map]. unfold opaque. f_equal. rewrite app_nil_r. apply take_app. rewrite C3. reflexivity.
Qed.

(** The rows. *)
Definition part_ok (x : Z) (B : list (list (list Z))) : Prop :=
  Forall (fun r => len r = x) B /\ Forall (Forall (fun px => len px = channels (shade p) /\ Forall (sample p) px)) B.
Lemma row_count : forall x B pxs, 1 <= x -> part_ok x B -> In pxs B -> List.length (List.concat pxs) = Z.to_nat (channels (shade p) * x) /\ List.length pxs = Z.to_nat x /\
  Forall (fun px : list Z => List.length px = Z.to_nat (channels (shade p))) pxs /\ Forall (Forall (sample p)) pxs.
Proof.
  intros x B pxs W [PR PX] I. assert (R := proj1 (Forall_forall _ _) PR pxs I). assert (X := proj1 (Forall_forall _ _) PX pxs I). cbv beta in *.
  assert (F : Forall (fun px : list Z => List.length px = Z.to_nat (channels (shade p))) pxs) by (eapply Forall_impl; [|exact X]; intros px [A _]; unfold len in A; lia).
  assert (C0 : 0 < channels (shade p)) by (destruct (shade p); cbn; lia).
  split; [rewrite (concat_len _ _ F); unfold len in R; nia|]. split; [unfold len in R; lia|]. split; [exact F|]. eapply Forall_impl; [|exact X]. intros px [_ A]. exact A.
Qed.
Lemma out_small : forall z, 0 < out_bytes (final z) <= shown_channels p * (if bits p =? 16 then 2 else 1).
Proof.
  intros z. unfold out_bytes. assert (FF := final_fields z). cbv zeta in FF. destruct FF as (_ & _ & _ & _ & -> & _ & _ & -> & _ & FN & FI). set (n := channels (shade p)).
  assert (ON : match trans (final z) with Some _ => n + 1 | None => n end <= shown_channels p /\ 0 < match trans (final z) with Some _ => n + 1 | None => n end).
  { unfold shown_channels. destruct (shade p) eqn:S; try (destruct (FN ltac:(discriminate)) as [_ ->]; destruct (transparent p); cbn [option_map]; unfold n; cbn [channels]; lia). destruct (FI eq_refl) as (_ & -> & _). unfold n. cbn [channels]. destruct (alphas p); lia. }
  destruct (bits p =? 16); lia.
Qed.
Lemma fits : forall z x y, 1 <= x <= width p -> 1 <= y <= height p -> (2147483647 <? x * y * out_bytes (final z)) = false.
Proof.
  intros z x y W H. apply Z.ltb_ge. assert (LG := proj2 (ok_large p OK)). assert (O := out_small z). set (o := out_bytes (final z)) in *. set (sb := shown_channels p * (if bits p =? 16 then 2 else 1)) in *.
  assert (x * y <= width p * height p) by (apply Z.mul_le_mono_nonneg; lia). assert (x * y * o <= width p * height p * sb) by (apply Z.mul_le_mono_nonneg; nia). change (2 ^ 31) with 2147483648 in LG. lia.
Qed.
Lemma created_raw : forall z x y B raw extra, 1 <= x <= width p -> 1 <= y <= height p -> len B = y -> part_ok x B -> scanned p B raw ->
  create_raw (final z) x y (raw ++ extra) = Ok (Some (map (map (map sc)) B)) /\ List.length raw = Z.to_nat ((row_bytes (final z) x + 1) * y).
Proof.
  intros z x y B raw extra W H RC PO (rows & P & FR). unfold create_raw. rewrite (fits z x y W H). unfold row_bytes. assert (FF := final_fields z). cbv zeta in FF. destruct FF as (_ & _ & _ & _ & -> & -> & _ & -> & _ & _ & _).
  assert (BB := any_bits p (ok_bits p OK)). unfold len in RC.
  assert (C0 : 0 < channels (shade p) <= 4) by (destruct (shade p); cbn; lia). set (n := channels (shade p)) in *. set (d := bits p) in *.
  assert (D0 : 0 < d <= 16) by (cbn [In] in BB; lia). set (by_ := if d =? 16 then 2 else 1) in *.
  set (w := (n * x * d + 7) / 8). assert (W0 : 0 <= w) by (apply Z.div_pos; nia).
  assert (RW : Forall (fun r => Forall byte r /\ List.length r = Z.to_nat w) rows /\ List.length rows = List.length B).
  { assert (Q : forall pxs row, In pxs B -> packed d (List.concat pxs) row -> Forall byte row /\ List.length row = Z.to_nat w).
    { intros pxs row I (BY & L & _). split; [exact BY|]. destruct (row_count x B pxs (proj1 W) PO I) as (CL & _). unfold len in L. rewrite CL, Z2Nat.id in L by nia. fold n in L. replace (d * (n * x)) with (n * x * d) in L by lia. fold w in L. lia. }
    clear - P Q. induction P as [|a b l l' H P IH]; [split; [constructor|reflexivity]|]. destruct IH as [I1 I2]; [intros u v I; apply Q; right; exact I|]. split; [constructor; [apply (Q a b (or_introl eq_refl) H)|exact I1]|cbn [List.length]; rewrite I2; reflexivity]. }
  destruct RW as [RW RL].
  assert (RAW : List.length raw = ((Z.to_nat w + 1) * Z.to_nat y)%nat).
  { rewrite (rows_length _ (Z.to_nat w) _ _ _ FR) by (eapply Forall_impl; [|exact RW]; intros r [_ A]; exact A). rewrite RL. f_equal. lia. }
  split; [|rewrite RAW; nia].
  destruct (Z.ltb_spec (Z.of_nat (List.length (raw ++ extra))) ((w + 1) * y)) as [X|_]; [exfalso; rewrite app_length, RAW in X; nia|].
  assert (TE : (d <? 8) && (x <? w) = false).
  { destruct (Z.ltb_spec d 8) as [L|L]; cbn [andb]; [|reflexivity]. apply Z.ltb_ge. destruct (few_bits p (ok_bits p OK) L) as [S BD]. assert (N1 : n = 1) by (unfold n; destruct S as [-> | ->]; reflexivity). unfold w. rewrite N1. fold d in BD. apply Z.lt_succ_r, Z.div_lt_upper_bound; [lia|]. destruct BD as [<-|[<-|[<-|[]]]]; lia. }
  rewrite TE.
  assert (FB : (if d <? 8 then 1 else n * by_) = Z.max 1 (n * d / 8)).
  { destruct (Z.ltb_spec d 8) as [L|L].
    - destruct (few_bits p (ok_bits p OK) L) as [S BD]. assert (N1 : n = 1) by (unfold n; destruct S as [-> | ->]; reflexivity). rewrite N1. rewrite Z.div_small by lia. reflexivity.
    - unfold by_. cbn [In] in BB. destruct (Z.eqb_spec d 16) as [E|E]; [rewrite E; replace (n * 16) with (n * 2 * 8) by lia; rewrite Z.div_mul by lia; lia|]. assert (E8 : d = 8) by lia. rewrite E8, Z.div_mul by lia. lia. }
  rewrite FB. fold n d in FR. replace (Z.to_nat y) with (List.length rows) by (rewrite RL; lia).
  assert (FP : (0 < Z.to_nat (Z.max 1 (n * d / 8)))%nat) by (assert (MX := Z.le_max_l 1 (n * d / 8)); lia). rewrite (rows_all _ (Z.to_nat w) rows raw extra FP FR RW). do 2 f_equal.
  assert (Q : forall pxs row, In pxs B -> packed d (List.concat pxs) row ->
    pixels (Z.to_nat x) (Z.to_nat n) (unpack d (color_type (shade p)) (Z.to_nat (n * x)) row) = map (map sc) pxs).
  { intros pxs row I PK. destruct (row_count x B pxs (proj1 W) PO I) as (CL & PL & F & SA). fold n in CL, F. rewrite <- CL. rewrite (unpack_ok d _ (List.concat pxs) row BB PK).
    - rewrite map_concat, <- PL. replace (List.length pxs) with (List.length (map (map sc) pxs)) by apply map_length. apply pixels_concat. apply Forall_map. eapply Forall_impl; [|exact F]. intros px A. rewrite map_length. exact A.
    - apply Forall_concat. exact SA. }
  clear - P Q. induction P as [|a b l l' H P IH]; [reflexivity|]. cbn [map]. rewrite (Q a b (or_introl eq_refl) H). f_equal. apply IH. intros u v I. apply Q. right. exact I.
Qed.

(** The passes. *)
Definition pixel_at (y x : nat) (px : list Z) : Prop := exists row, nth_error (body p) y = Some row /\ nth_error row x = Some px.
Definition done (ks : list nat) (m : canvas) : Prop := forall y x px, pixel_at y x px -> In (pass_of y x) ks -> m (Z.of_nat y) (Z.of_nat x) = Some (map sc px).
Definition as_pass (t : nat * nat * nat * nat) : Z * Z * Z * Z := let '(xo, yo, xs, ys) := t in (Z.of_nat xo, Z.of_nat yo, Z.of_nat xs, Z.of_nat ys).
Lemma widths : Forall (fun r : list (list Z) => List.length r = Z.to_nat (width p)) (body p).
Proof. eapply Forall_impl; [|exact (ok_row p OK)]. intros r R. unfold len in R. lia. Qed.
Lemma body_ok : part_ok (width p) (body p).
Proof. split; [apply (ok_row p OK)|apply (ok_pixel p OK)]. Qed.
Lemma one_pass : forall z k t ps part rest m ks, In (k, t) table -> scanned p (pass k (body p)) part -> done ks m ->
  exists m', weave (final z) (as_pass t :: ps) (part ++ rest) m = weave (final z) ps rest m' /\ done (k :: ks) m'.
Proof.
  intros z k [[[xo yo] xs] ys] ps part rest m ks I SC DN. destruct (lattice k xo yo xs ys I) as (X & Y & L). assert (PP := pass_places k xo yo xs ys I _ _ widths).
  assert (W := ok_width p OK). assert (H := ok_height p OK). assert (RC := ok_rows p OK). assert (CY := places_count _ ys yo (body p) Y). rewrite RC in CY.
  cbn [as_pass weave]. assert (FF := final_fields z). cbv zeta in FF. destruct FF as (_ & _ & FX & FY & _). rewrite FX, FY.
  set (x := (width p - Z.of_nat xo + Z.of_nat xs - 1) / Z.of_nat xs). set (y := (height p - Z.of_nat yo + Z.of_nat ys - 1) / Z.of_nat ys) in *.
  assert (XP : x = 0 <-> width p <= Z.of_nat xo). { unfold x. split; intros E; [apply Z.div_small_iff in E; lia|apply Z.div_small; lia]. }
  assert (YP : y = 0 <-> height p <= Z.of_nat yo). { unfold y. split; intros E; [apply Z.div_small_iff in E; lia|apply Z.div_small; lia]. }
  assert (SKIP : x = 0 \/ y = 0 -> part = [] /\ done (k :: ks) m).
  { intros E. assert (PE : pass k (body p) = []).
    { rewrite PP. destruct (Nat.ltb_spec xo (Z.to_nat (width p))) as [XW|XW]; [|reflexivity]. destruct E as [E|E]; [apply XP in E; lia|]. destruct (places ys yo (body p)); [reflexivity|]. rewrite E in CY. cbn in CY. lia. }
    split.
    - rewrite PE in SC. destruct SC as (rows & F2 & FR). inversion F2; subst. inversion FR. reflexivity.
    - intros y' x' px (row & N1 & N2) [K|K]; [|exact (DN y' x' px (ex_intro _ row (conj N1 N2)) K)]. exfalso. assert (LA := L y' x'). rewrite K, Nat.eqb_refl in LA. symmetry in LA. apply andb_true_iff in LA. destruct LA as [A1 A2]. apply Nat.eqb_eq in A1, A2.
      assert (Y1 : (y' < List.length (body p))%nat) by (apply nth_error_Some; congruence). assert (X1 : (x' < List.length row)%nat) by (apply nth_error_Some; congruence).
      assert (RW : List.length row = Z.to_nat (width p)) by (apply (proj1 (Forall_forall _ _) widths), (nth_error_In _ _ N1)). unfold len in RC. assert (M1 := Nat.mod_le y' ys ltac:(lia)). assert (M2 := Nat.mod_le x' xs ltac:(lia)).
      destruct E as [E|E]; [apply XP in E; lia|apply YP in E; lia]. }
  destruct (Z.eqb_spec x 0) as [EX|EX]; [destruct (SKIP (or_introl EX)) as [-> D]; exists m; split; [reflexivity|exact D]|].
  destruct (Z.eqb_spec y 0) as [EY|EY]; [destruct (SKIP (or_intror EY)) as [-> D]; exists m; split; [reflexivity|exact D]|]. cbn [orb]. clear SKIP.
  assert (XO : Z.of_nat xo < width p) by lia. assert (YO : Z.of_nat yo < height p) by lia.
  assert (X1 : 1 <= x <= width p). { assert (0 <= x) by (apply Z.div_pos; lia). split; [lia|]. unfold x. apply Z.lt_succ_r, Z.div_lt_upper_bound; nia. }
  assert (Y1 : 1 <= y <= height p). { assert (0 <= y) by (apply Z.div_pos; lia). split; [lia|]. unfold y. apply Z.lt_succ_r, Z.div_lt_upper_bound; nia. }
  destruct (Nat.ltb_spec xo (Z.to_nat (width p))) as [XW|XW]; [|lia]. rewrite PP in SC. set (B := map (places xs xo) (places ys yo (body p))) in *.
  assert (LB : len B = y) by (unfold len, B; rewrite map_length; exact CY).
  assert (PB : part_ok x B).
  { split; apply Forall_map; apply places_all.
    - eapply Forall_impl; [|exact (ok_row p OK)]. intros r R. unfold len at 1. rewrite (places_count _ xs xo r X), R. reflexivity.
    - eapply Forall_impl; [|exact (ok_pixel p OK)]. intros r R. apply places_all, R. }
  destruct (created_raw z x y B part rest X1 Y1 LB PB SC) as [CR LR]. rewrite CR. cbn [bind]. assert (FI := fits z (width p) (height p) ltac:(lia) ltac:(lia)). rewrite FI. rewrite <- LR, (drop_app _ part rest _ eq_refl). eexists. split; [reflexivity|].
  intros y' x' px (row & N1 & N2) K. assert (LA := L y' x'). destruct (Nat.eqb_spec (pass_of y' x') k) as [PK|PK].
  - symmetry in LA. apply andb_true_iff in LA. destruct LA as [A1 A2]. apply Nat.eqb_eq in A1, A2.
    assert (D1 := Nat.div_mod y' ys ltac:(lia)). assert (D2 := Nat.div_mod x' xs ltac:(lia)). rewrite A1 in D1. rewrite A2 in D2.
    replace (Z.of_nat y') with (Z.of_nat yo + Z.of_nat (y' / ys) * Z.of_nat ys) by nia. replace (Z.of_nat x') with (Z.of_nat xo + Z.of_nat (x' / xs) * Z.of_nat xs) by nia.
    apply put_rows_at with (row := map (map sc) (places xs xo row)); [lia|lia| |].
    + unfold B. rewrite map_map, nth_error_map, (nth_places _ ys yo _ _ Y). replace (yo + y' / ys * ys)%nat with y' by lia. rewrite N1. reflexivity.
    + rewrite nth_error_map, (nth_places _ xs xo _ _ X). replace (xo + x' / xs * xs)%nat with x' by lia. rewrite N2. reflexivity.
  - destruct K as [K|K]; [congruence|]. rewrite put_rows_other; [exact (DN y' x' px (ex_intro _ row (conj N1 N2)) K)|]. symmetry in LA. apply andb_false_iff in LA. destruct LA as [A|A]; apply Nat.eqb_neq in A; [left; intros j E|right; intros i E].
    + apply A. assert (E' : y' = (yo + j * ys)%nat) by nia. rewrite E', Nat.mod_add by lia. apply Nat.mod_small, Y.
    + apply A. assert (E' : x' = (xo + i * xs)%nat) by nia. rewrite E', Nat.mod_add by lia. apply Nat.mod_small, X.
Qed.
Lemma every_pass : forall y x, In (pass_of y x) [7; 6; 5; 4; 3; 2; 1]%nat.
Proof.
  intros y x. unfold pass_of. assert (A := Nat.mod_upper_bound y 8 ltac:(lia)). assert (B := Nat.mod_upper_bound x 8 ltac:(lia)). revert A B. generalize (y mod 8)%nat, (x mod 8)%nat. intros a b A B.
  do 8 (destruct a as [|a]; [do 8 (destruct b as [|b]; [cbn; tauto|]); lia|]). lia.
Qed.
Lemma created : forall z raw extra, scanlines p raw -> create_png_image (final z) (raw ++ extra) = Ok (Some (map (map (map sc)) (body p))).
Proof.
  intros z raw extra S. unfold create_png_image, scanlines in *. assert (FF := final_fields z). cbv zeta in FF. destruct FF as (_ & _ & FX & FY & _ & _ & -> & _). rewrite FX, FY. assert (W := ok_width p OK). assert (H := ok_height p OK).
  unfold weaving. destruct (interlaced p); [change (1 =? 1) with true|change (0 =? 1) with false]; cbv iota; [|assert (W1 : 1 <= width p <= width p) by lia; assert (H1 : 1 <= height p <= height p) by lia; apply (created_raw z _ _ _ raw extra W1 H1 (ok_rows p OK) body_ok S)].
  destruct S as (part & -> & SC). cbn [seq flat_map]. rewrite app_nil_r, <- !app_assoc.
  assert (D0 : done [] (fun _ _ => None)) by (intros ? ? ? ? []).
  change passes with (map (fun e => as_pass (snd e)) table). cbn [map table snd].
  destruct (one_pass z 1 _ (map (fun e => as_pass (snd e)) (skipn 1 table)) (part 1%nat) (part 2%nat ++ part 3%nat ++ part 4%nat ++ part 5%nat ++ part 6%nat ++ part 7%nat ++ extra) _ _ (or_introl eq_refl) (SC 1%nat ltac:(lia)) D0) as (m1 & E1 & D1).
  destruct (one_pass z 2 _ (map (fun e => as_pass (snd e)) (skipn 2 table)) (part 2%nat) (part 3%nat ++ part 4%nat ++ part 5%nat ++ part 6%nat ++ part 7%nat ++ extra) _ _ (or_intror (or_introl eq_refl)) (SC 2%nat ltac:(lia)) D1) as (m2 & E2 & D2).
  destruct (one_pass z 3 _ (map (fun e => as_pass (snd e)) (skipn 3 table)) (part 3%nat) (part 4%nat ++ part 5%nat ++ part 6%nat ++ part 7%nat ++ extra) _ _ (or_intror (or_intror (or_introl eq_refl))) (SC 3%nat ltac:(lia)) D2) as (m3 & E3 & D3).
  destruct (one_pass z 4 _ (map (fun e => as_pass (snd e)) (skipn 4 table)) (part 4%nat) (part 5%nat ++ part 6%nat ++ part 7%nat ++ extra) _ _ (or_intror (or_intror (or_intror (or_introl eq_refl)))) (SC 4%nat ltac:(lia)) D3) as (m4 & E4 & D4).
  destruct (one_pass z 5 _ (map (fun e => as_pass (snd e)) (skipn 5 table)) (part 5%nat) (part 6%nat ++ part 7%nat ++ extra) _ _ (or_intror (or_intror (or_intror (or_intror (or_introl eq_refl))))) (SC 5%nat ltac:(lia)) D4) as (m5 & E5 & D5).
  destruct (one_pass z 6 _ (map (fun e => as_pass (snd e)) (skipn 6 table)) (part 6%nat) (part 7%nat ++ extra) _ _ (or_intror (or_intror (or_intror (or_intror (or_intror (or_introl eq_refl)))))) (SC 6%nat ltac:(lia)) D5) as (m6 & E6 & D6).
  destruct (one_pass z 7 _ [] (part 7%nat) extra _ _ (or_intror (or_intror (or_intror (or_intror (or_intror (or_intror (or_introl eq_refl))))))) (SC 7%nat ltac:(lia)) D6) as (m7 & E7 & D7).
  cbn [skipn table map snd] in E1, E2, E3, E4, E5, E6, E7. rewrite E1, E2, E3, E4, E5, E6, E7. cbn [weave bind].
  assert (RC := ok_rows p OK). unfold len in RC. replace (Z.to_nat (height p)) with (List.length (body p)) by lia. rewrite (read_canvas (map sc) (Z.to_nat (width p)) (body p) m7 widths).
  - reflexivity.
  - intros y x row px N1 N2. apply D7; [exists row; split; assumption|apply every_pass].
Qed.

Lemma finished : forall inflate z raw extra, z <> [] -> inflate true z = Some (raw ++ extra) -> scanlines p raw ->
  finish inflate (final z) = Ok (Some (width p, height p, shown_channels p, shown p)).
Proof.
  intros inflate z raw extra NZ I S. unfold finish. assert (C := created z raw extra S). assert (FF := final_fields z). cbv zeta in FF. destruct FF as (-> & -> & -> & -> & -> & _ & _ & -> & -> & FN & FI). destruct z as [|b z]; [contradiction|]. cbn [negb]. rewrite I. rewrite C. cbn [bind].
  rewrite concat_map_map. unfold shown. rewrite flat_concat.
  assert (PX : forall px, In px (List.concat (body p)) -> len px = channels (shade p) /\ Forall (sample p) px).
  { intros px X. apply in_concat in X. destruct X as (pxs & X1 & X2). assert (X := proj1 (Forall_forall _ _) (ok_pixel p OK) pxs X1). cbv beta in X. apply (proj1 (Forall_forall _ _) X px X2). }
  assert (CASE : shade p = Indexed \/ shade p <> Indexed) by (destruct (shade p); [right; discriminate|right; discriminate|left; reflexivity|right; discriminate|right; discriminate]). destruct CASE as [SH|NI].
  - destruct (FI SH) as (PN & TR & _). rewrite PN, TR. assert (SC : shown_channels p = 3 \/ shown_channels p = 4) by (unfold shown_channels; rewrite SH; destruct (alphas p); auto).
    destruct (Z.eqb_spec (shown_channels p) 0); [lia|].
    replace (mapM (expand (final (b :: z))) (map (map sc) (List.concat (body p)))) with (@Ok (list (list Z)) (map (shown_pixel p) (List.concat (body p)))); [reflexivity|]. symmetry.
    assert (O := ok_palette p OK). rewrite SH in O. destruct O as (_ & _ & _ & _ & V).
    assert (VX : forall px, In px (List.concat (body p)) -> Forall (fun v => 0 <= v < len (colors p)) px).
    { intros px X. destruct (PX px X) as [_ SA]. apply in_concat in X. destruct X as (pxs & X1 & X2). assert (Y := proj1 (Forall_forall _ _) V pxs X1). cbv beta in Y. assert (Y2 := proj1 (Forall_forall _ _) Y px X2). cbv beta in Y2.
      apply Forall_forall. intros v VI. assert (A := proj1 (Forall_forall _ _) Y2 v VI). assert (B := proj1 (Forall_forall _ _) SA v VI). unfold sample in B. cbv beta in *. lia. }
    revert PX VX. generalize (List.concat (body p)). intros l PX VX. induction l as [|px l IH]; [reflexivity|]. cbn [map mapM]. rewrite (indexed_pixel (b :: z) px SH); [|rewrite (proj1 (PX px (or_introl eq_refl))), SH; reflexivity|apply VX; left; reflexivity].
    cbn [bind]. rewrite IH; [reflexivity| |]; intros q Q; [apply PX|apply VX]; right; exact Q.
  - destruct (FN NI) as (PN & TR). rewrite PN, TR. change (0 =? 0) with true. cbv iota.
    assert (SC : match option_map (key_color p) (transparent p) with Some _ => channels (shade p) + 1 | None => channels (shade p) end = shown_channels p). { unfold shown_channels. destruct (shade p); try contradiction; destruct (transparent p); reflexivity. }
    rewrite SC. do 3 f_equal.
    assert (A : match option_map (key_color p) (transparent p) with Some tc => map (add_alpha (if bits p =? 16 then 65535 else 255) tc) (map (map sc) (List.concat (body p))) | None => map (map sc) (List.concat (body p)) end = map (fun px => alpha_added (map sc px)) (List.concat (body p))).
    { unfold alpha_added. destruct (transparent p); cbn [option_map]; [rewrite map_map; reflexivity|apply map_ext; reflexivity]. }
    rewrite A. replace (if bits p =? 16 then map (fun v => v / 256) (List.concat (map (fun px => alpha_added (map sc px)) (List.concat (body p)))) else List.concat (map (fun px => alpha_added (map sc px)) (List.concat (body p))))
      with (map down (List.concat (map (fun px => alpha_added (map sc px)) (List.concat (body p))))).
    + rewrite map_concat, map_map. f_equal. apply map_ext_in. intros px X. apply plain_pixel; [exact NI|apply PX, X].
    + unfold down. destruct (bits p =? 16); [reflexivity|apply map_id].
Qed.
Lemma loaded : forall inflate z raw extra file, z <> [] -> len z < 2 ^ 31 -> inflate true z = Some (raw ++ extra) -> scanlines p raw -> png_file p z file ->
  load inflate file = Ok (Some (width p, height p, shown_channels p, shown p)).
Proof.
  intros inflate z raw extra file NZ LZ I S (h & ih & a1 & pl & a2 & tr & a3 & ds & ie & rest & -> & H & CI & A1 & PL & A2 & TR & A3 & DS & IE).
  unfold load. match goal with |- context [check_png_header signature (_ ++ ?x)] => change (check_png_header signature ([137; 80; 78; 71; 13; 10; 26; 10] ++ x)) with (Some x); set (s := x) end.
  assert (R : runs inflate start s (finish inflate (final z))).
  { unfold s. apply (runs_ihdr inflate p h); try assumption. apply runs_several; [exact A1|reflexivity|]. apply (runs_plte inflate p); try assumption.
    apply runs_several; [exact A2|unfold after_plte, after_ihdr; destruct (shade p); reflexivity|]. apply (runs_trns inflate p); try assumption.
    assert (FF := final_fields []). cbv zeta in FF. destruct FF as (F1 & _ & _ & _ & _ & _ & _ & _ & ID & FN & FI). unfold final, more_data in F1, ID, FN, FI. cbn [first idata pal_img_n trans palette] in F1, ID, FN, FI. rewrite app_nil_r in ID.
    apply runs_several; [exact A3|exact F1|]. apply (runs_data inflate z ds _ _ DS); [exact F1| |rewrite ID; exact LZ|apply runs_end; exact IE].
    destruct (shade p) eqn:SH; try (left; apply (FN ltac:(discriminate))). right. assert (O := ok_palette p OK). rewrite SH in O. destruct O as ([L _] & _). unfold after_trns, after_plte. rewrite SH. destruct (alphas p); cbn [pal_len]; lia. }
  rewrite R by lia. apply (finished inflate z raw extra); assumption.
Qed.
End photo.
