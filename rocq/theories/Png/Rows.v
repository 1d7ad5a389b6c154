(** Filters are undone and samples unpacked. *)
From Coq Require Import List Bool ZArith Ascii String Lia.
From Verif.Base Require Import Py.
From Verif.Png Require Import Model.
From Verif.Png Require Import Spec.
Import ListNotations.
Local Open Scope Z_scope.

Lemma nearest_paeth : forall a b c x, nearest a b c x -> paeth a b c = x.
Proof.
  intros a b c x N. unfold nearest in N. unfold paeth. cbv zeta in *.
  destruct (Z.leb_spec (Z.abs (a + b - c - a)) (Z.abs (a + b - c - b))), (Z.leb_spec (Z.abs (a + b - c - a)) (Z.abs (a + b - c - c))), (Z.leb_spec (Z.abs (a + b - c - b)) (Z.abs (a + b - c - c))); cbn [andb]; lia.
Qed.
Lemma predicted_paeth : forall a b c x, predicted 4 a b c x -> paeth a b c = x.
Proof. intros a b c x [[H _]|[[H _]|[[H _]|[[H _]|[_ H]]]]]; try discriminate H. apply nearest_paeth, H. Qed.
Lemma undo : forall b x, byte b -> ((b - x) mod 256 + x) mod 256 = b.
Proof. intros b x B. rewrite Zplus_mod_idemp_l. replace (b - x + x) with b by lia. apply Z.mod_small, B. Qed.
Lemma small_undo : forall b, byte b -> (b - 0) mod 256 = b.
Proof. intros b B. rewrite Z.sub_0_r. apply Z.mod_small, B. Qed.
Lemma paeth_up : forall u, paeth 0 u 0 = u.
Proof. intros u. unfold paeth. cbv zeta. destruct (Z.leb_spec (Z.abs (0 + u - 0 - 0)) (Z.abs (0 + u - 0 - u))), (Z.leb_spec (Z.abs (0 + u - 0 - 0)) (Z.abs (0 + u - 0 - 0))), (Z.leb_spec (Z.abs (0 + u - 0 - u)) (Z.abs (0 + u - 0 - 0))); cbn [andb]; lia. Qed.
Lemma paeth_left : forall l, paeth l 0 0 = l.
Proof. intros l. unfold paeth. cbv zeta. destruct (Z.leb_spec (Z.abs (l + 0 - 0 - l)) (Z.abs (l + 0 - 0 - 0))); cbn [andb]; lia. Qed.

Lemma unfilter_byte_ok : forall f b fb prior cur x r raw, filter_of b = Some f -> byte r ->
  predicted b (before fb cur (List.length cur)) (nth (List.length cur) prior 0) (before fb prior (List.length cur)) x -> raw = (r - x) mod 256 ->
  unfilter_byte f fb prior cur raw = r.
Proof.
  intros f b fb prior cur x r raw F R P ->. unfold unfilter_byte. unfold before in P. cbv zeta. unfold filter_of in F.
  assert (P0 := P). destruct P as [[-> ->]|[[-> ->]|[[-> ->]|[[-> ->]|[-> _]]]]]; cbn in F; injection F as <-.
  - destruct (List.length cur <? fb)%nat; apply small_undo, R.
  - destruct (List.length cur <? fb)%nat; [apply small_undo, R|apply undo, R].
  - destruct (List.length cur <? fb)%nat; apply undo, R.
  - destruct (List.length cur <? fb)%nat; [rewrite Z.add_0_l; apply undo, R|rewrite Z.add_comm with (n := nth _ prior 0); apply undo, R].
  - apply predicted_paeth in P0. destruct (List.length cur <? fb)%nat; rewrite P0; apply undo, R.
Qed.
(** The first row. *)
Lemma unfilter_first_ok : forall f b fb cur x r raw, filter_of b = Some f -> byte r ->
  predicted b (before fb cur (List.length cur)) 0 0 x -> raw = (r - x) mod 256 ->
  unfilter_byte (first_row_filter f) fb [] cur raw = r.
Proof.
  intros f b fb cur x r raw F R P ->. unfold unfilter_byte. unfold before in P. cbv zeta. unfold filter_of in F.
  assert (P0 := P). destruct P as [[-> ->]|[[-> ->]|[[-> ->]|[[-> ->]|[-> _]]]]]; cbn in F; injection F as <-; cbn [first_row_filter].
  - destruct (List.length cur <? fb)%nat; apply small_undo, R.
  - destruct (List.length cur <? fb)%nat; [apply small_undo, R|apply undo, R].
  - destruct (List.length cur <? fb)%nat; apply small_undo, R.
  - rewrite Z.add_0_r. destruct (List.length cur <? fb)%nat; [apply small_undo, R|apply undo, R].
  - apply predicted_paeth in P0. destruct (List.length cur <? fb)%nat; rewrite paeth_left in P0; rewrite <- P0; [apply small_undo, R|rewrite paeth_left; apply undo, R].
Qed.

Lemma firstn_S_nth : forall (l : list Z) n, (n < List.length l)%nat -> firstn (S n) l = firstn n l ++ [nth n l 0].
Proof. induction l as [|x l IH]; intros n L; [cbn in L; lia|]. destruct n as [|n]; [reflexivity|]. cbn [firstn nth app]. rewrite <- IH by (cbn in L; lia). reflexivity. Qed.
Lemma nth_firstn_lt : forall (l : list Z) n k, (k < n)%nat -> nth k (firstn n l) 0 = nth k l 0.
Proof. induction l as [|x l IH]; intros n k L; [rewrite firstn_nil; reflexivity|]. destruct n; [lia|]. destruct k; [reflexivity|]. cbn [firstn nth]. apply IH. lia. Qed.
Lemma before_firstn : forall fb (row : list Z) n, (0 < fb)%nat -> before fb (firstn n row) n = before fb row n.
Proof. intros fb row n P. unfold before. destruct (Nat.ltb_spec n fb); [reflexivity|]. apply nth_firstn_lt. lia. Qed.

Lemma unfold_row : forall (step : list Z -> Z -> Z) row out, List.length out = List.length row ->
  (forall k, (k < List.length row)%nat -> step (firstn k row) (nth k out 0) = nth k row 0) ->
  fold_left (fun cur r => cur ++ [step cur r]) out [] = row.
Proof.
  intros step row out L H.
  assert (G : forall n, (n <= List.length row)%nat -> fold_left (fun cur r => cur ++ [step cur r]) (firstn n out) [] = firstn n row).
  { induction n as [|n IH]; intros N; [reflexivity|]. rewrite (firstn_S_nth out) by lia. rewrite fold_left_app. cbn [fold_left]. rewrite IH by lia. rewrite H by lia. symmetry. apply firstn_S_nth. lia. }
  specialize (G (List.length row) (Nat.le_refl _)). rewrite <- L in G at 1. rewrite !firstn_all in G. exact G.
Qed.
Lemma nth_byte : forall l k, Forall byte l -> byte (nth k l 0).
Proof. intros l k F. destruct (Nat.lt_ge_cases k (List.length l)); [apply (proj1 (Forall_forall _ _) F), nth_In, H|rewrite nth_overflow by exact H; unfold byte; lia]. Qed.
Lemma row_ok : forall f b fb prior row out, (0 < fb)%nat -> filter_of b = Some f -> Forall byte row -> filtered b fb prior row out -> unfilter_row f fb prior out = row.
Proof.
  intros f b fb prior row out P F B [L H]. apply unfold_row; [exact L|]. intros k K. destruct (H k K) as (x & X & E).
  assert (LE : List.length (firstn k row) = k) by (apply firstn_length_le; lia).
  apply (unfilter_byte_ok f b fb prior (firstn k row) x); [exact F|apply nth_byte, B| |exact E]. rewrite LE, before_firstn by exact P. exact X.
Qed.
Lemma first_ok : forall f b fb row out, (0 < fb)%nat -> filter_of b = Some f -> Forall byte row -> filtered b fb [] row out -> unfilter_row (first_row_filter f) fb [] out = row.
Proof.
  intros f b fb row out P F B [L H]. apply unfold_row; [exact L|]. intros k K. destruct (H k K) as (x & X & E).
  assert (LE : List.length (firstn k row) = k) by (apply firstn_length_le; lia).
  apply (unfilter_first_ok f b fb (firstn k row) x); [exact F|apply nth_byte, B| |exact E]. rewrite LE, before_firstn by exact P.
  replace (nth k [] 0) with 0 in X by (destruct k; reflexivity). replace (before fb [] k) with 0 in X; [exact X|]. unfold before. destruct (k <? fb)%nat; [reflexivity|]. destruct (k - fb)%nat; reflexivity.
Qed.
Lemma filter_of_ok : forall b, 0 <= b <= 4 -> exists f, filter_of b = Some f.
Proof. intros b B. assert (C : b = 0 \/ b = 1 \/ b = 2 \/ b = 3 \/ b = 4) by lia. destruct C as [->|[->|[->|[->| ->]]]]; eexists; reflexivity. Qed.
Lemma take_app : forall A (l m : list A) n, n = List.length l -> firstn n (l ++ m) = l.
Proof. intros A l m n ->. rewrite firstn_app, firstn_all, Nat.sub_diag, app_nil_r. reflexivity. Qed.
Lemma drop_app : forall A (l m : list A) n, n = List.length l -> skipn n (l ++ m) = m.
Proof. intros A l m n ->. rewrite skipn_app, skipn_all, Nat.sub_diag. reflexivity. Qed.
Lemma rows_later : forall fb w rows prior raw extra, (0 < fb)%nat -> filtered_rows fb prior rows raw -> Forall (fun r => Forall byte r /\ List.length r = w) rows ->
  unfilter (List.length rows) w fb (Some prior) (raw ++ extra) = Some rows.
Proof.
  intros fb w rows prior raw extra P F. revert extra. induction F as [prior|prior row rows f out raw FR R F IH]; intros extra B; [reflexivity|].
  inversion B as [|? ? [B1 L1] B2]; subst. cbn [List.length unfilter app get8]. destruct (filter_of_ok f R) as [g G]. rewrite G. assert (LO : List.length out = List.length row) by apply FR.
  rewrite <- app_assoc. rewrite (take_app _ _ _ _ (eq_sym LO)), (drop_app _ _ _ _ (eq_sym LO)). rewrite (row_ok g f fb prior row out P G B1 FR).
  rewrite (IH extra B2). reflexivity.
Qed.
Lemma rows_all : forall fb w rows raw extra, (0 < fb)%nat -> filtered_rows fb [] rows raw -> Forall (fun r => Forall byte r /\ List.length r = w) rows ->
  unfilter (List.length rows) w fb None (raw ++ extra) = Some rows.
Proof.
  intros fb w rows raw extra P F B. inversion F as [|? row rows' f out raw' FR R F']; subst; [reflexivity|].
  inversion B as [|? ? [B1 L1] B2]; subst. cbn [List.length unfilter app get8]. destruct (filter_of_ok f R) as [g G]. rewrite G. assert (LO : List.length out = List.length row) by apply FR.
  rewrite <- app_assoc. rewrite (take_app _ _ _ _ (eq_sym LO)), (drop_app _ _ _ _ (eq_sym LO)). rewrite (first_ok g f fb row out P G B1 FR).
  rewrite (rows_later fb (List.length row) rows' row raw' extra P F' B2). reflexivity.
Qed.
Lemma rows_length : forall fb w rows prior raw, filtered_rows fb prior rows raw -> Forall (fun r => List.length r = w) rows -> List.length raw = ((w + 1) * List.length rows)%nat.
Proof.
  intros fb w rows prior raw F. induction F as [|prior row rows f out raw FR R F IH]; intros B; [cbn [List.length]; rewrite Nat.mul_0_r; reflexivity|]. inversion B as [|? ? B1 B2]; subst. cbn [List.length]. rewrite app_length, (IH B2), Nat.mul_succ_r. destruct FR as [L _]. lia.
Qed.

(** * Samples *)
Lemma number_app : forall l m, number (l ++ m) = number l * 256 ^ len m + number m.
Proof.
  intros l m. unfold number. rewrite fold_left_app. generalize (fold_left (fun n b => n * 256 + b) l 0). clear l. induction m as [|b m IH] using rev_ind; intros n; [cbn; lia|].
  rewrite !fold_left_app. cbn [fold_left]. rewrite IH. unfold len. rewrite app_length. cbn [List.length]. replace (Z.of_nat (List.length m + 1)) with (Z.of_nat (List.length m) + 1) by lia. rewrite Z.pow_add_r by lia. lia.
Qed.
Lemma number_bound : forall l, Forall byte l -> 0 <= number l < 256 ^ len l.
Proof.
  induction l as [|b l IH] using rev_ind; intros F; [cbn; lia|]. rewrite number_app. apply Forall_app in F. destruct F as [F B]. specialize (IH F). inversion B as [|? ? B1 _]; subst. unfold byte in B1.
  replace (len (l ++ [b])) with (len l + 1) by (unfold len; rewrite app_length; cbn [List.length]; lia). rewrite Z.pow_add_r by (unfold len; lia). change (256 ^ len [b]) with 256. change (256 ^ 1) with 256. change (number [b]) with b. lia.
Qed.
Lemma split_at : forall (l : list Z) i, (i < List.length l)%nat -> l = firstn i l ++ nth i l 0 :: skipn (S i) l.
Proof. induction l as [|x l IH]; intros i L; [cbn in L; lia|]. destruct i as [|i]; [reflexivity|]. cbn [firstn nth skipn app]. rewrite <- IH by (cbn in L; lia). reflexivity. Qed.
(** The bytes before some place. *)
Lemma number_prefix : forall l n, Forall byte l -> (n <= List.length l)%nat -> number l / 256 ^ (len l - Z.of_nat n) = number (firstn n l).
Proof.
  intros l n F L. rewrite <- (firstn_skipn n l) at 1. rewrite number_app. assert (FS : Forall byte (skipn n l)) by (rewrite <- (firstn_skipn n l) in F; apply Forall_app in F; apply F).
  assert (B := number_bound _ FS). assert (LS : len (skipn n l) = len l - Z.of_nat n) by (unfold len; rewrite skipn_length; lia). rewrite LS in *. rewrite Z.div_add_l by lia. rewrite Z.div_small by exact B. lia.
Qed.
Lemma number_last : forall l i, Forall byte l -> (i < List.length l)%nat -> number (firstn (S i) l) = number (firstn i l) * 256 + nth i l 0.
Proof. intros l i F L. rewrite (firstn_S_nth l i L), number_app. reflexivity. Qed.
Lemma pow256 : forall n, 0 <= n -> 256 ^ n = 2 ^ (8 * n).
Proof. intros n N. change 256 with (2 ^ 8). rewrite <- Z.pow_mul_r by lia. reflexivity. Qed.

(** A sample within a byte. *)
Lemma sample_small : forall l d k, Forall byte l -> In d [1; 2; 4; 8] -> 0 <= k -> d * (k + 1) <= 8 * len l ->
  number l / 2 ^ (8 * len l - d * (k + 1)) mod 2 ^ d = nth (Z.to_nat (k * d / 8)) l 0 / 2 ^ (8 - d - k * d mod 8) mod 2 ^ d.
Proof.
  intros l d k F D K L. set (i := Z.to_nat (k * d / 8)). set (m := k * d mod 8).
  assert (DP : 0 < d <= 8) by (destruct D as [<-|[<-|[<-|[<-|[]]]]]; lia).
  assert (E : k * d = 8 * (k * d / 8) + m) by (apply Z.div_mod; lia). assert (Q : 0 <= k * d / 8) by (apply Z.div_pos; lia).
  assert (M : 0 <= m /\ m + d <= 8).
  { assert (M0 := Z.mod_pos_bound (k * d) 8 ltac:(lia)). fold m in M0. split; [lia|]. destruct D as [<-|[<-|[<-|[<-|[]]]]]; lia. }
  assert (I : (i < List.length l)%nat) by (unfold i; unfold len in L; lia). assert (IZ : Z.of_nat i = k * d / 8) by (unfold i; lia).
  replace (8 * len l - d * (k + 1)) with (8 * (len l - Z.of_nat (S i)) + (8 - d - m)) by lia.
  assert (LP : 0 <= len l - Z.of_nat (S i)) by (unfold len; lia).
  rewrite Z.pow_add_r by lia. rewrite <- Z.div_div by (try apply Z.pow_nonzero; try apply Z.pow_pos_nonneg; lia). rewrite <- pow256 by lia.
  rewrite number_prefix by (try assumption; lia). rewrite number_last by assumption.
  assert (P : 256 = 2 ^ (m + d) * 2 ^ (8 - d - m)) by (rewrite <- Z.pow_add_r by lia; replace (m + d + (8 - d - m)) with 8 by lia; reflexivity).
  rewrite P, Z.mul_assoc. rewrite Z.div_add_l by (apply Z.pow_nonzero; lia). rewrite Z.pow_add_r by lia. rewrite Z.mul_assoc. rewrite Z.add_comm. rewrite Z.mod_add by (apply Z.pow_nonzero; lia). reflexivity.
Qed.
Lemma sample_large : forall l k, Forall byte l -> 0 <= k -> 16 * (k + 1) <= 8 * len l ->
  number l / 2 ^ (8 * len l - 16 * (k + 1)) mod 2 ^ 16 = nth (2 * Z.to_nat k) l 0 * 256 + nth (2 * Z.to_nat k + 1) l 0.
Proof.
  intros l k F K L. set (i := Z.to_nat k). assert (I : (S (2 * i) < List.length l)%nat) by (unfold i; unfold len in L; lia).
  replace (8 * len l - 16 * (k + 1)) with (8 * (len l - Z.of_nat (S (S (2 * i))))) by lia. rewrite <- pow256 by (unfold len; lia). rewrite number_prefix by (try assumption; lia).
  rewrite !number_last by (try assumption; lia). replace (2 * i + 1)%nat with (S (2 * i)) by lia. assert (B1 := nth_byte l (2 * i) F). assert (B2 := nth_byte l (S (2 * i)) F). unfold byte in *.
  change (2 ^ 16) with 65536. symmetry. apply Z.mod_unique with (number (firstn (2 * i) l)); lia.
Qed.
Lemma nth_map_seq : forall (f : nat -> Z) n k, (k < n)%nat -> nth k (map f (seq 0 n)) 0 = f k.
Proof. intros f n k K. rewrite (nth_indep _ 0 (f 0%nat)) by (rewrite map_length, seq_length; exact K). rewrite map_nth, seq_nth by exact K. reflexivity. Qed.
Lemma list_eq_nth : forall (l m : list Z), List.length l = List.length m -> (forall k, (k < List.length l)%nat -> nth k l 0 = nth k m 0) -> l = m.
Proof. intros l m L H. apply (nth_ext l m 0 0 L). intros n N. apply H, N. Qed.

(** The samples as the code sees them: scaled up if grey and small. *)
Definition scaled (d c v : Z) : Z := if (d <? 8) && (c =? 0) then depth_scale d * v else v.
Lemma unpack_ok : forall d c samples row, In d [1; 2; 4; 8; 16] -> packed d samples row -> Forall (fun v => 0 <= v < 2 ^ d) samples ->
  unpack d c (List.length samples) row = map (scaled d c) samples.
Proof.
  intros d c samples row D (B & L & H) R. unfold unpack.
  assert (HN : forall k, (k < List.length samples)%nat -> nth k samples 0 = number row / 2 ^ (8 * len row - d * (Z.of_nat k + 1)) mod 2 ^ d).
  { intros k K. rewrite <- (Nat2Z.id k) at 1. apply H. unfold len. lia. }
  assert (DP : 0 < d <= 16) by (destruct D as [<-|[<-|[<-|[<-|[<-|[]]]]]]; lia).
  assert (FIT : forall k, (k < List.length samples)%nat -> d * (Z.of_nat k + 1) <= 8 * len row).
  { intros k K. rewrite L. assert (X : d * (Z.of_nat k + 1) <= d * len samples) by (unfold len; apply Z.mul_le_mono_nonneg_l; lia).
    assert (Y := Z.div_mod (d * len samples + 7) 8 ltac:(lia)). assert (Z1 := Z.mod_pos_bound (d * len samples + 7) 8 ltac:(lia)). lia. }
  destruct (Z.eqb_spec d 16) as [->|N16].
  - apply list_eq_nth; [rewrite !map_length, seq_length; reflexivity|]. intros k K. rewrite map_length, seq_length in K. rewrite nth_map_seq by exact K.
    change 0 with (scaled 16 c 0) at 3. rewrite map_nth. change (scaled 16 c (nth k samples 0)) with (nth k samples 0). rewrite HN by exact K. rewrite sample_large by (try assumption; try (apply FIT, K); lia). rewrite Nat2Z.id. reflexivity.
  - destruct (Z.eqb_spec d 8) as [->|N8].
    + assert (LR : List.length row = List.length samples). { unfold len in L. replace (8 * Z.of_nat (List.length samples) + 7) with (7 + Z.of_nat (List.length samples) * 8) in L by lia. rewrite Z.div_add in L by lia. change (7 / 8) with 0 in L. lia. }
      apply list_eq_nth; [rewrite map_length; exact LR|]. intros k K. change 0 with (scaled 8 c 0) at 2. rewrite map_nth. change (scaled 8 c (nth k samples 0)) with (nth k samples 0). rewrite HN by lia.
      rewrite sample_small by (try assumption; try (cbn; tauto); try (apply FIT; lia); lia). rewrite Z.div_mul, Nat2Z.id by lia. rewrite Z.mod_mul by lia. change (2 ^ (8 - 8 - 0)) with 1. rewrite Z.div_1_r. symmetry. apply Z.mod_small. change (2 ^ 8) with 256. apply nth_byte, B.
    + apply list_eq_nth; [rewrite !map_length, seq_length; reflexivity|]. intros k K. rewrite map_length, seq_length in K. rewrite nth_map_seq by exact K. cbv zeta.
      assert (D4 : In d [1; 2; 4; 8]) by (destruct D as [<-|[<-|[<-|[<-|[<-|[]]]]]]; cbn; tauto).
      rewrite <- sample_small by (try assumption; try (apply FIT, K); lia). rewrite <- HN by exact K.
      assert (RK : 0 <= nth k samples 0 < 2 ^ d) by (apply (proj1 (Forall_forall _ _) R), nth_In, K).
      assert (E : nth k (map (scaled d c) samples) 0 = scaled d c (nth k samples 0)). { replace 0 with (scaled d c 0) at 1; [apply map_nth|]. unfold scaled. destruct (_ && _); lia. }
      rewrite E. unfold scaled. assert (D7 : (d <? 8) = true) by (apply Z.ltb_lt; destruct D4 as [<-|[<-|[<-|[<-|[]]]]]; lia). rewrite D7. cbn [andb].
      assert (SM : 0 <= depth_scale d * nth k samples 0 < 256 /\ 0 <= nth k samples 0 < 256).
      { destruct D4 as [<-|[<-|[<-|[<-|[]]]]]; [change (2 ^ 1) with 2 in RK|change (2 ^ 2) with 4 in RK|change (2 ^ 4) with 16 in RK|contradiction N8; reflexivity]; unfold depth_scale; cbn [Z.eqb Pos.eqb]; lia. }
      destruct (c =? 0); [apply Z.mod_small, SM|]. rewrite Z.mul_1_l. apply Z.mod_small, SM.
Qed.

(** * Pixels *)
Lemma skipn_more : forall (l : list Z) n m, skipn (n + m) l = skipn m (skipn n l).
Proof. induction l as [|x l IH]; intros n m; [rewrite !skipn_nil; reflexivity|]. destruct n; [reflexivity|]. cbn [Nat.add skipn]. apply IH. Qed.
Lemma pixels_concat : forall n pxs, Forall (fun px : list Z => List.length px = n) pxs -> pixels (List.length pxs) n (List.concat pxs) = pxs.
Proof.
  intros n pxs F. unfold pixels. induction F as [|px pxs L F IH]; [reflexivity|]. cbn [List.length seq map List.concat]. f_equal.
  - cbn [Nat.mul skipn]. rewrite <- L, firstn_app, firstn_all, Nat.sub_diag, app_nil_r. reflexivity.
  - rewrite <- seq_shift, map_map. rewrite <- IH at 2. apply map_ext. intros i. f_equal. cbn [Nat.mul]. rewrite skipn_more.
    replace (skipn n (px ++ List.concat pxs)) with (List.concat pxs); [reflexivity|]. rewrite <- L, skipn_app, skipn_all, Nat.sub_diag. reflexivity.
Qed.
Lemma map_concat : forall (f : Z -> Z) pxs, map f (List.concat pxs) = List.concat (map (map f) pxs).
Proof. intros f. induction pxs as [|p pxs IH]; [reflexivity|]. cbn [List.concat map]. rewrite map_app, IH. reflexivity. Qed.
