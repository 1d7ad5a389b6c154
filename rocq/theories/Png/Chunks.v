(** Chunks are read one after the other. *)
From Coq Require Import List Bool ZArith Ascii String Lia.
From Verif.Base Require Import Py.
From Verif.Png Require Import Model.
From Verif.Png Require Import Spec.
From Verif.Png Require Import Rows.
Import ListNotations.
Local Open Scope Z_scope.

Lemma four : forall (l : list Z), List.length l = 4%nat -> exists a b c d, l = [a; b; c; d].
Proof. intros [|a [|b [|c [|d [|e l]]]]] L; try discriminate L. exists a, b, c, d. reflexivity. Qed.
Lemma get32_ok : forall l r, List.length l = 4%nat -> get32be (l ++ r) = (number l, r).
Proof. intros l r L. destruct (four l L) as (a & b & c & d & ->). unfold get32be, get16be, number. cbn [app get8 fold_left]. f_equal. lia. Qed.

Section reading.
Context (inflate : bool -> list Z -> option (list Z)).
(** The loop ends like this, given enough turns. *)
Definition runs (z : png) (s : list Z) (r : res (option picture)) : Prop := forall t, (List.length s < t)%nat -> parse inflate t z s = r.

Lemma runs_chunk : forall ty data c z z' r R, chunk ty data c -> List.length ty = 4%nat -> number ty <> tag "IEND" ->
  (forall rest, read_chunk z (number ty) (len data) (data ++ rest) = Some (z', rest)) -> runs z' r R -> runs z (c ++ r) R.
Proof.
  intros ty data c z z' r R (l & crc & -> & L4 & _ & NL & C4) T4 NE RC RU t T. destruct t as [|t]; [lia|]. cbn [parse]. rewrite <- !app_assoc. rewrite (get32_ok l _ L4), (get32_ok ty _ T4).
  destruct (Z.eqb_spec (number ty) (tag "IEND")); [contradiction|]. rewrite NL, RC. rewrite (get32_ok crc r C4). apply RU. rewrite !app_length in T. lia.
Qed.
Lemma letters_number : forall t, number (letters t) = tag t.
Proof. intros t. unfold number, letters, tag. generalize 0. induction (list_ascii_of_string t) as [|c l IH]; intros n; [reflexivity|]. cbn [map fold_left]. apply IH. Qed.
Lemma runs_named : forall t data c z z' r R, chunk (letters t) data c -> String.length t = 4%nat -> tag t <> tag "IEND" ->
  (forall rest, read_chunk z (tag t) (len data) (data ++ rest) = Some (z', rest)) -> runs z' r R -> runs z (c ++ r) R.
Proof.
  intros t data c z z' r R C L N RC. apply (runs_chunk (letters t) data c z z' r R C); rewrite ?letters_number; try assumption. unfold letters. rewrite map_length. rewrite <- L. clear. induction t as [|a t IH]; [reflexivity|]. cbn [list_ascii_of_string List.length String.length]. rewrite IH. reflexivity.
Qed.
Lemma runs_end : forall c r z, chunk (letters "IEND") [] c -> runs z (c ++ r) (finish inflate z).
Proof.
  intros c r z (l & crc & -> & L4 & _ & _ & C4) t T. destruct t as [|t]; [lia|]. cbn [parse]. rewrite <- !app_assoc. rewrite (get32_ok l _ L4), (get32_ok (letters "IEND") _ eq_refl). rewrite letters_number, Z.eqb_refl. reflexivity.
Qed.

(** * Chunks that are skipped *)
Lemma four_number : forall a b c d, Forall byte [a; b; c; d] -> number [a; b; c; d] = a * 2 ^ 24 + b * 2 ^ 16 + c * 2 ^ 8 + d.
Proof. intros. unfold number. cbn [fold_left]. lia. Qed.
Lemma four_eq : forall l m, List.length l = 4%nat -> List.length m = 4%nat -> Forall byte l -> Forall byte m -> number l = number m -> l = m.
Proof.
  intros l m L M FL FM E. destruct (four l L) as (a & b & c & d & ->). destruct (four m M) as (a' & b' & c' & d' & ->). rewrite !four_number in E by assumption.
  repeat match goal with H : Forall _ (_ :: _) |- _ => apply Forall_cons_iff in H; destruct H end. unfold byte in *. assert (a = a') by lia. subst a'. assert (b = b') by lia. subst b'. assert (c = c') by lia. subst c'. assert (d = d') by lia. subst d'. reflexivity.
Qed.
Lemma ancillary_bit : forall ty, List.length ty = 4%nat -> Forall byte ty -> Z.testbit (number ty) 29 = Z.odd (hd 0 ty / 32).
Proof.
  intros ty L F. destruct (four ty L) as (a & b & c & d & ->). rewrite four_number by exact F. cbn [hd]. rewrite Z.testbit_odd, Z.shiftr_div_pow2 by lia. f_equal.
  repeat match goal with H : Forall _ (_ :: _) |- _ => apply Forall_cons_iff in H; destruct H end. unfold byte in *. change (2 ^ 29) with (2 ^ 24 * 32). rewrite <- Z.div_div by lia. f_equal.
  symmetry. apply Z.div_unique with (b * 2 ^ 16 + c * 2 ^ 8 + d); lia.
Qed.
Lemma skip_ok : forall (l r : list Z), len l < 2 ^ 31 -> skip (l ++ r) (len l) = r.
Proof. intros l r L. unfold skip. destruct (Z.leb_spec 2147483648 (len l)); [lia|]. apply drop_app. unfold len. lia. Qed.
Lemma runs_other : forall c z r R, ancillary c -> first z = false -> runs z r R -> runs z (c ++ r) R.
Proof.
  intros c z r R (ty & data & C & L & F & O & N & D) FZ. assert (B := ancillary_bit ty L F). rewrite O in B.
  assert (NT : forall t, Z.testbit (tag t) 29 = false -> (number ty =? tag t) = false). { intros t T. apply Z.eqb_neq. intros E. rewrite E in B. congruence. }
  assert (NR : (number ty =? tag "tRNS") = false). { apply Z.eqb_neq. intros E. apply N. apply four_eq; [exact L|reflexivity|exact F| |rewrite letters_number; exact E]. repeat (apply Forall_cons; [unfold byte; cbn; lia|]). constructor. }
  apply (runs_chunk ty data c); [exact C|exact L|apply Z.eqb_neq, NT; reflexivity|]. intros rest. unfold read_chunk. rewrite (NT "CgBI"%string eq_refl), (NT "IHDR"%string eq_refl), (NT "PLTE"%string eq_refl), (NT "IDAT"%string eq_refl). rewrite NR, FZ, B. cbn [negb]. rewrite skip_ok by exact D. reflexivity.
Qed.
Lemma runs_several : forall a z r R, several ancillary a -> first z = false -> runs z r R -> runs z (a ++ r) R.
Proof. intros a z r R S F RU. induction S as [|c a C S IH]; [exact RU|]. rewrite <- app_assoc. apply runs_other; assumption. Qed.

(** * The chunks that are read *)
Definition more_data (z : png) (l : list Z) : png :=
  Png (first z) (iphone z) (img_x z) (img_y z) (depth z) (color z) (interlace z) (img_n z) (pal_img_n z) (trans z) (palette z) (pal_len z) (idata z ++ l).
Lemma more_more : forall z l m, more_data (more_data z l) m = more_data z (l ++ m).
Proof. intros z l m. unfold more_data. cbn. rewrite app_assoc. reflexivity. Qed.
Lemma getn_ok : forall l r, getn (l ++ r) (len l) = Some (l, r).
Proof. intros l r. unfold getn. destruct (Z.leb_spec (len l) (Z.of_nat (List.length (l ++ r)))) as [_|H]; [|unfold len in H; rewrite app_length in H; lia]. unfold len. rewrite Nat2Z.id. rewrite take_app, drop_app by reflexivity. reflexivity. Qed.
Lemma runs_data : forall d c r R, data_chunks d c -> forall z, first z = false -> (pal_img_n z = 0 \/ pal_len z <> 0) -> len (idata z) + len d < 2 ^ 31 -> runs (more_data z d) r R -> runs z (c ++ r) R.
Proof.
  intros d c r R D. induction D as [|c d a C D IH|c d d' a C D IH]; intros z F P L RU.
  - replace (more_data z []) with z in RU; [exact RU|]. destruct z. unfold more_data. cbn. rewrite app_nil_r. reflexivity.
  - rewrite <- app_assoc. apply runs_other; [exact C|exact F|]. apply IH; assumption.
  - rewrite <- app_assoc. unfold len in L. rewrite app_length in L. eapply (runs_named "IDAT"); [exact C|reflexivity|discriminate| |apply (IH (more_data z d))].
    + intros rest. unfold read_chunk. change (tag "IDAT" =? tag "CgBI") with false. change (tag "IDAT" =? tag "IHDR") with false. change (tag "IDAT" =? tag "PLTE") with false. change (tag "IDAT" =? tag "tRNS") with false. change (tag "IDAT" =? tag "IDAT") with true. cbv iota.
      unfold read_idat. rewrite F. destruct (negb (pal_img_n z =? 0) && (pal_len z =? 0)) eqn:E.
      { apply andb_true_iff in E. destruct E as [E1 E2]. apply Z.eqb_eq in E2. apply negb_true_iff, Z.eqb_neq in E1. destruct P; contradiction. }
      destruct (Z.leb_spec 2147483648 (Z.of_nat (List.length (idata z)) + len d)); [unfold len in *; lia|]. rewrite getn_ok. unfold more_data. rewrite F. reflexivity.
    + exact F.
    + exact P.
    + unfold more_data, len. cbn [idata]. rewrite app_length. lia.
    + rewrite more_more. exact RU.
Qed.

(** IHDR *)
Definition weaving (p : photo) : Z := if interlaced p then 1 else 0.
Definition after_ihdr (p : photo) : png :=
  Png false false (width p) (height p) (bits p) (color_type (shade p)) (weaving p) (channels (shade p)) (match shade p with Indexed => 3 | _ => 0 end) None [] 0 [].
Lemma runs_ihdr : forall p h c r R, photo_ok p -> header p h -> chunk (letters "IHDR") h c -> runs (after_ihdr p) r R -> runs start (c ++ r) R.
Proof.
  intros p h c r R OK (w & y & W4 & _ & WN & Y4 & _ & YN & ->) C. apply (runs_named "IHDR" _ _ _ _ _ _ C); [reflexivity|discriminate|]. intros rest. unfold read_chunk.
  change (tag "IHDR" =? tag "CgBI") with false. change (tag "IHDR" =? tag "IHDR") with true. cbv iota. unfold read_ihdr. cbn [first start negb].
  replace (len (w ++ y ++ [bits p; color_type (shade p); 0; 0; if interlaced p then 1 else 0])) with 13 by (unfold len; rewrite !app_length, W4, Y4; reflexivity). change (13 =? 13) with true. cbn [negb].
  rewrite <- !app_assoc. rewrite (get32_ok w _ W4), WN. destruct OK as [OB [W1 W2] [H1 H2] _ _ _ [L1 _] _ _]. change (2 ^ 24) with 16777216 in *.
  destruct (Z.ltb_spec 16777216 (width p)); [lia|]. rewrite (get32_ok y _ Y4), YN. destruct (Z.ltb_spec 16777216 (height p)); [lia|]. cbn [app get8].
  assert (BD : (bits p =? 1) || (bits p =? 2) || (bits p =? 4) || (bits p =? 8) || (bits p =? 16) = true).
  { unfold allowed in OB. destruct (shade p); cbn [In] in OB; repeat match goal with H : _ \/ _ |- _ => destruct H end; try contradiction; match goal with H : _ = bits p |- _ => rewrite <- H end; reflexivity. }
  rewrite BD. cbn [negb]. fold (weaving p). assert (WV : (1 <? weaving p) = false) by (unfold weaving; destruct (interlaced p); reflexivity).
  assert (ZW : (width p =? 0) = false) by (apply Z.eqb_neq; lia). assert (ZH : (height p =? 0) = false) by (apply Z.eqb_neq; lia).
  assert (DIV : forall n, 0 < n -> width p * height p * n <= 2 ^ 30 -> (1073741824 / width p / n <? height p) = false).
  { intros n N LE. apply Z.ltb_ge. rewrite Z.div_div by lia. apply Z.div_le_lower_bound; [lia|]. change (2 ^ 30) with 1073741824 in LE. lia. }
  unfold after_ihdr. destruct (shade p) eqn:SH; cbn [color_type channels] in *; cbn [Z.ltb Z.compare Z.eqb Pos.eqb Z.odd andb negb orb Z.testbit Pos.compare Pos.compare_cont Pos.testbit iphone trans palette pal_len pal_img_n idata start Z.add Pos.add Pos.of_succ_nat]; rewrite ?WV, ?ZW, ?ZH; cbn [orb];
  try (match goal with |- context [1073741824 / width p / ?n <? height p] => let v := eval vm_compute in n in change n with v end; rewrite DIV by lia; reflexivity).
  assert (B16 : (bits p =? 16) = false). { unfold allowed in OB. cbn [In] in OB. repeat match goal with H : _ \/ _ |- _ => destruct H end; try contradiction; match goal with H : _ = bits p |- _ => rewrite <- H end; reflexivity. }
  rewrite B16. rewrite DIV by lia. reflexivity.
Qed.

(** PLTE *)
Definition opaque (c : list Z) : list Z := c ++ [255].
Definition after_plte (p : photo) : png :=
  match shade p with
  | Indexed => Png false false (width p) (height p) (bits p) (color_type (shade p)) (weaving p) (channels (shade p)) 3 None (map opaque (colors p)) (len (colors p)) []
  | _ => after_ihdr p
  end.
Lemma repeat_color : forall cs rest, Forall (fun c : list Z => List.length c = 3%nat) cs -> repeatedly read_color (List.length cs) (List.concat cs ++ rest) = (map opaque cs, rest).
Proof.
  intros cs rest F. induction F as [|c cs L F IH]; [reflexivity|]. destruct c as [|c0 [|c1 [|c2 [|]]]]; try discriminate L. cbn [List.length List.concat app map repeatedly].
  change (read_color (c0 :: c1 :: c2 :: List.concat cs ++ rest)) with (opaque [c0; c1; c2], List.concat cs ++ rest). cbv iota beta. rewrite IH. reflexivity.
Qed.
Lemma concat_len : forall n (cs : list (list Z)), Forall (fun c => List.length c = n) cs -> List.length (List.concat cs) = (n * List.length cs)%nat.
Proof. intros n cs F. induction F as [|c cs L F IH]; [cbn; lia|]. cbn [List.concat List.length]. rewrite app_length, IH, L. lia. Qed.
Lemma runs_plte : forall p c r R, photo_ok p -> palette_chunk p c -> runs (after_plte p) r R -> runs (after_ihdr p) (c ++ r) R.
Proof.
  intros p c r R OK C. destruct OK as [_ _ _ _ _ _ _ OP _]. unfold palette_chunk, after_plte, after_ihdr in *. destruct (shade p) eqn:SH; try (subst c; intros RU; exact RU). destruct OP as ([L1 L2] & F & _).
  assert (F3 : Forall (fun c : list Z => List.length c = 3%nat) (colors p)) by (eapply Forall_impl; [|exact F]; intros a [A _]; unfold len in A; lia).
  assert (CL : len (List.concat (colors p)) = 3 * len (colors p)) by (unfold len; rewrite (concat_len 3) by exact F3; lia).
  apply (runs_named "PLTE" _ _ _ _ _ _ C); [reflexivity|discriminate|]. intros rest. unfold read_chunk. change (tag "PLTE" =? tag "CgBI") with false. change (tag "PLTE" =? tag "IHDR") with false. change (tag "PLTE" =? tag "PLTE") with true. cbv iota.
  unfold read_plte. cbn [first]. rewrite CL. destruct (Z.ltb_spec 768 (3 * len (colors p))); [lia|]. replace (3 * len (colors p) / 3) with (len (colors p)) by (rewrite Z.mul_comm, Z.div_mul by lia; reflexivity).
  rewrite Z.mul_comm, Z.eqb_refl. cbn [negb]. unfold len at 1. rewrite Nat2Z.id. rewrite repeat_color by exact F3. cbn [palette]. rewrite skipn_nil, app_nil_r. reflexivity.
Qed.

(** tRNS *)
Definition key_color (p : photo) (c : list Z) : list Z := map (scaled (bits p) (color_type (shade p))) c.
Definition after_trns (p : photo) : png :=
  match shade p with
  | Indexed => match alphas p with
               | Some l => Png false false (width p) (height p) (bits p) (color_type (shade p)) (weaving p) (channels (shade p)) 4 None (set_alphas (map opaque (colors p)) l) (len (colors p)) []
               | None => after_plte p
               end
  | _ => match transparent p with
         | Some c => Png false false (width p) (height p) (bits p) (color_type (shade p)) (weaving p) (channels (shade p)) 0 (Some (key_color p c)) [] 0 []
         | None => after_plte p
         end
  end.
Lemma repeat_bytes : forall l rest, repeatedly get8 (List.length l) (l ++ rest) = (l, rest).
Proof. induction l as [|b l IH]; intros rest; [reflexivity|]. cbn [List.length app repeatedly get8]. rewrite IH. reflexivity. Qed.
Lemma repeat_pairs : forall k ls rest, Forall2 two_bytes k ls -> repeatedly get16be (List.length k) (List.concat ls ++ rest) = (k, rest).
Proof.
  intros k ls rest F. induction F as [|v l k ls (a & b & _ & _ & -> & ->) F IH]; [reflexivity|]. cbn [List.length List.concat app repeatedly]. unfold get16be at 1. cbn [get8]. rewrite IH. reflexivity.
Qed.
Lemma pairs_len : forall k ls, Forall2 two_bytes k ls -> List.length (List.concat ls) = (2 * List.length k)%nat.
Proof. intros k ls F. induction F as [|v l k ls (a & b & _ & _ & -> & ->) F IH]; [reflexivity|]. cbn [List.concat app List.length]. rewrite IH. lia. Qed.
Lemma key_scaled : forall p v, allowed (shade p) (bits p) -> (shade p = Grey \/ shade p = Rgb) -> bits p <> 16 -> sample p v -> (v mod 256 * depth_scale (bits p)) mod 256 = scaled (bits p) (color_type (shade p)) v.
Proof.
  intros p v A S N V. unfold sample in V. assert (C : (shade p = Grey /\ In (bits p) [1; 2; 4]) \/ bits p = 8).
  { unfold allowed in A. destruct S as [S|S]; rewrite S in A |- *; cbn [In] in A |- *; intuition congruence. }
  destruct C as [[S1 B]|B].
  - rewrite S1. unfold scaled. cbn [color_type]. change (0 =? 0) with true. rewrite andb_true_r. destruct B as [B|[B|[B|[]]]]; rewrite <- B in V |- *; [change (2 ^ 1) with 2 in V|change (2 ^ 2) with 4 in V|change (2 ^ 4) with 16 in V];
    rewrite (Z.mod_small v) by lia; unfold depth_scale; cbn [Z.eqb Pos.eqb Z.ltb Z.compare Pos.compare Pos.compare_cont]; rewrite Z.mod_small by lia; lia.
  - rewrite B in V |- *. change (2 ^ 8) with 256 in V. rewrite (Z.mod_small v) by lia. change (depth_scale 8) with 1. rewrite Z.mul_1_r, Z.mod_small by lia. reflexivity.
Qed.
Lemma runs_trns : forall p c r R, photo_ok p -> transparency_chunk p c -> runs (after_trns p) r R -> runs (after_plte p) (c ++ r) R.
Proof.
  intros p c r R OK C. destruct OK as [OB _ _ _ _ _ _ OP OT]. unfold transparency_chunk, after_trns in *.
  assert (G : shade p <> Indexed -> match transparent p with Some k => exists ls, Forall2 two_bytes k ls /\ chunk (letters "tRNS") (List.concat ls) c | None => c = [] end ->
    runs match transparent p with Some k => Png false false (width p) (height p) (bits p) (color_type (shade p)) (weaving p) (channels (shade p)) 0 (Some (key_color p k)) [] 0 [] | None => after_plte p end r R -> runs (after_plte p) (c ++ r) R).
  { intros NI C0. destruct (transparent p) as [k|]; [|subst c; intros RU; exact RU]. destruct C0 as (ls & F2 & C0). destruct OT as (K & KL & KS).
    apply (runs_named "tRNS" _ _ _ _ _ _ C0); [reflexivity|discriminate|]. intros rest. unfold read_chunk.
    change (tag "tRNS" =? tag "CgBI") with false. change (tag "tRNS" =? tag "IHDR") with false. change (tag "tRNS" =? tag "PLTE") with false. change (tag "tRNS" =? tag "tRNS") with true. cbv iota.
    assert (Z2 : after_plte p = Png false false (width p) (height p) (bits p) (color_type (shade p)) (weaving p) (channels (shade p)) 0 None [] 0 []) by (unfold after_plte, after_ihdr; destruct K as [-> | ->]; reflexivity).
    rewrite Z2. unfold read_trns. cbn [first idata pal_img_n img_n iphone img_x img_y depth color interlace trans palette pal_len]. change (0 =? 0) with true. cbn [negb].
    assert (OD : Z.odd (channels (shade p)) = true) by (destruct K as [-> | ->]; reflexivity). rewrite OD. cbn [negb].
    assert (LL : len (List.concat ls) = channels (shade p) * 2) by (unfold len in *; rewrite (pairs_len k ls F2); lia). rewrite LL, Z.eqb_refl. cbn [negb].
    replace (Z.to_nat (channels (shade p))) with (List.length k) by (unfold len in KL; lia). rewrite (repeat_pairs k ls rest F2). do 4 f_equal.
    unfold key_color. destruct (Z.eqb_spec (bits p) 16) as [E|E].
    - rewrite E. rewrite <- (map_id k) at 1. apply map_ext. intros v. reflexivity.
    - apply map_ext_in. intros v I. apply key_scaled; try assumption. apply (proj1 (Forall_forall _ _) KS), I. }
  destruct (shade p) eqn:SH; try (apply G; [discriminate|exact C]). destruct (alphas p) as [l|]; [|subst c; intros RU; exact RU]. destruct OP as ([L1 L2] & _ & [AL AB] & _).
  apply (runs_named "tRNS" _ _ _ _ _ _ C); [reflexivity|discriminate|]. intros rest. unfold read_chunk.
  change (tag "tRNS" =? tag "CgBI") with false. change (tag "tRNS" =? tag "IHDR") with false. change (tag "tRNS" =? tag "PLTE") with false. change (tag "tRNS" =? tag "tRNS") with true. cbv iota.
  unfold after_plte. rewrite SH. unfold read_trns. cbn [first idata pal_img_n img_n iphone img_x img_y depth color interlace trans palette pal_len]. change (3 =? 0) with false. cbn [negb].
  destruct (Z.eqb_spec (len (colors p)) 0); [lia|]. destruct (Z.ltb_spec (len (colors p)) (len l)); [lia|]. unfold len at 1. rewrite Nat2Z.id, repeat_bytes. reflexivity.
Qed.
End reading.
