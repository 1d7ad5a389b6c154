(** What comes out of any file. *)
From Coq Require Import List Bool ZArith Ascii String Lia.
From Verif.Base Require Import Py.
From Verif.Png Require Import Model.
From Verif.Png Require Import Spec.
From Verif.Png Require Import Rows Chunks Passes.
Import ListNotations.
Local Open Scope Z_scope.

(** * What is left of the file *)
Definition rest_of (s r : list Z) : Prop := exists a, s = a ++ r.
Lemma rest_refl : forall s, rest_of s s. Proof. intros s. exists []. reflexivity. Qed.
Lemma rest_trans : forall s r t, rest_of s r -> rest_of r t -> rest_of s t.
Proof. intros s r t [a ->] [b ->]. exists (a ++ b). rewrite app_assoc. reflexivity. Qed.
Lemma rest_bytes : forall s r, rest_of s r -> Forall byte s -> Forall byte r.
Proof. intros s r [a ->] F. apply Forall_app in F. apply F. Qed.
Lemma rest_skipn : forall n s, rest_of s (skipn n s).
Proof. intros n s. exists (firstn n s). symmetry. apply firstn_skipn. Qed.
Lemma get8_rest : forall s b r, get8 s = (b, r) -> rest_of s r.
Proof. intros [|c s] b r E; injection E as <- <-; [apply rest_refl|exists [c]; reflexivity]. Qed.
Lemma get8_byte : forall s b r, Forall byte s -> get8 s = (b, r) -> byte b.
Proof. intros [|c s] b r F E; injection E as <- <-; [unfold byte; lia|inversion F; assumption]. Qed.
Lemma get16_rest : forall s b r, get16be s = (b, r) -> rest_of s r.
Proof. intros s b r E. unfold get16be in E. destruct (get8 s) as [x s1] eqn:E1. destruct (get8 s1) as [y s2] eqn:E2. injection E as <- <-. eapply rest_trans; eapply get8_rest; eassumption. Qed.
Lemma get32_rest : forall s b r, get32be s = (b, r) -> rest_of s r.
Proof. intros s b r E. unfold get32be in E. destruct (get16be s) as [x s1] eqn:E1. destruct (get16be s1) as [y s2] eqn:E2. injection E as <- <-. eapply rest_trans; eapply get16_rest; eassumption. Qed.
Lemma repeat_rest : forall A (g : list Z -> A * list Z), (forall s b r, g s = (b, r) -> rest_of s r) -> forall n s l r, repeatedly g n s = (l, r) -> rest_of s r.
Proof.
  intros A g G. induction n as [|n IH]; intros s l r E; cbn [repeatedly] in E; [injection E as <- <-; apply rest_refl|]. destruct (g s) as [a s1] eqn:E1. destruct (repeatedly g n s1) as [l1 s2] eqn:E2. injection E as <- <-. eapply rest_trans; [eapply G, E1|eapply IH, E2].
Qed.
Lemma skip_rest : forall s n, rest_of s (skip s n).
Proof. intros s n. unfold skip. destruct (_ <=? _); [exists s; rewrite app_nil_r; reflexivity|apply rest_skipn]. Qed.
Lemma color_rest : forall s b r, read_color s = (b, r) -> rest_of s r.
Proof. intros s b r E. unfold read_color in E. destruct (repeatedly get8 3 s) as [l s1] eqn:E1. injection E as <- <-. eapply repeat_rest; [exact get8_rest|exact E1]. Qed.

(** * The picture so far *)
Definition entry (e : list Z) : Prop := List.length e = 4%nat /\ Forall byte e.
Record fine (z : png) : Prop := {
  f_palette : Forall entry (palette z);
  f_data : Forall byte (idata z);
  f_start : first z = true -> pal_img_n z = 0 /\ trans z = None;
  f_header : first z = false -> 1 <= img_x z <= 2 ^ 24 /\ 1 <= img_y z <= 2 ^ 24 /\ In (depth z) [1; 2; 4; 8; 16] /\ 1 <= img_n z <= 4 /\
    (trans z <> None -> img_n z <= 3) /\ (pal_img_n z = 0 \/ (In (pal_img_n z) [3; 4] /\ trans z = None /\ img_n z = 1 /\ depth z <> 16)) }.
Lemma start_fine : fine start.
Proof. constructor; [constructor|constructor|intros _; split; reflexivity|discriminate]. Qed.

Ltac readone E := match type of E with context [let (_, _) := ?g in _] => let b := fresh "b" in let s := fresh "s" in let R := fresh "R" in destruct g as [b s] eqn:R end.
Ltac test E := match type of E with (if ?b then _ else _) = _ => let T := fresh "T" in destruct b eqn:T; [discriminate E|] end.
Lemma get16_range : forall s b r, Forall byte s -> get16be s = (b, r) -> 0 <= b < 65536.
Proof.
  intros s b r F E. unfold get16be in E. destruct (get8 s) as [x s1] eqn:E1. destruct (get8 s1) as [y s2] eqn:E2. injection E as <- <-. assert (B1 := get8_byte _ _ _ F E1). assert (B2 := get8_byte _ _ _ (rest_bytes _ _ (get8_rest _ _ _ E1) F) E2). unfold byte in *. lia.
Qed.
Lemma get32_range : forall s b r, Forall byte s -> get32be s = (b, r) -> 0 <= b.
Proof.
  intros s b r F E. unfold get32be in E. destruct (get16be s) as [x s1] eqn:E1. destruct (get16be s1) as [y s2] eqn:E2. injection E as <- <-. assert (B1 := get16_range _ _ _ F E1). assert (B2 := get16_range _ _ _ (rest_bytes _ _ (get16_rest _ _ _ E1) F) E2). lia.
Qed.
Lemma ihdr_fine : forall z len s z' r, fine z -> Forall byte s -> read_ihdr z len s = Some (z', r) -> fine z' /\ rest_of s r.
Proof.
  intros z len s z' r F B E. unfold read_ihdr in E. test E. apply negb_false_iff in T. test E. readone E. test E. readone E. test E. readone E. test E. readone E. test E. test E. test E. readone E. test E. readone E. test E. readone E. test E. test E.
  assert (XP := get32_range _ _ _ B R). assert (YP := get32_range _ _ _ (rest_bytes _ _ (get32_rest _ _ _ R) B) R0).
  assert (RS : rest_of s s6).
  { repeat match goal with H : get32be _ = _ |- _ => apply get32_rest in H | H : get8 _ = _ |- _ => apply get8_rest in H end. eapply rest_trans; [|eassumption]. eapply rest_trans; [|eassumption]. eapply rest_trans; [|eassumption]. eapply rest_trans; [|eassumption]. eapply rest_trans; [|eassumption]. eapply rest_trans; eassumption. }
  assert (D : In b1 [1; 2; 4; 8; 16]). { apply negb_false_iff in T3. repeat (apply orb_true_iff in T3; destruct T3 as [T3|T3]); apply Z.eqb_eq in T3; rewrite T3; cbn; tauto. }
  apply orb_false_iff in T10. destruct T10 as [X0 Y0]. apply Z.eqb_neq in X0, Y0. apply Z.ltb_ge in T1, T2. destruct (f_start z F T) as [P0 N0].
  destruct (b2 =? 3) eqn:C3.
  - test E. injection E as <- <-. split; [|exact RS]. constructor; cbn; [apply F|apply F|discriminate|intros _]. rewrite N0. repeat split; try lia; try exact D; try congruence. all: right; split; [left; reflexivity|]; split; [reflexivity|]; split; [reflexivity|]; cbn [andb] in T5; apply Z.eqb_neq in T5; exact T5.
  - destruct (Z.testbit b2 1), (Z.testbit b2 2); (test E; injection E as <- <-; split; [|exact RS]; constructor; cbn [palette first trans pal_img_n img_x img_y depth img_n idata]; [apply F|apply F|discriminate|intros _]; rewrite N0; repeat split; try lia; try exact D; try congruence; left; exact P0).
Qed.
Lemma repeat_bytes : forall n s l r, Forall byte s -> repeatedly get8 n s = (l, r) -> Forall byte l /\ List.length l = n.
Proof.
  induction n as [|n IH]; intros s l r B E; cbn [repeatedly] in E; [injection E as <- <-; split; [constructor|reflexivity]|]. destruct (get8 s) as [a s1] eqn:E1. destruct (repeatedly get8 n s1) as [l1 s2] eqn:E2. injection E as <- <-.
  destruct (IH _ _ _ (rest_bytes _ _ (get8_rest _ _ _ E1) B) E2) as [F L]. split; [constructor; [exact (get8_byte _ _ _ B E1)|exact F]|cbn; rewrite L; reflexivity].
Qed.
Lemma repeat_colors : forall n s l r, Forall byte s -> repeatedly read_color n s = (l, r) -> Forall entry l.
Proof.
  induction n as [|n IH]; intros s l r B E; cbn [repeatedly] in E; [injection E as <- <-; constructor|]. destruct (read_color s) as [a s1] eqn:E1. destruct (repeatedly read_color n s1) as [l1 s2] eqn:E2. injection E as <- <-.
  constructor; [|exact (IH _ _ _ (rest_bytes _ _ (color_rest _ _ _ E1) B) E2)]. unfold read_color in E1. destruct (repeatedly get8 3 s) as [c s3] eqn:E3. injection E1 as <- <-. destruct (repeat_bytes _ _ _ _ B E3) as [F L]. split; [rewrite app_length, L; reflexivity|]. apply Forall_app. split; [exact F|]. constructor; [unfold byte; lia|constructor].
Qed.
Lemma part_forall : forall A (P : A -> Prop) n l, Forall P l -> Forall P (firstn n l) /\ Forall P (skipn n l).
Proof. intros A P n l F. rewrite <- (firstn_skipn n l) in F. apply Forall_app in F. exact F. Qed.
Lemma plte_fine : forall z len s z' r, fine z -> Forall byte s -> read_plte z len s = Some (z', r) -> fine z' /\ rest_of s r.
Proof.
  intros z len s z' r F B E. unfold read_plte in E. test E. test E. test E. readone E. injection E as <- <-. split; [|eapply repeat_rest; [exact color_rest|eassumption]].
  constructor; cbn; [|apply F|congruence|intros _; apply (f_header z F T)]. apply Forall_app. split; [eapply repeat_colors; eassumption|]. apply part_forall, F.
Qed.
Lemma set_alphas_fine : forall l al, Forall entry l -> Forall byte al -> Forall entry (set_alphas l al).
Proof.
  induction l as [|e l IH]; intros al F B; [destruct al; constructor|]. destruct al as [|a al]; [exact F|]. inversion F as [|? ? [L1 F1] F2]; subst. inversion B; subst. cbn [set_alphas]. constructor; [|apply IH; assumption].
  split; [rewrite app_length, firstn_length, L1; reflexivity|]. apply Forall_app. split; [apply part_forall, F1|constructor; [assumption|constructor]].
Qed.
Lemma trns_fine : forall z len s z' r, fine z -> Forall byte s -> read_trns z len s = Some (z', r) -> fine z' /\ rest_of s r.
Proof.
  intros z len s z' r F B E. unfold read_trns in E. test E. destruct (idata z) eqn:ID; [|discriminate E]. assert (H := f_header z F T). destruct (negb (pal_img_n z =? 0)) eqn:P0.
  - test E. test E. readone E. injection E as <- <-. split; [|eapply repeat_rest; [exact get8_rest|eassumption]].
    apply negb_true_iff, Z.eqb_neq in P0. destruct H as (H1 & H2 & H3 & H4 & H5 & H6). constructor; cbn; [|constructor|congruence|intros _].
    + apply set_alphas_fine; [apply F|]. eapply repeat_bytes; eassumption.
    + repeat split; try tauto; try lia. all: right; destruct H6 as [H6|H6]; [contradiction|]; tauto.
  - test E. test E. readone E. injection E as <- <-. split; [|eapply repeat_rest; [exact get16_rest|eassumption]].
    apply negb_false_iff, Z.eqb_eq in P0. destruct H as (H1 & H2 & H3 & H4 & H5 & H6). constructor; cbn; [apply F|constructor|congruence|intros _].
    split; [exact H1|]. split; [exact H2|]. split; [exact H3|]. split; [exact H4|]. split; [|left; exact P0]. intros _. apply negb_false_iff in T0. assert (C : img_n z = 1 \/ img_n z = 2 \/ img_n z = 3 \/ img_n z = 4) by lia. destruct C as [C|[C|[C|C]]]; rewrite C in *; try discriminate T0; lia.
Qed.
Lemma idat_fine : forall z len s z' r, fine z -> Forall byte s -> read_idat z len s = Some (z', r) -> fine z' /\ rest_of s r.
Proof.
  intros z len s z' r F B E. unfold read_idat in E. test E. test E. test E. destruct (getn s len) as [[l s1]|] eqn:G; [|discriminate E]. injection E as <- <-. split.
  - constructor; cbn; [apply F| |congruence|intros _; apply (f_header z F T)]. unfold getn in G. destruct (len <=? Z.of_nat (List.length s)); [|discriminate G]. injection G as <- _. apply Forall_app. split; [apply F|apply part_forall, B].
  - unfold getn in G. destruct (len <=? Z.of_nat (List.length s)); [|discriminate G]. injection G as G1 G2. subst s1. apply rest_skipn.
Qed.
Lemma chunk_fine : forall z ty len s z' r, fine z -> Forall byte s -> read_chunk z ty len s = Some (z', r) -> fine z' /\ rest_of s r.
Proof.
  intros z ty len s z' r F B E. unfold read_chunk in E.
  destruct (ty =? tag "CgBI"); [injection E as <- <-; split; [|apply skip_rest]; constructor; cbn; apply F|].
  destruct (ty =? tag "IHDR"); [eapply ihdr_fine; eassumption|]. destruct (ty =? tag "PLTE"); [eapply plte_fine; eassumption|].
  destruct (ty =? tag "tRNS"); [eapply trns_fine; eassumption|]. destruct (ty =? tag "IDAT"); [eapply idat_fine; eassumption|].
  test E. test E. injection E as <- <-. split; [exact F|apply skip_rest].
Qed.

(** * The picture *)
Lemma row_length_from : forall (step : list Z -> Z -> Z) raw cur, List.length (fold_left (fun cur r => cur ++ [step cur r]) raw cur) = (List.length cur + List.length raw)%nat.
Proof. intros step. induction raw as [|r raw IH]; intros cur; cbn [fold_left List.length]; [lia|]. rewrite IH, app_length. cbn. lia. Qed.
Lemma row_length : forall f fb prior raw, List.length (unfilter_row f fb prior raw) = List.length raw.
Proof. intros f fb prior raw. apply (row_length_from (unfilter_byte f fb prior)). Qed.
Lemma byte_mod : forall x, byte (x mod 256). Proof. intros x. apply Z.mod_pos_bound. lia. Qed.
Lemma row_all_from : forall (step : list Z -> Z -> Z) raw cur, (forall c r, byte r -> byte (step c r)) -> Forall byte raw -> Forall byte cur -> Forall byte (fold_left (fun cur r => cur ++ [step cur r]) raw cur).
Proof.
  intros step raw cur S F. revert cur. induction F as [|r raw B F IH]; intros cur N; cbn [fold_left]; [exact N|]. apply IH, Forall_app. split; [exact N|]. constructor; [apply S, B|constructor].
Qed.
Lemma row_all : forall f fb prior raw, Forall byte raw -> Forall byte (unfilter_row f fb prior raw).
Proof.
  intros f fb prior raw F. apply (row_all_from (unfilter_byte f fb prior)); [|exact F|constructor]. intros c r B. unfold unfilter_byte. cbv zeta. destruct (_ <? _)%nat, f; try exact B; apply byte_mod.
Qed.
Lemma get8_length : forall s b r n, (List.length s >= S n)%nat -> get8 s = (b, r) -> (List.length r >= n)%nat.
Proof. intros [|c s] b r n L E; [cbn in L; lia|]. injection E as <- <-. cbn in L. lia. Qed.
Lemma rows_fine : forall y w fb prior raw rows, Forall byte raw -> (List.length raw >= (w + 1) * y)%nat -> unfilter y w fb prior raw = Some rows ->
  List.length rows = y /\ Forall (fun r => List.length r = w /\ Forall byte r) rows.
Proof.
  induction y as [|y IH]; intros w fb prior raw rows B L E; cbn [unfilter] in E; [injection E as <-; split; [reflexivity|constructor]|].
  destruct (get8 raw) as [b raw1] eqn:G. destruct (filter_of b) as [f|]; [|discriminate E]. cbv zeta in E.
  assert (B1 := rest_bytes _ _ (get8_rest _ _ _ G) B). assert (L1 := get8_length raw b raw1 (w + (w + 1) * y)%nat ltac:(nia) G).
  match type of E with match unfilter _ _ _ (Some ?c) _ with _ => _ end = _ => set (cur := c) in E; assert (CU : List.length cur = w /\ Forall byte cur) end.
  { unfold cur. destruct prior; (split; [rewrite row_length, firstn_length; lia|apply row_all, part_forall, B1]). }
  destruct (unfilter y w fb (Some cur) (skipn w raw1)) as [l|] eqn:U; [|discriminate E]. injection E as <-. assert (LS : (List.length (skipn w raw1) >= (w + 1) * y)%nat) by (rewrite skipn_length; lia). destruct (IH _ _ _ _ _ (proj2 (part_forall _ _ w _ B1)) LS U) as [LR FR]. split; [cbn; rewrite LR; reflexivity|]. constructor; assumption.
Qed.
(** A sample of a row. *)
Definition level (d v : Z) : Prop := if d =? 16 then 0 <= v < 65536 else byte v.
Lemma unpack_fine : forall d c count row, Forall byte row -> (d = 8 -> List.length row = count) -> List.length (unpack d c count row) = count /\ Forall (level d) (unpack d c count row).
Proof.
  intros d c count row B L. unfold unpack, level. destruct (d =? 16).
  - rewrite map_length, seq_length. split; [reflexivity|]. apply Forall_map, Forall_forall. intros k _. assert (B1 := nth_byte row (2 * k) B). assert (B2 := nth_byte row (2 * k + 1) B). unfold byte in *. lia.
  - destruct (Z.eqb_spec d 8) as [D|_]; [split; [exact (L D)|exact B]|]. cbv zeta. rewrite map_length, seq_length. split; [reflexivity|]. apply Forall_map, Forall_forall. intros k _. apply byte_mod.
Qed.
Lemma pixels_fine : forall d x n l, List.length l = (n * x)%nat -> Forall (level d) l -> List.length (pixels x n l) = x /\ Forall (fun p => List.length p = n /\ Forall (level d) p) (pixels x n l).
Proof.
  intros d x n l L F. unfold pixels. rewrite map_length, seq_length. split; [reflexivity|]. apply Forall_map, Forall_forall. intros i I. apply in_seq in I. split; [rewrite firstn_length, skipn_length; nia|apply part_forall, part_forall, F].
Qed.
Lemma concat_fine : forall A (P : A -> Prop) (n : nat) (ls : list (list A)), Forall (fun l => List.length l = n /\ Forall P l) ls -> List.length (List.concat ls) = (List.length ls * n)%nat /\ Forall P (List.concat ls).
Proof.
  intros A P n ls F. induction F as [|l ls [L FL] F [IL IF]]; [split; [reflexivity|constructor]|]. cbn [List.concat List.length]. rewrite app_length, L, IL. split; [lia|]. apply Forall_app. split; assumption.
Qed.
Definition pixel_of (z : png) (px : list Z) : Prop := List.length px = Z.to_nat (img_n z) /\ Forall (level (depth z)) px.
Lemma created_raw : forall z x y raw rows, fine z -> first z = false -> 0 <= x -> 0 <= y -> Forall byte raw -> create_raw z x y raw = Ok (Some rows) ->
  List.length rows = Z.to_nat y /\ Forall (fun ps => List.length ps = Z.to_nat x /\ Forall (pixel_of z) ps) rows.
Proof.
  intros z x y raw rows F FZ X0 Y0 B E. destruct (f_header z F FZ) as (HX & HY & HD & HN & _). unfold create_raw, row_bytes in E. cbv zeta in E.
  match type of E with (if ?b then _ else _) = _ => destruct b; [discriminate E|] end.
  match type of E with (if ?b then _ else _) = _ => destruct b eqn:LR; [discriminate E|] end. apply Z.ltb_ge in LR.
  match type of E with (if ?b then _ else _) = _ => destruct b; [discriminate E|] end.
  match type of E with match unfilter ?y ?w ?f _ _ with _ => _ end = _ => destruct (unfilter y w f None raw) as [rs|] eqn:U; [|discriminate E] end. injection E as <-.
  set (w := (img_n z * x * depth z + 7) / 8) in *. assert (W0 : 0 <= w) by (unfold w; apply Z.div_pos; [cbn in HD; nia|lia]).
  assert (LN : (List.length raw >= (Z.to_nat w + 1) * Z.to_nat y)%nat) by nia. destruct (rows_fine _ _ _ _ _ _ B LN U) as [LY FR]. rewrite map_length. split; [exact LY|].
  apply Forall_map. eapply Forall_impl; [|exact FR]. intros r [RL RB]. destruct (unpack_fine (depth z) (color z) (Z.to_nat (img_n z * x)) r RB) as [UL UF].
  - intros D8. rewrite RL. f_equal. unfold w. rewrite D8. rewrite Z.div_add_l by lia. change (7 / 8) with 0. lia.
  - apply pixels_fine; [rewrite UL; lia|exact UF].
Qed.
Lemma woven : forall z ps raw m m', fine z -> first z = false -> Forall byte raw -> Forall (fun '(xo, yo, xs, ys) => 0 <= xo < xs /\ 0 <= yo < ys) ps ->
  (forall y x px, m y x = Some px -> pixel_of z px) -> weave z ps raw m = Ok (Some m') -> forall y x px, m' y x = Some px -> pixel_of z px.
Proof.
  intros z ps raw m m' F FZ B P. revert raw m B. destruct (f_header z F FZ) as (HX & HY & _). induction P as [|[[[xo yo] xs] ys] ps [O1 O2] P IH]; intros raw m B M E; cbn [weave] in E; [injection E as <-; exact M|].
  cbv zeta in E. destruct (_ || _); [exact (IH _ _ B M E)|].
  match type of E with bind (create_raw z ?x ?y raw) _ = _ => destruct (create_raw z x y raw) as [[rows|]|] eqn:C end; cbn [bind] in E; try discriminate E. destruct (2147483647 <? _); [discriminate E|].
  refine (IH _ _ (proj2 (part_forall _ _ _ _ B)) _ E). apply put_rows_all; [|exact M]. apply created_raw in C; [| assumption | assumption | apply Z.div_pos; lia | apply Z.div_pos; lia | assumption]. destruct C as [_ C]. eapply Forall_impl; [|exact C]. intros r [_ R]. exact R.
Qed.
Lemma mapM_all : forall A B (f : A -> res B) (P : B -> Prop) l l', (forall a b, f a = Ok b -> P b) -> mapM f l = Ok l' -> List.length l' = List.length l /\ Forall P l'.
Proof.
  intros A B f P l l' H. revert l'. induction l as [|a l IH]; intros l' E; cbn [mapM] in E; [injection E as <-; split; [reflexivity|constructor]|].
  destruct (f a) as [b|] eqn:X; cbn [bind] in E; [|discriminate E]. destruct (mapM f l) as [bs|] eqn:M; cbn [bind] in E; [|discriminate E]. injection E as <-. destruct (IH _ eq_refl) as [L FL]. split; [cbn; rewrite L; reflexivity|]. constructor; [exact (H _ _ X)|exact FL].
Qed.
Lemma created : forall z raw rows, fine z -> first z = false -> Forall byte raw -> create_png_image z raw = Ok (Some rows) ->
  List.length (List.concat rows) = (Z.to_nat (img_x z) * Z.to_nat (img_y z))%nat /\ Forall (pixel_of z) (List.concat rows).
Proof.
  intros z raw rows F FZ B E. destruct (f_header z F FZ) as (HX & HY & _). unfold create_png_image in E.
  assert (R : List.length rows = Z.to_nat (img_y z) /\ Forall (fun ps => List.length ps = Z.to_nat (img_x z) /\ Forall (pixel_of z) ps) rows).
  { destruct (interlace z =? 1); [|apply created_raw in E; [exact E|assumption|assumption|lia|lia|assumption]].
    destruct (weave z passes raw (fun _ _ => None)) as [[m|]|] eqn:W; cbn [bind] in E; try discriminate E.
    match type of E with bind ?g _ = _ => destruct g as [rs|] eqn:M end; cbn [bind] in E; [|discriminate E]. injection E as <-.
    assert (PM : forall y x px, m y x = Some px -> pixel_of z px).
    { refine (woven z passes raw (fun _ _ => None) m F FZ B _ _ W); [|intros ? ? ? Q; discriminate Q]. unfold passes. repeat (apply Forall_cons; [lia|]). constructor. }
    eapply mapM_all in M; [rewrite seq_length in M; exact M|]. intros y ps R. cbv beta in R. eapply mapM_all in R; [rewrite seq_length in R; exact R|]. intros x px RD. unfold read_at in RD. destruct (m _ _) as [q|] eqn:Q; [|discriminate RD]. injection RD as <-. exact (PM _ _ _ Q). }
  destruct R as [RL RF]. destruct (concat_fine _ _ _ _ RF) as [CL CF]. split; [rewrite CL, RL; lia|exact CF].
Qed.
Lemma expanded : forall z ps qs, Forall entry (palette z) -> 0 <= pal_img_n z <= 4 -> mapM (expand z) ps = Ok qs -> List.length qs = List.length ps /\ Forall (fun q => List.length q = Z.to_nat (pal_img_n z) /\ Forall byte q) qs.
Proof.
  intros z ps qs F P. revert qs. induction ps as [|p ps IH]; intros qs E; cbn [mapM] in E; [injection E as <-; split; [reflexivity|constructor]|].
  destruct (expand z p) as [q|] eqn:X; cbn [bind] in E; [|discriminate E]. destruct (mapM (expand z) ps) as [l|] eqn:M; cbn [bind] in E; [|discriminate E]. injection E as <-. destruct (IH _ eq_refl) as [L FL]. split; [cbn; rewrite L; reflexivity|]. constructor; [|exact FL].
  unfold expand in X. destruct (nth_error (palette z) _) as [e|] eqn:N; [|discriminate X]. injection X as <-. apply nth_error_In in N. destruct (proj1 (Forall_forall _ _) F e N) as [LE BE]. split; [rewrite firstn_length; lia|apply part_forall, BE].
Qed.

Definition good_picture (r : picture) : Prop :=
  let '(x, y, n, px) := r in 1 <= x <= 2 ^ 24 /\ 1 <= y <= 2 ^ 24 /\ 1 <= n <= 4 /\ len px = x * y * n /\ Forall byte px.
Section all.
Variable inflate : bool -> list Z -> option (list Z).
Hypothesis bytes : forall h z out, Forall byte z -> inflate h z = Some out -> Forall byte out.
Lemma finished : forall z r, fine z -> finish inflate z = Ok (Some r) -> good_picture r.
Proof.
  intros z r F E. unfold finish in E. destruct (first z) eqn:FZ; [discriminate E|]. assert (FD := f_data z F). destruct (idata z) as [|dz l]; [discriminate E|]. destruct (inflate _ _) as [raw|] eqn:I; [|discriminate E].
  destruct (create_png_image z raw) as [[rows|]|] eqn:C; cbn [bind] in E; try discriminate E. destruct (created z raw rows F FZ (bytes _ _ _ FD I) C) as [CL CF].
  destruct (f_header z F FZ) as (HX & HY & HD & HN & HT & HP). cbv zeta in E. destruct (Z.eqb_spec (pal_img_n z) 0) as [P0|P0].
  - injection E as <-. set (n := match trans z with Some _ => img_n z + 1 | None => img_n z end). set (ps := match trans z with Some tc => _ | None => _ end).
    assert (PF : List.length ps = (Z.to_nat (img_x z) * Z.to_nat (img_y z))%nat /\ Forall (fun p => List.length p = Z.to_nat n /\ Forall (level (depth z)) p) ps /\ 1 <= n <= 4).
    { unfold ps, n. destruct (trans z) as [tc|]; [|split; [exact CL|split; [exact CF|exact HN]]]. assert (N3 : img_n z <= 3) by (apply HT; discriminate). split; [rewrite map_length; exact CL|]. split; [|lia].
      apply Forall_map. eapply Forall_impl; [|exact CF]. intros p [LP FP]. unfold add_alpha. rewrite app_length, LP. split; [cbn; lia|]. apply Forall_app. split; [exact FP|]. constructor; [|constructor]. unfold level, byte. destruct (depth z =? 16), (same p tc); lia. }
    destruct PF as (PL & PF & PN). destruct (concat_fine _ _ _ _ PF) as [L FL]. unfold good_picture. repeat split; try lia.
    + unfold len. destruct (depth z =? 16); rewrite ?map_length, L, PL; nia.
    + unfold level in FL. destruct (depth z =? 16); [|exact FL]. apply Forall_map. eapply Forall_impl; [|exact FL]. intros v V. cbv beta in V. split; [apply Z.div_pos; lia|apply Z.div_lt_upper_bound; lia].
  - destruct HP as [HP|(HP & HT0 & HN1 & HD16)]; [contradiction|]. rewrite HT0 in E. destruct (mapM (expand z) (List.concat rows)) as [ps|] eqn:M; cbn [bind] in E; [|discriminate E]. injection E as <-.
    assert (P34 : 3 <= pal_img_n z <= 4) by (destruct HP as [HP|[HP|[]]]; lia).
    destruct (expanded z _ _ (f_palette z F) ltac:(lia) M) as [L FL]. destruct (concat_fine _ _ _ _ FL) as [LL FF]. unfold good_picture. repeat split; try lia; [|exact FF]. unfold len. rewrite LL, L, CL. nia.
Qed.
Lemma parsed : forall t z s r, fine z -> Forall byte s -> parse inflate t z s = Ok (Some r) -> good_picture r /\ exists a b, s = a ++ letters "IEND" ++ b.
Proof.
  induction t as [|t IH]; intros z s r F B E; [discriminate E|]. cbn [parse] in E. destruct (get32be s) as [n s1] eqn:E1. destruct (get32be s1) as [ty s2] eqn:E2.
  assert (R1 := get32_rest _ _ _ E1). assert (B1 := rest_bytes _ _ R1 B). assert (R2 := get32_rest _ _ _ E2). assert (B2 := rest_bytes _ _ R2 B1).
  destruct (Z.eqb_spec ty (tag "IEND")) as [TY|_].
  - split; [eapply finished; eassumption|]. destruct R1 as [a ->]. exists a.
    assert (X : exists b, s1 = letters "IEND" ++ b).
    { unfold get32be, get16be in E2. change (tag "IEND") with (((73 * 256 + 69) * 65536) + (78 * 256 + 68)) in TY. subst ty. unfold byte in *.
      destruct s1 as [|c1 [|c2 [|c3 [|c4 s1]]]]; cbn [get8] in E2; injection E2 as EN ES; repeat match goal with H : Forall _ (_ :: _) |- _ => inversion H; clear H; subst end; try lia. exists s2.
      assert (c1 = 73 /\ c2 = 69 /\ c3 = 78 /\ c4 = 68) as (-> & -> & -> & ->) by lia. reflexivity. }
    destruct X as [b ->]. exists b. reflexivity.
  - destruct (read_chunk z ty n s2) as [[z1 s3]|] eqn:RC; [|discriminate E]. destruct (chunk_fine _ _ _ _ _ _ F B2 RC) as [F1 R3]. assert (B3 := rest_bytes _ _ R3 B2). destruct (get32be s3) as [crc s4] eqn:E3. assert (R4 := get32_rest _ _ _ E3).
    destruct (IH z1 s4 r F1 (rest_bytes _ _ R4 B3) E) as [G (a & b & AB)]. split; [exact G|]. assert (RR : rest_of s s4) by (eapply rest_trans; [exact R1|]; eapply rest_trans; [exact R2|]; eapply rest_trans; eassumption). destruct RR as [a0 ->]. exists (a0 ++ a), b. rewrite AB, app_assoc. reflexivity.
Qed.
End all.
Lemma header_rest : forall g s r, Forall (fun c => c <> 0) g -> check_png_header g s = Some r -> s = g ++ r.
Proof.
  induction g as [|c g IH]; intros s r N E; cbn [check_png_header] in E; [injection E as <-; reflexivity|]. inversion N as [|? ? N1 N2]; subst. destruct s as [|d s]; cbn [get8] in E.
  - destruct (Z.eqb_spec 0 c) as [<-|]; [contradiction|discriminate E].
  - destruct (Z.eqb_spec d c) as [->|]; [|discriminate E]. rewrite (IH _ _ N2 E). reflexivity.
Qed.
Lemma any_file : forall inflate s r, (forall h z out, Forall byte z -> inflate h z = Some out -> Forall byte out) -> Forall byte s -> load inflate s = Ok (Some r) ->
  good_picture r /\ exists a b, s = [137; 80; 78; 71; 13; 10; 26; 10] ++ a ++ letters "IEND" ++ b.
Proof.
  intros inflate s r I B E. unfold load in E. destruct (check_png_header signature s) as [s1|] eqn:H; [|discriminate E]. apply header_rest in H; [|unfold signature; repeat constructor; discriminate]. subst s. apply Forall_app in B. destruct (parsed inflate I _ _ _ _ start_fine (proj2 B) E) as [G (a & b & ->)]. split; [exact G|]. exists a, b. reflexivity.
Qed.
