(** C34: category colors. *)
From Coq Require Import List Bool String ZArith Lia.
From Verif.Base Require Import Py PyFacts.
From Verif.Color Require Import Model Spec.
Import ListNotations.
Local Open Scope Z_scope.

Lemma made_data : forall rows c, made_from rows c ->
  cc_data c = rows /\ cc_reverse c = fold_left (fun d r => sset (r_category r) (r_color r) d) rows [] /\
  (cc_lut c = [] \/ cc_lut c = map r_color rows).
Proof.
  assert (L : forall rows c l c', cc_data c = rows /\ cc_reverse c = fold_left (fun d r => sset (r_category r) (r_color r) d) rows [] /\
    (cc_lut c = [] \/ cc_lut c = map r_color rows) -> LUT c = Ok (l, c') ->
    cc_data c' = rows /\ cc_reverse c' = fold_left (fun d r => sset (r_category r) (r_color r) d) rows [] /\
    (cc_lut c' = [] \/ cc_lut c' = map r_color rows)).
  { intros rows c l c' (A & B & C) E. unfold LUT in E. destruct (cc_lut c) as [|x y] eqn:EL.
    - unfold uint8_array in E. destruct (forallb _ _); [|discriminate]. cbn [bind] in E. injection E as <- <-. cbn. rewrite A. auto.
    - injection E as <- <-. rewrite EL. auto. }
  intros rows c H. induction H as [c E|c l c' H IH E|c im out c' H IH E].
  - injection E as <-. cbn. auto.
  - exact (L _ _ _ _ IH E).
  - unfold convert_to_rgb_im in E. destruct (LUT c) as [[l c1]|] eqn:EL; [|discriminate]. cbn [bind] in E.
    destruct (mapM _ im); [|discriminate]. cbn [bind] in E. injection E as <- <-. exact (L _ _ _ _ IH EL).
Qed.

Lemma index_in : forall A (l : list A) i, 0 <= i < Z.of_nat (List.length l) ->
  exists x, nth_error l (Z.to_nat i) = Some x /\ py_index l i = Ok x.
Proof.
  intros A l i H. unfold py_index. destruct (Z.ltb_spec i 0); [lia|]. destruct (Z.ltb_spec i 0); [lia|].
  destruct (nth_error l (Z.to_nat i)) as [x|] eqn:E; [eauto|]. apply nth_error_None in E. lia.
Qed.

Lemma index_out : forall A (l : list A) i, i < - Z.of_nat (List.length l) \/ Z.of_nat (List.length l) <= i -> py_index l i = Err IndexError.
Proof.
  intros A l i H. unfold py_index. destruct (Z.ltb_spec i 0); cbv zeta.
  - destruct (Z.ltb_spec (i + Z.of_nat (List.length l)) 0); [reflexivity|]. lia.
  - destruct (Z.ltb_spec i 0); [lia|]. destruct (nth_error l (Z.to_nat i)) eqn:E; [|reflexivity].
    assert (X : (Z.to_nat i < List.length l)%nat) by (apply nth_error_Some; rewrite E; discriminate). lia.
Qed.

Lemma index_neg : forall A (l : list A) i, - Z.of_nat (List.length l) <= i < 0 -> py_index l i = py_index l (i + Z.of_nat (List.length l)).
Proof.
  intros A l i H. unfold py_index. destruct (Z.ltb_spec i 0); [|lia]. cbv zeta.
  destruct (Z.ltb_spec (i + Z.of_nat (List.length l)) 0); [lia|].
  destruct (Z.ltb_spec (i + Z.of_nat (List.length l)) 0); [lia|reflexivity].
Qed.

Theorem C34_known_id : forall rows c, made_from rows c -> forall i r, nth_error rows i = Some r ->
  category_id_to_rgb c (Z.of_nat i) = Ok (r_color r).
Proof.
  intros rows c H i r E. destruct (made_data rows c H) as (D & _ & _). unfold category_id_to_rgb. rewrite D.
  assert (X : (i < List.length rows)%nat) by (apply nth_error_Some; rewrite E; discriminate).
  destruct (index_in _ rows (Z.of_nat i) ltac:(lia)) as (x & N & P). rewrite P. rewrite Nat2Z.id in N. rewrite E in N. injection N as <-.
  destruct (Z.ltb_spec (Z.of_nat (List.length rows)) (Z.of_nat i)); [lia|]. destruct (Z.ltb_spec (Z.of_nat i) 0); [lia|]. reflexivity.
Qed.

(** Ids outside the table: KeyError, except for the id equal to the number of rows. *)
Theorem C34_unknown_id : forall rows c, made_from rows c -> forall i, i < 0 \/ Z.of_nat (List.length rows) <= i ->
  category_id_to_rgb c i = Err (if i =? Z.of_nat (List.length rows) then IndexError else KeyError).
Proof.
  intros rows c H i I. destruct (made_data rows c H) as (D & _ & _). unfold category_id_to_rgb. rewrite D.
  destruct (Z.eqb_spec i (Z.of_nat (List.length rows))) as [->|N].
  - rewrite Z.ltb_irrefl. destruct (Z.ltb_spec (Z.of_nat (List.length rows)) 0); [lia|]. simpl. rewrite index_out by lia. reflexivity.
  - destruct (Z.ltb_spec (Z.of_nat (List.length rows)) i); [reflexivity|]. destruct (Z.ltb_spec i 0); [reflexivity|]. lia.
Qed.

Theorem C34_keyerror_refuted : exists rows c i, made_from rows c /\ nth_error rows (Z.to_nat i) = None /\
  category_id_to_rgb c i <> Err KeyError.
Proof.
  exists [Row "chair" "True" [1; 2; 3]], (CC [Row "chair" "True" [1; 2; 3]] [("chair"%string, [1; 2; 3])] []), 1.
  split; [constructor; reflexivity|]. split; [reflexivity|]. vm_compute. discriminate.
Qed.

Lemma reverse_spec : forall rows d name,
  sget name (fold_left (fun d r => sset (r_category r) (r_color r) d) rows d) =
  fold_left (fun o r => if String.eqb name (r_category r) then Some (r_color r) else o) rows (sget name d).
Proof.
  induction rows as [|r rows IH]; intros d name; [reflexivity|]. cbn [fold_left]. rewrite IH. f_equal.
  destruct (String.eqb name (r_category r)) eqn:E.
  - apply String.eqb_eq in E. subst. apply dget_dset_same. apply str_eqb_spec.
  - apply dget_dset_other; [apply str_eqb_spec|]. intro X. subst. rewrite String.eqb_refl in E. discriminate.
Qed.

Lemma last_spec : forall name rows o,
  (exists col, last_named rows name col /\
     fold_left (fun o r => if String.eqb name (r_category r) then Some (r_color r) else o) rows o = Some col) \/
  ((forall r, In r rows -> r_category r <> name) /\
     fold_left (fun o r => if String.eqb name (r_category r) then Some (r_color r) else o) rows o = o).
Proof.
  intros name. induction rows as [|r rows IH]; intro o; [right; split; [intros r []|reflexivity]|]. cbn [fold_left].
  destruct (IH (if String.eqb name (r_category r) then Some (r_color r) else o)) as [(col & (b & x & a & -> & X1 & X2 & X3) & E)|(N & E)].
  - left. exists col. split; [|exact E]. exists (r :: b), x, a. auto.
  - rewrite E. destruct (String.eqb name (r_category r)) eqn:EQ.
    + apply String.eqb_eq in EQ. left. exists (r_color r). split; [|reflexivity]. exists [], r, rows. auto.
    + right. split; [|reflexivity]. intros x [<-|I]; [|apply N, I]. intro Q. rewrite Q, String.eqb_refl in EQ. discriminate.
Qed.

Lemma last_unique : forall rows name c1 c2, last_named rows name c1 -> last_named rows name c2 -> c1 = c2.
Proof.
  intros rows name c1 c2 (b & x & a & -> & X1 & X2 & X3). revert b. intros b (b' & x' & a' & E & Y1 & Y2 & Y3).
  revert b' E. induction b as [|h b IH]; intros [|h' b'] E; cbn in E; injection E as E1 E2.
  - congruence.
  - exfalso. apply (X3 x'); [rewrite E2; apply in_or_app; right; left; reflexivity|exact Y1].
  - exfalso. apply (Y3 x); [rewrite <- E2; apply in_or_app; right; left; reflexivity|exact X1].
  - apply (IH b' E2).
Qed.

(** Name lookup finds the last row with the name and raises KeyError exactly when
    there is none. *)
Theorem C34_name : forall rows c, made_from rows c -> forall name,
  (forall col, category_name_to_rgb c name = Ok col <-> last_named rows name col) /\
  (category_name_to_rgb c name = Err KeyError <-> forall r, In r rows -> r_category r <> name).
Proof.
  intros rows c H name. destruct (made_data rows c H) as (_ & R & _). unfold category_name_to_rgb, dmem, dgetE. rewrite R, reverse_spec.
  destruct (last_spec name rows (sget name [])) as [(col & L & ->)|(N & ->)]; cbn [negb dget].
  - split.
    + intro col'. split; [intro E; injection E as <-; exact L|]. intro L'. rewrite (last_unique _ _ _ _ L L'). reflexivity.
    + split; [discriminate|]. intro A. destruct L as (b & x & a & -> & X1 & _). exfalso. apply (A x); [|exact X1].
      apply in_or_app. right. left. reflexivity.
  - split; [|split; auto]. intro col. split; [discriminate|]. intros (b & x & a & -> & X1 & _). exfalso.
    apply (N x); [|exact X1]. apply in_or_app. right. left. reflexivity.
Qed.

Lemma uint8_ok : forall l, Forall rgb l -> uint8_array l = Ok l.
Proof.
  intros l H. unfold uint8_array. replace (forallb _ l) with true; [reflexivity|]. symmetry. apply forallb_forall. intros c Hc.
  rewrite Forall_forall in H. destruct (H c Hc) as (A & B). rewrite A. simpl. apply forallb_forall. intros x Hx. specialize (B x Hx).
  apply andb_true_intro. split; apply Z.leb_le; lia.
Qed.

Lemma lut_value : forall rows c, made_from rows c -> Forall rgb (map r_color rows) ->
  exists c', LUT c = Ok (map r_color rows, c').
Proof.
  intros rows c H G. destruct (made_data rows c H) as (D & _ & L). unfold LUT. rewrite D. destruct L as [-> | ->].
  - rewrite uint8_ok by exact G. cbn [bind]. eauto.
  - destruct (map r_color rows) as [|x l]; [|eauto]. rewrite uint8_ok by constructor. cbn [bind]. eauto.
Qed.

Lemma mapM_err : forall A B (f : A -> res B) l e, (forall x e', In x l -> f x = Err e' -> e' = e) ->
  (exists x, In x l /\ f x = Err e) -> mapM f l = Err e.
Proof.
  induction l as [|x l IH]; intros e U (y & I & E); [destruct I|]. cbn [mapM]. destruct (f x) as [b|e'] eqn:F.
  - destruct I as [->|I]; [congruence|]. cbn [bind]. rewrite (IH e); [reflexivity| |eauto]. intros x0 e0 I0. apply U. right; exact I0.
  - cbn [bind]. f_equal. apply (U x); [left; reflexivity|exact F].
Qed.

Lemma py_index_err : forall A (l : list A) i e, py_index l i = Err e -> e = IndexError.
Proof. intros A l i e. unfold py_index. destruct (_ <? 0); [congruence|]. destruct (nth_error _ _); congruence. Qed.

Lemma mapM_py_err : forall A (l : list A) im e, mapM (py_index l) im = Err e -> e = IndexError.
Proof.
  intros A l. induction im as [|i im IH]; intros e; cbn [mapM]; [discriminate|].
  destruct (py_index l i) eqn:E; cbn [bind]; [|intro X; injection X as <-; apply (py_index_err _ _ _ _ E)].
  destruct (mapM _ im) eqn:F; cbn [bind]; [discriminate|]. intro X. injection X as <-. apply IH. reflexivity.
Qed.

(** An image of known ids is colored pixel by pixel like the ids, by any object
    made from the file however often it was used before. *)
Theorem C34_image : forall rows c, made_from rows c -> Forall rgb (map r_color rows) ->
  forall im, (forall line i, In line im -> In i line -> 0 <= i < Z.of_nat (List.length rows)) ->
  exists out c', convert_to_rgb_im c im = Ok (out, c') /\
    Forall2 (Forall2 (fun i col => category_id_to_rgb c i = Ok col)) im out.
Proof.
  intros rows c H G im R. destruct (lut_value rows c H G) as (c' & L). unfold convert_to_rgb_im. rewrite L. cbn [bind].
  assert (K : forall im, (forall line i, In line im -> In i line -> 0 <= i < Z.of_nat (List.length rows)) ->
    exists out, mapM (mapM (py_index (map r_color rows))) im = Ok out /\ Forall2 (Forall2 (fun i col => category_id_to_rgb c i = Ok col)) im out).
  { clear im R. induction im as [|line im IH]; intro R; [exists []; split; constructor|].
    destruct IH as (out & E & F); [intros l i Hl; apply R; right; exact Hl|].
    assert (Kl : forall line, (forall i, In i line -> 0 <= i < Z.of_nat (List.length rows)) ->
      exists o, mapM (py_index (map r_color rows)) line = Ok o /\ Forall2 (fun i col => category_id_to_rgb c i = Ok col) line o).
    { clear -H. induction line as [|i line IH]; intro R; [exists []; split; constructor|].
      destruct IH as (o & E & F); [intros j Hj; apply R; right; exact Hj|].
      destruct (index_in _ rows i (R i (or_introl eq_refl))) as (r & Nr & _).
      destruct (index_in _ (map r_color rows) i) as (col & Nc & Pc); [rewrite map_length; apply R; left; reflexivity|].
      rewrite nth_error_map, Nr in Nc. cbn in Nc. injection Nc as <-.
      exists (r_color r :: o). cbn [mapM]. rewrite Pc. cbn [bind]. rewrite E. split; [reflexivity|]. constructor; [|exact F].
      rewrite <- (Z2Nat.id i) by (apply R; left; reflexivity). apply (C34_known_id rows c H _ r Nr). }
    destruct (Kl line) as (o & El & Fl); [intros i Hi; apply (R line); [left; reflexivity|exact Hi]|].
    exists (o :: out). cbn [mapM]. rewrite El. cbn [bind]. rewrite E. split; [reflexivity|constructor; assumption]. }
  destruct (K im R) as (out & E & F). rewrite E. cbn [bind]. eauto.
Qed.

(** One pixel out of reach and the whole conversion raises IndexError. *)
Theorem C34_image_rejects : forall rows c, made_from rows c -> Forall rgb (map r_color rows) ->
  forall im line i, In line im -> In i line ->
  i < - Z.of_nat (List.length rows) \/ Z.of_nat (List.length rows) <= i ->
  convert_to_rgb_im c im = Err IndexError.
Proof.
  intros rows c H G im line i Hl Hi R. destruct (lut_value rows c H G) as (c' & L). unfold convert_to_rgb_im. rewrite L. cbn [bind].
  rewrite (mapM_err _ _ _ im IndexError); [reflexivity| |].
  - intros l e _. apply mapM_py_err.
  - exists line. split; [exact Hl|]. apply mapM_err.
    + intros x e _. apply py_index_err.
    + exists i. split; [exact Hi|]. apply index_out. rewrite map_length. exact R.
Qed.

(** Negative pixels down to minus the table size are not rejected: they count from
    the end, unlike in the id lookup. *)
Theorem C34_negative_pixel_refuted : forall rows c, made_from rows c -> Forall rgb (map r_color rows) ->
  forall k r, nth_error rows k = Some r ->
  exists i c', i < 0 /\ category_id_to_rgb c i = Err KeyError /\ convert_to_rgb_im c [[i]] = Ok ([[r_color r]], c').
Proof.
  intros rows c H G k r N. exists (Z.of_nat k - Z.of_nat (List.length rows)).
  assert (X : (k < List.length rows)%nat) by (apply nth_error_Some; rewrite N; discriminate).
  destruct (lut_value rows c H G) as (c' & L). exists c'. split; [lia|]. split.
  - rewrite (C34_unknown_id rows c H) by lia. destruct (Z.eqb_spec (Z.of_nat k - Z.of_nat (List.length rows)) (Z.of_nat (List.length rows))); [lia|reflexivity].
  - unfold convert_to_rgb_im. rewrite L. cbn [bind mapM]. rewrite index_neg by (rewrite map_length; lia). rewrite map_length.
    replace (Z.of_nat k - Z.of_nat (List.length rows) + Z.of_nat (List.length rows)) with (Z.of_nat k) by lia.
    destruct (index_in _ (map r_color rows) (Z.of_nat k)) as (x & Nx & ->); [rewrite map_length; lia|].
    rewrite Nat2Z.id, nth_error_map, N in Nx. cbn in Nx. injection Nx as <-. reflexivity.
Qed.

Example C34_example : exists c, mk_colored_category (Some [Row "empty" "False" [0; 0; 0]; Row "chair" "True" [9; 8; 7]; Row "chair" "True" [1; 2; 3]]) = Ok c /\
  category_id_to_rgb c 1 = Ok [9; 8; 7] /\ category_name_to_rgb c "chair" = Ok [1; 2; 3] /\
  (let* r := convert_to_rgb_im c [[0; 2]; [1; 1]] in Ok (fst r)) = Ok [[[0; 0; 0]; [1; 2; 3]]; [[9; 8; 7]; [9; 8; 7]]].
Proof. eexists. repeat split. Qed.

Print Assumptions C34_known_id.
Print Assumptions C34_unknown_id.
Print Assumptions C34_keyerror_refuted.
Print Assumptions C34_name.
Print Assumptions C34_image.
Print Assumptions C34_image_rejects.
Print Assumptions C34_negative_pixel_refuted.
