(** The parser accepts JSON. *)
From Coq Require Import List Bool ZArith QArith Qabs Ascii String Lia.
From Verif.Base Require Import Py.
From Verif.Round Require Import Model Spec.
From Verif.Json Require Import Model Spec Strings Numbers.
Import ListNotations.
Local Open Scope Z_scope.

Lemma blank_ok : forall c, In (code c) [32; 9; 10; 13] <-> is_blank c = true.
Proof.
  intros c. unfold is_blank. cbn [In]. rewrite !orb_true_iff, !Z.eqb_eq. intuition.
Qed.
Lemma skip_white : forall w s, white w -> skip_ws (w ++ s) = skip_ws s.
Proof. intros w s W. induction W as [|c w C W IH]; [reflexivity|]. cbn [app skip_ws]. apply blank_ok in C. rewrite C. exact IH. Qed.
Lemma skip_head : forall c s, is_blank c = false -> skip_ws (c :: s) = c :: s.
Proof. intros c s B. cbn. rewrite B. reflexivity. Qed.
Lemma expect_ok : forall c w s, white w -> is_blank c = false -> expect c (w ++ c :: s) = Some s.
Proof. intros c w s W B. unfold expect. rewrite skip_white, skip_head by assumption. rewrite Ascii.eqb_refl. reflexivity. Qed.
Lemma expect_other : forall c d w s, white w -> is_blank d = false -> c <> d -> expect c (w ++ d :: s) = None.
Proof. intros c d w s W B N. unfold expect. rewrite skip_white, skip_head by assumption. destruct (Ascii.eqb_spec c d); [contradiction|reflexivity]. Qed.

Lemma blank_not_number : forall c, is_blank c = true -> ~ In c (lit "0123456789+-eE.").
Proof. intros c B H. cbn in H. repeat (destruct H as [<-|H]; [discriminate|]). destruct H. Qed.
Lemma stop_white : forall w s, white w -> stop s -> stop (w ++ s).
Proof. intros w s [|c w' C W] S; [exact S|]. cbn. apply blank_not_number, blank_ok, C. Qed.
Lemma stop_char : forall c s, ~ In c (lit "0123456789+-eE.") -> stop (c :: s).
Proof. intros c s H. exact H. Qed.

(** The beginning of a value. *)
Definition opening (c : ascii) : Prop := is_blank c = false /\ c <> "]"%char /\ c <> "}"%char.
Lemma digit_opening : forall c, is_digit c = true \/ c = "-"%char -> opening c.
Proof.
  intros c [D| ->]; [|repeat split; discriminate]. apply is_digit_range in D. split.
  - destruct (is_blank c) eqn:B; [|reflexivity]. exfalso. apply blank_ok in B. cbn in B. lia.
  - split; intros ->; cbn in D; [change (code "]") with 93 in D|change (code "}") with 125 in D]; lia.
Qed.
Scheme json_ind3 := Minimality for json Sort Prop
  with elements_ind3 := Minimality for elements Sort Prop
  with pairs_ind3 := Minimality for pairs Sort Prop.
Combined Scheme json_mutind from json_ind3, elements_ind3, pairs_ind3.

Lemma json_open : forall s v, json loose s v -> exists c r, s = c :: r /\ opening c.
Proof.
  assert (O : forall c r, opening c -> exists c' r', c :: r = c' :: r' /\ opening c') by (intros c r O; exists c, r; split; [reflexivity|exact O]).
  intros s v H. destruct H as [| | |s v I|s t _|w _|s l _|w _|s l o _ _];
    try (apply O; repeat split; discriminate).
  destruct (loose_chars s v I) as (_ & (c & r & E & D) & _). exists c, r. split; [exact E|apply digit_opening, D].
Qed.

(** What the first character of a number selects. *)
Lemma digit_branch : forall n out w c r, white w -> (is_digit c = true \/ c = "-"%char) ->
  parse_at (S n) out (w ++ c :: r) = parse_number out (c :: r).
Proof.
  intros n out w c r W D. destruct (digit_opening c D) as [B _]. cbn [parse_at]. rewrite skip_white, skip_head by assumption.
  assert (X : is_digit c || Ascii.eqb c "-" = true) by (destruct D as [->| ->]; [reflexivity|apply orb_true_r]).
  assert (N : forall d, is_digit d = false -> d <> "-"%char -> Ascii.eqb c d = false).
  { intros d D' M. destruct (Ascii.eqb_spec c d) as [->|]; [|reflexivity]. destruct D as [D| ->]; [congruence|contradiction]. }
  rewrite !N by (reflexivity || discriminate). rewrite X. reflexivity.
Qed.
Lemma branch : forall n out w c r, white w -> is_blank c = false -> parse_at (S n) out (w ++ c :: r) = parse_at (S n) out (c :: r).
Proof. intros n out w c r W B. cbn [parse_at]. rewrite skip_white by exact W. reflexivity. Qed.

Lemma two_lengths : forall (a b : text), (2 * List.length (a ++ b) = 2 * List.length a + 2 * List.length b)%nat.
Proof. intros a b. rewrite app_length. lia. Qed.

Lemma accepts :
  (forall s v, json loose s v -> forall n out w rest, (2 * List.length s <= n)%nat -> white w -> ends v rest ->
     parse_at n out (w ++ s ++ rest) = Ok (v, Some rest)) /\
  (forall s l, elements loose s l -> forall n a rest, (2 * List.length s + 1 <= n)%nat ->
     expect "]" (s ++ lit "]" ++ rest) = None /\ items n a (s ++ lit "]" ++ rest) = Ok (JArr (a ++ l), Some rest)) /\
  (forall s l, pairs loose s l -> forall n o rest, (2 * List.length s + 1 <= n)%nat ->
     expect "}" (s ++ lit "}" ++ rest) = None /\
     members n o (s ++ lit "}" ++ rest) = Ok (JObj (fold_left (fun o m => oset (fst m) (snd m) o) l o), Some rest)).
Proof.
  assert (END : forall v rest, stop rest -> ends v rest) by (intros [] rest H; exact I || exact H).
  apply json_mutind.
  - intros n out w rest L W ST. destruct n as [|n]; [cbn in L; lia|]. cbn [lit list_ascii_of_string app]. rewrite branch by (assumption || reflexivity). reflexivity.
  - intros n out w rest L W ST. destruct n as [|n]; [cbn in L; lia|]. cbn [lit list_ascii_of_string app]. rewrite branch by (assumption || reflexivity). reflexivity.
  - intros n out w rest L W ST. destruct n as [|n]; [cbn in L; lia|]. cbn [lit list_ascii_of_string app]. rewrite branch by (assumption || reflexivity). reflexivity.
  - intros s v LO n out w rest L W ST. destruct (loose_chars s v LO) as (_ & (c & r & E & D) & K).
    assert (ST' : stop rest) by (destruct v; assumption || contradiction). assert (PL := fun out => parse_loose s v out rest LO ST'). rewrite E in *.
    destruct n as [|n]; [cbn in L; lia|]. cbn [app] in *. rewrite digit_branch by assumption. apply PL.
  - intros s t C n out w rest L W ST. destruct n as [|n]; [cbn in L; lia|]. cbn [lit list_ascii_of_string app]. rewrite branch by (assumption || reflexivity).
    rewrite <- app_assoc. change (["""" %char] ++ rest) with (lit """" ++ rest).
    change (parse_at (S n) out ("""" %char :: s ++ lit """" ++ rest)) with (let '(t, r) := parse_string [] (s ++ lit """" ++ rest) in Ok (JStr t, r)).
    rewrite (parse_chars s t C). reflexivity.
  - intros w0 W0 n out w rest L W ST. destruct n as [|n]; [cbn in L; lia|]. cbn [lit list_ascii_of_string app]. rewrite branch by (assumption || reflexivity).
    rewrite <- app_assoc. cbn [app].
    change (parse_at (S n) out ("["%char :: w0 ++ "]"%char :: rest)) with
      (match expect "]" (w0 ++ "]"%char :: rest) with Some r => Ok (JArr [], Some r) | None => items n [] (w0 ++ "]"%char :: rest) end).
    rewrite expect_ok by (assumption || reflexivity). reflexivity.
  - intros s l _ IH n out w rest L W ST. destruct n as [|n]; [cbn in L; lia|]. cbn [lit list_ascii_of_string app]. rewrite branch by (assumption || reflexivity).
    rewrite <- app_assoc. change (["]"%char] ++ rest) with (lit "]" ++ rest).
    change (parse_at (S n) out ("["%char :: s ++ lit "]" ++ rest)) with
      (match expect "]" (s ++ lit "]" ++ rest) with Some r => Ok (JArr [], Some r) | None => items n [] (s ++ lit "]" ++ rest) end).
    destruct (IH n [] rest) as [-> ->]; [|reflexivity]. cbn [List.length lit list_ascii_of_string app] in L. rewrite app_length in L. cbn in L. lia.
  - intros w0 W0 n out w rest L W ST. destruct n as [|n]; [cbn in L; lia|]. cbn [lit list_ascii_of_string app]. rewrite branch by (assumption || reflexivity).
    rewrite <- app_assoc. cbn [app].
    change (parse_at (S n) out ("{"%char :: w0 ++ "}"%char :: rest)) with
      (match expect "}" (w0 ++ "}"%char :: rest) with Some r => Ok (JObj [], Some r) | None => members n [] (w0 ++ "}"%char :: rest) end).
    rewrite expect_ok by (assumption || reflexivity). reflexivity.
  - intros s l o _ IH OB n out w rest L W ST. destruct n as [|n]; [cbn in L; lia|]. cbn [lit list_ascii_of_string app]. rewrite branch by (assumption || reflexivity).
    rewrite <- app_assoc. change (["}"%char] ++ rest) with (lit "}" ++ rest).
    change (parse_at (S n) out ("{"%char :: s ++ lit "}" ++ rest)) with
      (match expect "}" (s ++ lit "}" ++ rest) with Some r => Ok (JObj [], Some r) | None => members n [] (s ++ lit "}" ++ rest) end).
    destruct (IH n [] rest) as [-> ->]; [|rewrite (object_fold l o OB); reflexivity].
    cbn [List.length lit list_ascii_of_string app] in L. rewrite app_length in L. cbn in L. lia.
  - intros w s v w' W J IH W' n a rest L. destruct (json_open s v J) as (c & r & E & B & N1 & N2).
    split.
    + rewrite E, <- !app_assoc. cbn [app]. apply expect_other; congruence || assumption.
    + destruct n as [|n]; [lia|]. cbn [items]. rewrite <- !app_assoc. rewrite IH; [|rewrite !app_length in L; lia|exact W|].
      * cbn [bind]. cbn [lit list_ascii_of_string app]. rewrite expect_other by (assumption || reflexivity || discriminate).
        rewrite expect_ok by (assumption || reflexivity). reflexivity.
      * apply END, stop_white; [exact W'|]. cbn. intuition discriminate.
  - intros w s v w' r l W J IH W' _ IHr n a rest L. destruct (json_open s v J) as (c & t & E & B & N1 & N2).
    split.
    + rewrite E, <- !app_assoc. cbn [app]. apply expect_other; congruence || assumption.
    + destruct n as [|n]; [lia|]. cbn [items]. rewrite <- !app_assoc. rewrite !app_length in L. cbn [List.length lit list_ascii_of_string] in L.
      rewrite IH; [|lia|exact W|].
      * cbn [bind]. change (lit "," ++ r ++ lit "]" ++ rest) with (","%char :: r ++ lit "]" ++ rest).
        rewrite expect_ok by (assumption || reflexivity). rewrite (proj2 (IHr n (a ++ [v]) rest ltac:(lia))), <- app_assoc. reflexivity.
      * apply END, stop_white; [exact W'|]. cbn. intuition discriminate.
  - intros w ks k w1 w2 s v w' W C W1 W2 J IH W' n o rest L. destruct (json_open s v J) as (c & r & E & B & N1 & N2).
    split.
    + rewrite <- !app_assoc. cbn [lit list_ascii_of_string app]. apply expect_other; assumption || reflexivity || discriminate.
    + destruct n as [|n]; [lia|]. cbn [members]. rewrite <- !app_assoc. rewrite !app_length in L.
      change (lit """" ++ ks ++ lit """" ++ w1 ++ lit ":" ++ w2 ++ s ++ w' ++ lit "}" ++ rest) with ("""" %char :: ks ++ lit """" ++ w1 ++ lit ":" ++ w2 ++ s ++ w' ++ lit "}" ++ rest).
      rewrite expect_ok by (assumption || reflexivity). rewrite (parse_chars ks k C). cbv iota beta.
      change (lit ":" ++ w2 ++ s ++ w' ++ lit "}" ++ rest) with (":"%char :: w2 ++ s ++ w' ++ lit "}" ++ rest).
      rewrite expect_ok by (assumption || reflexivity). rewrite IH; [|lia|exact W2|].
      * cbn [bind]. cbn [lit list_ascii_of_string app]. rewrite expect_other by (assumption || reflexivity || discriminate).
        rewrite expect_ok by (assumption || reflexivity). reflexivity.
      * apply END, stop_white; [exact W'|]. cbn. intuition discriminate.
  - intros w ks k w1 w2 s v w' r l W C W1 W2 J IH W' _ IHr n o rest L. destruct (json_open s v J) as (c & t & E & B & N1 & N2).
    split.
    + rewrite <- !app_assoc. cbn [lit list_ascii_of_string app]. apply expect_other; assumption || reflexivity || discriminate.
    + destruct n as [|n]; [lia|]. cbn [members]. rewrite <- !app_assoc. rewrite !app_length in L. cbn [List.length lit list_ascii_of_string] in L.
      change (lit """" ++ ks ++ lit """" ++ w1 ++ lit ":" ++ w2 ++ s ++ w' ++ lit "," ++ r ++ lit "}" ++ rest) with ("""" %char :: ks ++ lit """" ++ w1 ++ lit ":" ++ w2 ++ s ++ w' ++ lit "," ++ r ++ lit "}" ++ rest).
      rewrite expect_ok by (assumption || reflexivity). rewrite (parse_chars ks k C). cbv iota beta.
      change (lit ":" ++ w2 ++ s ++ w' ++ lit "," ++ r ++ lit "}" ++ rest) with (":"%char :: w2 ++ s ++ w' ++ lit "," ++ r ++ lit "}" ++ rest).
      rewrite expect_ok by (assumption || reflexivity). rewrite IH; [|lia|exact W2|].
      * cbn [bind]. change (lit "," ++ r ++ lit "}" ++ rest) with (","%char :: r ++ lit "}" ++ rest).
        rewrite expect_ok by (assumption || reflexivity). cbv zeta. change ([] ++ k) with k. rewrite (proj2 (IHr n (oset k v o) rest ltac:(lia))). reflexivity.
      * apply END, stop_white; [exact W'|]. cbn. intuition discriminate.
Qed.

Lemma strict_json : forall s v, json strict s v -> json loose s v.
Proof.
  apply (json_ind3 strict (fun s v => json loose s v) (fun s l => elements loose s l) (fun s l => pairs loose s l)); intros.
  - constructor. - constructor. - constructor. - constructor. apply strict_loose. assumption.
  - constructor; assumption. - constructor; assumption. - constructor; assumption. - constructor; assumption. - eapply j_obj; eassumption.
  - constructor; assumption. - constructor; assumption. - constructor; assumption. - constructor; assumption.
Qed.
