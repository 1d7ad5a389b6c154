(** What dump writes is JSON, what the text means, and which values can be read again. *)
From Coq Require Import List Bool ZArith QArith Qabs Ascii String Lia Sorting.Sorted.
From Verif.Base Require Import Py.
From Verif.Round Require Import Model Spec Rounding.
From Verif.Json Require Import Spec.
From Verif.Json Require Import Model Numbers Printing.
From Verif.Json Require Grammar Strings.
From Verif.Doc Require Import Model Facts.
From Verif.Doc Require Import Spec.
From Verif.Doc Require Whole.
From Verif.Text Require Import Model Spec Digits Decimals Strings Lexer Parser.
Import ListNotations.
Local Open Scope Z_scope.

Section Induction.
  Variable P : json -> Prop.
  Hypothesis Pnull : P JNull.
  Hypothesis Pbool : forall b, P (JBool b).
  Hypothesis Pint : forall z, P (JInt z).
  Hypothesis Pnum : forall q, P (JNum q).
  Hypothesis Pstr : forall s, P (JStr s).
  Hypothesis Parr : forall l, Forall P l -> P (JArr l).
  Hypothesis Pobj : forall o, Forall (fun m => P (snd m)) o -> P (JObj o).
  Fixpoint json_induction (v : json) : P v :=
    match v with
    | JNull => Pnull
    | JBool b => Pbool b
    | JInt z => Pint z
    | JNum q => Pnum q
    | JStr s => Pstr s
    | JArr l => Parr l ((fix go l : Forall P l :=
        match l with [] => Forall_nil _ | x :: l => Forall_cons x (json_induction x) (go l) end) l)
    | JObj o => Pobj o ((fix go o : Forall (fun m => P (snd m)) o :=
        match o with [] => Forall_nil _ | m :: o => Forall_cons m (json_induction (snd m)) (go o) end) o)
    end.
End Induction.

(** * Numbers *)
Definition small (c : ascii) : Prop := c <> "E"%char.
Lemma digits_small : forall s, all_digits s -> Forall small s.
Proof. intros s A. eapply Forall_impl; [|exact A]. intros c C ->. discriminate. Qed.
Lemma fraction_small : forall s, all_digits s -> Forall small (fraction s).
Proof.
  intros s A. apply strip_digits in A. unfold fraction. destruct (strip s) as [|c f]; [constructor|]. constructor; [discriminate|apply digits_small, A].
Qed.
Lemma exponent_small : forall k, Forall small (lit "e" ++ (if k <? 0 then lit "-" else lit "+") ++ two_digits (Z.abs k)).
Proof.
  intros k. apply Forall_app. split; [constructor; [discriminate|constructor]|]. apply Forall_app. split; [destruct (k <? 0); (constructor; [discriminate|constructor])|].
  apply digits_small. destruct (two_digits_ok (Z.abs k) ltac:(lia)) as [_ H]. apply numeral_value in H. apply H.
Qed.
Lemma print_g_small : forall x, (0 < x)%Q -> Forall small (print_g x).
Proof.
  intros x P. assert (H := fifteen_ok x P). unfold print_g. destruct (fifteen x) as [n k]. destruct H as (N & _ & _).
  destruct (decimal_ok n ltac:(lia)) as (A & _ & _).
  assert (FL : forall m, all_digits (firstn m (decimal n))) by (intros m; rewrite <- (firstn_skipn m) in A; apply Forall_app in A; apply A).
  assert (SL : forall m, all_digits (skipn m (decimal n))) by (intros m; rewrite <- (firstn_skipn m) in A; apply Forall_app in A; apply A).
  destruct ((-4 <=? k) && (k <? 15)); [destruct (0 <=? k)|].
  - apply Forall_app. split; [apply digits_small, FL|apply fraction_small, SL].
  - apply Forall_app. split; [constructor; [discriminate|constructor]|]. apply fraction_small. apply Forall_app. split; [apply zeros_digits|exact A].
  - apply Forall_app. split; [apply digits_small, FL|]. apply Forall_app. split; [apply fraction_small, SL|apply exponent_small].
Qed.
Lemma int_like_digits : forall s, all_digits s -> int_like s = true.
Proof.
  intros s A. unfold int_like. apply negb_true_iff. induction A as [|c s C A IH]; [reflexivity|]. cbn [existsb]. rewrite IH, !(digit_not c) by (exact C || reflexivity). reflexivity.
Qed.
Lemma int_like_app : forall a b, int_like (a ++ b) = int_like a && int_like b.
Proof. intros a b. unfold int_like. rewrite existsb_app, negb_orb. reflexivity. Qed.

Lemma exp_nil : forall et e, exp_part et e -> et = [] -> e = 0.
Proof. intros et e [|mark plus ds m [<-|[<-|[]]] PP ND H|mark ds m [<-|[<-|[]]] ND H] E; reflexivity || discriminate E. Qed.
(** The text of a number with a point or an exponent. *)
Definition point_text (s : text) (neg : bool) (q : Q) : Prop :=
  exists i ft f et e, s = Json.Spec.minus neg ++ i ++ ft ++ et /\ int_part i /\ frac_part ft f /\ exp_part et e /\ ft ++ et <> [] /\
    (q == inject_Z (value_of (i ++ f)) * ten (e - Z.of_nat (List.length f)))%Q.
Lemma point_added : forall neg x, (0 < x)%Q ->
  let s := Json.Spec.minus neg ++ print_g x in point_text (s ++ (if int_like s then lit ".0" else [])) neg (d15p x).
Proof.
  intros neg x P. assert (H := print_g_shape x P). assert (SM := print_g_small x P). unfold d15p. destruct (fifteen x) as [n k]. destruct H as (plain & (i & ft & f & et & e & E & I & F & X & V & PL) & _).
  cbv zeta. rewrite int_like_app. replace (int_like (Json.Spec.minus neg)) with true by (destruct neg; reflexivity). cbn [andb].
  destruct (int_part_digits i I) as [AI NI].
  destruct (list_eq_dec ascii_dec (ft ++ et) []) as [FE|FE].
  - apply app_eq_nil in FE. destruct FE as [-> ->]. rewrite !app_nil_r in E. rewrite E, int_like_digits by exact AI.
    assert (F0 : f = []) by (inversion F; reflexivity). assert (X0 : e = 0) by (apply (exp_nil [] e X); reflexivity). subst f e.
    exists i, (lit ".0"), (lit "0"), [], 0. split; [rewrite app_nil_r, <- app_assoc; reflexivity|]. split; [exact I|].
    split; [apply (f_some (lit "0") 0); [discriminate|apply (n_snoc [] 0 "0"%char 0%nat n_nil); reflexivity]|]. split; [constructor|]. split; [discriminate|].
    rewrite V. rewrite app_nil_r. rewrite value_app. change (value_of (lit "0")) with 0. change (List.length (lit "0")) with 1%nat. change (List.length (@nil ascii)) with 0%nat.
    rewrite Z.add_0_r. change (10 ^ Z.of_nat 1) with 10. change (0 - Z.of_nat 1) with (-1). change (0 - Z.of_nat 0) with 0. rewrite inject_Z_mult. unfold ten, Qpower. cbn. field.
  - assert (NL : int_like (print_g x) = false).
    { rewrite E in SM |- *. rewrite !int_like_app. apply Forall_app in SM. destruct SM as [_ SM]. apply Forall_app in SM. destruct SM as [_ SM].
      destruct F as [|ds m ND FN]; [|rewrite int_like_app; apply andb_false_r].
      destruct X as [|mark plus ds m M PP ND H|mark ds m M ND H]; [contradiction FE; reflexivity| |]; destruct M as [<-|[<-|[]]]; try (inversion SM as [|? ? C _]; subst; contradiction C; reflexivity);
        rewrite !int_like_app; cbn [andb]; apply andb_false_r. }
    rewrite NL. rewrite !app_nil_r. exists i, ft, f, et, e. split; [rewrite E; reflexivity|]. split; [exact I|]. split; [exact F|]. split; [exact X|]. split; [exact FE|exact V].
Qed.
Lemma print_double_text : forall q, exists neg d, point_text (print_double q) neg d /\ (d15 q == if neg then - d else d)%Q.
Proof.
  intros q. unfold print_double, d15. destruct (Qeq_bool q 0) eqn:Z.
  - exists false, 0%Q. split; [|reflexivity]. exists (lit "0"), (lit ".0"), (lit "0"), [], 0. split; [reflexivity|]. split; [apply int_part_zero|].
    split; [apply (f_some (lit "0") 0); [discriminate|apply (n_snoc [] 0 "0"%char 0%nat n_nil); reflexivity]|]. split; [constructor|]. split; [discriminate|reflexivity].
  - assert (N : ~ (q == 0)%Q) by (intros X; apply Qeq_bool_iff in X; congruence). destruct (Qle_bool 0 q) eqn:L; cbn [negb].
    + apply Qle_bool_iff in L. exists false, (d15p q). split; [|reflexivity]. apply (point_added false q). apply Qle_lteq in L. destruct L as [L|L]; [exact L|]. contradiction N. symmetry. exact L.
    + assert (K : (q < 0)%Q). { apply Qnot_le_lt. intros X. apply Qle_bool_iff in X. congruence. }
      exists true, (d15p (- q)). split; [|reflexivity]. apply (point_added true (- q)). apply Qopp_lt_compat in K. exact K.
Qed.
Lemma print_double_tok : forall q, tok (value_float (f15 q)) (print_double q).
Proof.
  intros q. destruct (print_double_text q) as (neg & d & (i & ft & f & et & e & E & I & F & X & N & V) & D). exists (d15 q). rewrite E.
  assert (A : all_digits (i ++ f)). { apply Forall_app. split; [apply int_part_digits, I|]. destruct F as [|ds m _ H]; [constructor|]. apply numeral_value in H. apply H. }
  split; [|split; [|split; [apply round_ok|apply round_red]]].
  - apply (decimal_intro neg i ft f et e (value_of (i ++ f))); try assumption; [apply value_numeral, A|].
    rewrite D. unfold signed. destruct neg; rewrite V; [rewrite inject_Z_opp; unfold ten; ring|reflexivity].
  - intros z Z. apply integer_no_dot in Z. rewrite (dot_in neg i ft f et e I F X N) in Z. discriminate.
Qed.

(** * Values *)
Lemma held_arr : forall l, held (JArr l) -> Forall held l.
Proof. intros l H. cbn in H. induction l as [|x l IH]; [constructor|]. destruct H. constructor; [assumption|]. apply IH. assumption. Qed.
Lemma held_obj : forall o, held (JObj o) -> ordered o /\ Forall (fun m => held (snd m)) o.
Proof. intros o [S H]. split; [exact S|]. clear S. induction o as [|x o IH]; [constructor|]. destruct H. constructor; [assumption|]. apply IH. assumption. Qed.
Lemma readable_arr : forall l, readable (JArr l) <-> Forall readable l.
Proof.
  intros l. cbn. induction l as [|x l IH]; [split; [constructor|exact (fun _ => Logic.I)]|]. cbn [fold_right]. rewrite IH. split.
  - intros []. constructor; assumption.
  - intros H. inversion H; subst. split; assumption.
Qed.
Definition readable_member (m : string * json) : Prop := valid_utf8 (list_ascii_of_string (fst m)) /\ readable (snd m).
Lemma readable_obj : forall o, readable (JObj o) <-> Forall readable_member o.
Proof.
  intros l. cbn. induction l as [|x l IH]; [split; [constructor|exact (fun _ => Logic.I)]|]. cbn [fold_right]. rewrite IH. unfold readable_member at 2. split.
  - intros (? & ? & ?). constructor; [split|]; assumption.
  - intros H. inversion H as [|? ? [? ?] ?]; subst. split; [|split]; assumption.
Qed.
Lemma white_nil : white [].
Proof. constructor. Qed.
Lemma lookup_self : forall o, ordered o -> object_of o o.
Proof. intros o O. split; [exact O|reflexivity]. Qed.

Definition member_text (m : string * json) : text := dump_str (fst m) ++ lit ":" ++ dump (snd m).
Lemma dump_obj : forall o, dump (JObj o) = lit "{" ++ commas (map member_text o) ++ lit "}".
Proof. reflexivity. Qed.
Lemma elements_written : forall l x, Forall (fun y => value_text (dump y) (through_text f15 y)) (x :: l) ->
  elements_text (commas (map dump (x :: l))) (map (through_text f15) (x :: l)).
Proof.
  induction l as [|y l IH]; intros x H; inversion H; subst.
  - cbn [map commas]. rewrite <- (app_nil_r (dump x)). apply (e_one [] (dump x) _ []); [apply white_nil|assumption|apply white_nil].
  - change (commas (map dump (x :: y :: l))) with ([] ++ dump x ++ [] ++ lit "," ++ commas (map dump (y :: l))). apply e_more; [apply white_nil|assumption|apply white_nil|apply IH; assumption].
Qed.
Definition through_member (m : string * json) : string * json := (fst m, through_text f15 (snd m)).
Lemma members_written : forall l x, Forall (fun m => valid_utf8 (list_ascii_of_string (fst m)) /\ value_text (dump (snd m)) (through_text f15 (snd m))) (x :: l) ->
  members_text (commas (map member_text (x :: l))) (map through_member (x :: l)).
Proof.
  assert (K : forall s, string_of_list_ascii (list_ascii_of_string s) = s) by apply string_of_list_ascii_of_string.
  induction l as [|y l IH]; intros x H; inversion H as [|? ? [V T] H']; subst.
  - cbn [map commas]. unfold member_text, dump_str, through_member. rewrite <- (K (fst x)) at 2. rewrite <- !app_assoc.
    rewrite <- (app_nil_r (dump (snd x))). apply (p_one [] _ _ [] []); try apply white_nil; [apply escape_valid, V|exact T].
  - change (commas (map member_text (x :: y :: l))) with (member_text x ++ lit "," ++ commas (map member_text (y :: l))). cbn [map]. unfold member_text at 1, dump_str, through_member at 1. rewrite <- (K (fst x)) at 2. rewrite <- !app_assoc.
    apply (p_more [] _ _ [] [] (dump (snd x)) _ []); try apply white_nil; [apply escape_valid, V|exact T|]. apply IH. assumption.
Qed.

Theorem written : forall j, held j -> readable j -> value_text (dump j) (through_text f15 j).
Proof.
  induction j as [|b|z|q|t|l IH|o IH] using json_induction; intros H R; cbn [through_text].
  - constructor.
  - destruct b; constructor.
  - apply j_number, n_int; [apply print_int_ok|exact H].
  - destruct R as (y & T & L). apply through15_f15 in T. subst y. destruct (print_double_tok q) as (d & D & N & RT & E). apply j_number. apply (n_num _ d); assumption.
  - rewrite <- (string_of_list_ascii_of_string t) at 2. apply j_str, escape_valid, R.
  - apply held_arr in H. apply readable_arr in R. destruct l as [|x l]; [apply (j_arr0 []), white_nil|]. apply j_arr. apply elements_written.
    rewrite Forall_forall in *. intros y Y. apply IH; [exact Y|apply H, Y|apply R, Y].
  - apply held_obj in H. destruct H as [O H]. apply readable_obj in R. destruct o as [|x o]; [apply (j_obj0 []), white_nil|]. rewrite dump_obj. eapply j_obj.
    + apply members_written. rewrite Forall_forall in *. intros m M. destruct (R m M) as [R1 R2]. split; [exact R1|]. apply IH; [exact M|apply H, M|exact R2].
    + apply lookup_self. exact (ordered_map _ _ (fun _ => through_text f15) _ O).
Qed.
Theorem reread_ok : forall j, reread j (through_text f15 j).
Proof.
  induction j as [|b|z|q|t|l IH|o IH] using json_induction; cbn [through_text]; try constructor.
  - apply f15_ok.
  - induction IH; constructor; assumption.
  - induction IH; constructor; [|assumption]. split; [reflexivity|assumption].
Qed.
Lemma reread_is : forall j j', reread j j' -> j' = through_text f15 j.
Proof.
  induction j as [|b|z|q|t|l IH|o IH] using json_induction; intros j' R; inversion R; subst; cbn [through_text]; try reflexivity.
  - f_equal. apply through15_f15. assumption.
  - f_equal. clear R. match goal with H : Forall2 _ _ _ |- _ => revert H end. revert l'. induction IH as [|x l X IH' IH2]; intros l' H; inversion H; subst; [reflexivity|]. cbn [map]. f_equal; [apply X; assumption|apply IH2; assumption].
  - f_equal. clear R. match goal with H : Forall2 _ _ _ |- _ => revert H end. revert o'. induction IH as [|x l X IH' IH2]; intros o' H; inversion H as [|? [k v] ? ? [E1 E2]]; subst; [reflexivity|]. cbn [map fst snd] in *. f_equal; [|apply IH2; assumption]. subst k. f_equal. apply X; assumption.
Qed.

(** * What can be read was readable *)
Lemma scan_quote : forall s, scan (""""%char :: s) = match scan_string [] s with Some (x, r) => (value_string x, r) | None => (parse_error, []) end.
Proof. reflexivity. Qed.
Lemma scan_dump_str : forall s rest t r, scan (dump_str s ++ rest) = (t, r) -> t <> parse_error -> valid_utf8 (list_ascii_of_string s) /\ r = rest.
Proof.
  intros s rest t r H N. assert (V : valid_utf8 (list_ascii_of_string s)).
  { unfold dump_str in H. rewrite <- !app_assoc in H. change (lit """" ++ flat_map escape (list_ascii_of_string s) ++ lit """" ++ rest) with (""""%char :: flat_map escape (list_ascii_of_string s) ++ lit """" ++ rest) in H.
    rewrite scan_quote in H. destruct (scan_string [] _) as [p|] eqn:E; [|injection H as <- _; contradiction N; reflexivity]. apply (string_valid _ _ (le_n _) _ _ _ E). }
  split; [exact V|]. assert (T := scan_tok (value_string (list_ascii_of_string s)) (dump_str s) [] rest white_nil ltac:(eexists; split; [reflexivity|apply escape_valid, V]) Logic.I).
  cbn [app] in T. rewrite T in H. injection H as _ <-. reflexivity.
Qed.
Lemma read_rest : forall j n rest v r, held j -> readable j -> stop rest -> read n (dump j ++ rest) = Ok (v, r) -> v = through_text f15 j /\ r = rest.
Proof.
  intros j n rest v r H R S E. apply (fuel_le n (Nat.max n (2 * List.length (dump j)))) in E; [|lia].
  destruct (proj1 accepts _ _ (written j H R) (Nat.max n (2 * List.length (dump j))) [] rest ltac:(lia) white_nil S) as [_ A]. cbn [app] in A. rewrite A in E. injection E as <- <-. split; reflexivity.
Qed.
Lemma stop_char : forall c r, In c [","; "]"; "}"; ascii_of_nat 10]%char -> stop (c :: r).
Proof. intros c r I. cbn in I. destruct I as [<-|[<-|[<-|[<-|[]]]]]; cbn; intuition discriminate. Qed.
Lemma commas_more : forall x y l, commas (x :: y :: l) = x ++ lit "," ++ commas (y :: l).
Proof. reflexivity. Qed.

Lemma scan_str_head : forall s rest, fst (scan (dump_str s ++ rest)) <> end_array /\ fst (scan (dump_str s ++ rest)) <> end_object.
Proof.
  intros s rest. change (dump_str s ++ rest) with (""""%char :: (flat_map escape (list_ascii_of_string s) ++ lit """") ++ rest). rewrite scan_quote.
  destruct (scan_string [] _) as [[x r]|]; split; discriminate.
Qed.
Lemma scan_head : forall j rest, held j -> stop rest -> fst (scan (dump j ++ rest)) <> end_array.
Proof.
  intros [|b|z|q|t|l|o] rest H S.
  - rewrite (scan_tok literal_null (lit "null") [] rest white_nil eq_refl Logic.I : scan (dump JNull ++ rest) = _). discriminate.
  - destruct b; [rewrite (scan_tok literal_true (lit "true") [] rest white_nil eq_refl Logic.I : scan (dump (JBool true) ++ rest) = _)
      |rewrite (scan_tok literal_false (lit "false") [] rest white_nil eq_refl Logic.I : scan (dump (JBool false) ++ rest) = _)]; discriminate.
  - rewrite (scan_tok (value_int z) (print_int z) [] rest white_nil (conj (print_int_ok z) H) S : scan (dump (JInt z) ++ rest) = _). discriminate.
  - rewrite (scan_tok (value_float (f15 q)) (print_double q) [] rest white_nil (print_double_tok q) S : scan (dump (JNum q) ++ rest) = _). discriminate.
  - apply scan_str_head.
  - cbn [dump]. rewrite <- !app_assoc. rewrite (scan_tok begin_array (lit "[") [] _ white_nil eq_refl Logic.I : scan (lit "[" ++ _) = _). discriminate.
  - rewrite dump_obj. rewrite <- !app_assoc. rewrite (scan_tok begin_object (lit "{") [] _ white_nil eq_refl Logic.I : scan (lit "{" ++ _) = _). discriminate.
Qed.

Definition only (j : json) : Prop := held j -> forall n rest p, stop rest -> read n (dump j ++ rest) = Ok p -> readable j.
Lemma elements_only : forall l x, Forall only (x :: l) -> Forall held (x :: l) -> forall n a rest p,
  read_elements n a (commas (map dump (x :: l)) ++ lit "]" ++ rest) = Ok p -> Forall readable (x :: l).
Proof.
  induction l as [|y l IH]; intros x O H n a rest p E; inversion O as [|? ? OX OL]; inversion H as [|? ? HX HL]; subst.
  - destruct n as [|n]; [unfold read_elements in E; destruct (scan _); discriminate|]. rewrite read_more in E. cbn [map commas] in E.
    destruct (read n (dump x ++ lit "]" ++ rest)) as [[v r]|] eqn:R; [|discriminate]. constructor; [|constructor]. apply (OX HX n (lit "]" ++ rest) (v, r)); [apply stop_char; cbn; auto|exact R].
  - destruct n as [|n]; [unfold read_elements in E; destruct (scan _); discriminate|]. rewrite read_more in E. cbn [map] in E. rewrite commas_more, <- !app_assoc in E.
    destruct (read n (dump x ++ lit "," ++ commas (dump y :: map dump l) ++ lit "]" ++ rest)) as [[v r]|] eqn:R; [|discriminate]. cbn [bind] in E.
    assert (S : stop (lit "," ++ commas (dump y :: map dump l) ++ lit "]" ++ rest)) by (apply stop_char; cbn; auto).
    assert (RX := OX HX _ _ _ S R). constructor; [exact RX|]. apply (read_rest x n _ _ _ HX RX S) in R. destruct R as [_ ->].
    rewrite (scan_tok value_separator (lit ",") [] _ white_nil eq_refl Logic.I : scan (lit "," ++ _) = _) in E. apply (IH y OL HL _ _ _ _ E).
Qed.
Lemma members_only : forall l x, Forall (fun m => only (snd m)) (x :: l) -> Forall (fun m => held (snd m)) (x :: l) -> forall n a rest p,
  read_members n a (commas (map member_text (x :: l)) ++ lit "}" ++ rest) = Ok p -> Forall readable_member (x :: l).
Proof.
  assert (K : forall n a m tail p, only (snd m) -> held (snd m) -> stop tail -> read_members n a (member_text m ++ tail) = Ok p -> readable_member m /\
    exists n' a', match scan tail with (value_separator, s) => read_members n' a' s = Ok p | _ => True end).
  { intros n a m tail p OX HX S E. destruct n as [|n]; [unfold read_members in E; destruct (scan _); discriminate|]. rewrite read_member in E. unfold member_text in E. rewrite <- !app_assoc in E.
    destruct (scan (dump_str (fst m) ++ lit ":" ++ dump (snd m) ++ tail)) as [k r] eqn:KS. assert (N : k <> parse_error) by (intros ->; discriminate).
    destruct (scan_dump_str _ _ _ _ KS N) as [V ->]. destruct k; try discriminate.
    rewrite (scan_tok name_separator (lit ":") [] _ white_nil eq_refl Logic.I : scan (lit ":" ++ _) = _) in E.
    destruct (read n (dump (snd m) ++ tail)) as [[v r]|] eqn:R; [|discriminate]. cbn [bind] in E. assert (RX := OX HX _ _ _ S R). split; [split; assumption|].
    apply (read_rest (snd m) n _ _ _ HX RX S) in R. destruct R as [_ ->]. destruct (scan tail) as [[] r]; try (exists n, a; exact Logic.I). eexists n, _. exact E. }
  induction l as [|y l IH]; intros x O H n a rest p E; inversion O as [|? ? OX OL]; inversion H as [|? ? HX HL]; subst.
  - cbn [map commas] in E. apply K in E; [|exact OX|exact HX|apply stop_char; cbn; auto]. constructor; [apply E|constructor].
  - cbn [map] in E. rewrite commas_more, <- !app_assoc in E. apply K in E; [|exact OX|exact HX|apply stop_char; cbn; auto]. destruct E as (RX & n' & a' & E). constructor; [exact RX|].
    rewrite (scan_tok value_separator (lit ",") [] _ white_nil eq_refl Logic.I : scan (lit "," ++ _) = _) in E. apply (IH y OL HL _ _ _ _ E).
Qed.
Lemma only_readable : forall j, only j.
Proof.
  induction j as [|b|z|q|t|l IH|o IH] using json_induction; intros H n rest p S E; try exact Logic.I.
  - cbn [dump] in E. unfold read in E. rewrite (scan_tok (value_float (f15 q)) (print_double q) [] rest white_nil (print_double_tok q) S : scan (print_double q ++ rest) = _) in E.
    destruct n as [|n]; [discriminate|]. cbn [parse_internal] in E. destruct (Qle_bool (2 ^ 1024) (Qabs (f15 q))) eqn:O; [discriminate|].
    exists (f15 q). split; [apply f15_ok|]. apply Qnot_le_lt. intros X. apply Qle_bool_iff in X. congruence.
  - cbn [dump] in E. unfold read in E. destruct (scan (dump_str t ++ rest)) as [k r] eqn:K. apply (scan_dump_str t rest k r K). intros ->. destruct n; discriminate.
  - apply held_arr in H. apply readable_arr. destruct l as [|x l]; [constructor|].
    cbn [dump] in E. rewrite <- !app_assoc in E. destruct n as [|n]; [unfold read in E; destruct (scan _); discriminate|].
    unfold read in E. rewrite (scan_tok begin_array (lit "[") [] _ white_nil eq_refl Logic.I : scan (lit "[" ++ _) = _) in E. rewrite read_array in E.
    assert (N : fst (scan (commas (map dump (x :: l)) ++ lit "]" ++ rest)) <> end_array).
    { inversion H as [|? ? HX HL]; subst. destruct l as [|y l]; cbn [map]; [|rewrite commas_more, <- !app_assoc]; apply scan_head; try exact HX; apply stop_char; cbn; auto. }
    destruct (fst (scan (commas (map dump (x :: l)) ++ lit "]" ++ rest))); try (apply (elements_only l x IH H _ _ _ _ E)). contradiction N; reflexivity.
  - apply held_obj in H. destruct H as [_ H]. apply readable_obj. destruct o as [|x l]; [constructor|].
    rewrite dump_obj in E. rewrite <- !app_assoc in E. destruct n as [|n]; [unfold read in E; destruct (scan _); discriminate|].
    unfold read in E. rewrite (scan_tok begin_object (lit "{") [] _ white_nil eq_refl Logic.I : scan (lit "{" ++ _) = _) in E. rewrite read_object in E.
    assert (N : fst (scan (commas (map member_text (x :: l)) ++ lit "}" ++ rest)) <> end_object).
    { destruct l as [|y l]; cbn [map]; [|rewrite commas_more, <- !app_assoc]; unfold member_text at 1; cbn [commas]; rewrite <- !app_assoc; apply scan_str_head. }
    destruct (fst (scan (commas (map member_text (x :: l)) ++ lit "}" ++ rest))); try (apply (members_only l x IH H _ _ _ _ E)). contradiction N; reflexivity.
Qed.

(** * Whole texts *)
Lemma dump_ascii : forall j r, held j -> skip_mark (dump j ++ r) = dump j ++ r.
Proof.
  intros j r H.
  assert (A : exists c t, dump j ++ r = c :: t /\ code c < 128).
  { destruct j as [|b|z|q|t|l|o]; try (eexists _, _; split; [reflexivity|reflexivity]).
    - destruct b; eexists _, _; (split; [reflexivity|reflexivity]).
    - destruct (number_head (print_int z) (JInt z) (n_int _ _ (print_int_ok z) H)) as (c & t & E & L). cbn [dump]. rewrite E. exists c, (t ++ r). split; [reflexivity|exact L].
    - destruct (print_double_text q) as (neg & d & (i & ft & f & et & e & E & I & _) & _). cbn [dump]. rewrite E. apply int_part_digits in I. destruct I as [A N]. destruct neg; [eexists _, _; split; [reflexivity|reflexivity]|].
      destruct i as [|c i]; [contradiction|]. inversion A as [|? ? C _]; subst. apply is_digit_range in C. eexists c, _. split; [reflexivity|lia]. }
  destruct A as (c & t & -> & L). destruct t as [|b [|d t]]; try reflexivity. cbn [skip_mark]. destruct (Z.eqb_spec (code c) 239); [lia|reflexivity].
Qed.
Theorem text_written : forall j, held j -> readable j -> parse (gltf_text j) = Ok (through_text f15 j).
Proof.
  intros j H R. apply parse_exact. unfold gltf_text. replace (dump j ++ [char 10]) with ([] ++ [] ++ dump j ++ [char 10] ++ []) by (rewrite app_nil_r; reflexivity).
  constructor; [left; reflexivity|apply white_nil|apply written; assumption|constructor; [cbn; auto|constructor]|left; reflexivity].
Qed.
Theorem text_readable : forall j j', held j -> parse (gltf_text j) = Ok j' -> readable j.
Proof.
  intros j j' H E. rewrite parse_read in E. unfold gltf_text in E. rewrite dump_ascii in E by exact H. destruct (read _ (dump j ++ [char 10])) as [p|] eqn:R; [|discriminate].
  refine (only_readable j H _ [char 10] p _ R). apply stop_char; cbn; auto.
Qed.
