(** Reading numbers. *)
From Coq Require Import List Bool ZArith QArith Qabs Ascii String Lia.
From Verif.Base Require Import Py.
From Verif.Round Require Import Model Spec Rounding.
From Verif.Json Require Import Model Spec Strings.
Import ListNotations.
Local Open Scope Z_scope.

Definition all_digits (s : text) : Prop := Forall (fun c => is_digit c = true) s.

Lemma decdigit_ok : forall c v, decdigit c v -> is_digit c = true /\ code c - 48 = Z.of_nat v /\ (v < 10)%nat.
Proof.
  intros c v H. unfold decdigit in H.
  assert (L : (v < 10)%nat) by (assert (N : nth_error (lit "0123456789") v <> None) by (rewrite H; discriminate); apply nth_error_Some in N; exact N).
  split; [|split; [|exact L]]; do 10 (destruct v as [|v]; [injection H as <-; reflexivity|]); lia.
Qed.
Lemma is_digit_range : forall c, is_digit c = true -> 48 <= code c <= 57.
Proof. intros c H. apply andb_prop in H. destruct H as [A B]. apply Z.leb_le in A, B. lia. Qed.
Lemma digit_char_ok : forall z, 0 <= z < 10 -> is_digit (digit_char z) = true /\ code (digit_char z) = 48 + z.
Proof.
  intros z H. assert (C : code (digit_char z) = 48 + z).
  { unfold code, digit_char, char. rewrite nat_ascii_embedding by lia. lia. }
  split; [|exact C]. unfold is_digit. rewrite C. apply andb_true_intro. split; apply Z.leb_le; lia.
Qed.
Lemma digit_decdigit : forall c, is_digit c = true -> decdigit c (Z.to_nat (code c - 48)).
Proof.
  intros c H. apply is_digit_range in H. assert (E : c = char (code c)).
  { unfold char, code. rewrite Nat2Z.id, ascii_nat_embedding. reflexivity. }
  rewrite E at 1. assert (K : code c = 48 \/ code c = 49 \/ code c = 50 \/ code c = 51 \/ code c = 52 \/ code c = 53 \/ code c = 54 \/ code c = 55 \/ code c = 56 \/ code c = 57) by lia.
  repeat (destruct K as [K|K]; [rewrite K; reflexivity|]). rewrite K; reflexivity.
Qed.

Lemma value_fold : forall s a, fold_left (fun n c => n * 10 + (code c - 48)) s a = a * 10 ^ Z.of_nat (List.length s) + value_of s.
Proof.
  unfold value_of. induction s as [|c s IH]; intros a; [cbn; lia|]. cbn [fold_left List.length].
  rewrite IH, (IH (0 * 10 + (code c - 48))). rewrite Nat2Z.inj_succ, Z.pow_succ_r by lia. ring.
Qed.
Lemma value_app : forall a b, value_of (a ++ b) = value_of a * 10 ^ Z.of_nat (List.length b) + value_of b.
Proof. intros a b. unfold value_of at 1. rewrite fold_left_app. apply value_fold. Qed.
Lemma value_snoc : forall s c, value_of (s ++ [c]) = value_of s * 10 + (code c - 48).
Proof. intros s c. rewrite value_app. cbn. lia. Qed.
Lemma value_cons : forall c s, value_of (c :: s) = (code c - 48) * 10 ^ Z.of_nat (List.length s) + value_of s.
Proof. intros c s. change (c :: s) with ([c] ++ s). rewrite value_app. reflexivity. Qed.
Lemma value_bound : forall s, all_digits s -> 0 <= value_of s < 10 ^ Z.of_nat (List.length s).
Proof.
  intros s. induction s as [|c s IH] using rev_ind; intros A; [cbn; lia|].
  apply Forall_app in A. destruct A as [A C]. inversion C as [|? ? D _]; subst. apply is_digit_range in D.
  specialize (IH A). rewrite value_snoc, app_length, Nat.add_1_r, Nat2Z.inj_succ, Z.pow_succ_r by lia. lia.
Qed.
Lemma value_head : forall c s, all_digits (c :: s) -> c <> "0"%char -> 10 ^ Z.of_nat (List.length s) <= value_of (c :: s).
Proof.
  intros c s A N. inversion A as [|? ? D A']; subst. assert (B := value_bound s A'). apply is_digit_range in D.
  rewrite value_cons. assert (code c <> 48) by (intros E; apply N, code_inj; exact E). nia.
Qed.
Lemma value_unique : forall a b, all_digits a -> all_digits b -> List.length a = List.length b -> value_of a = value_of b -> a = b.
Proof.
  intros a. induction a as [|c a IH] using rev_ind; intros b A B L V.
  - destruct b; [reflexivity|discriminate].
  - destruct (exists_last (l := b)) as (b' & d & ->). { intros ->. rewrite app_length in L. cbn in L. lia. }
    apply Forall_app in A. apply Forall_app in B. destruct A as [A C], B as [B D]. inversion C as [|? ? C' _]; inversion D as [|? ? D' _]; subst.
    apply is_digit_range in C', D'. rewrite !value_snoc in V. rewrite !app_length in L. cbn in L.
    rewrite (IH b'); [|assumption|assumption|lia|lia]. f_equal. f_equal. apply code_inj. lia.
Qed.

Lemma numeral_value : forall s n, numeral s n -> all_digits s /\ value_of s = n.
Proof.
  intros s n H. induction H as [|s n c v H [A V] D]; [split; [constructor|reflexivity]|].
  apply decdigit_ok in D. destruct D as (I & C & _). split; [apply Forall_app; split; [exact A|constructor; [exact I|constructor]]|].
  rewrite value_snoc, V, C. lia.
Qed.
Lemma value_numeral : forall s, all_digits s -> numeral s (value_of s).
Proof.
  intros s. induction s as [|c s IH] using rev_ind; intros A; [constructor|].
  apply Forall_app in A. destruct A as [A C]. inversion C as [|? ? D _]; subst. rewrite value_snoc.
  assert (R := is_digit_range c D). replace (value_of s * 10 + (code c - 48)) with (10 * value_of s + Z.of_nat (Z.to_nat (code c - 48))) by lia.
  constructor; [apply IH, A|apply digit_decdigit, D].
Qed.

(** The head of a text. *)
Definition head_not (p : ascii -> bool) (s : text) : Prop := match s with [] => True | c :: _ => p c = false end.
Lemma span_ok : forall p a rest, Forall (fun c => p c = true) a -> head_not p rest -> span p (a ++ rest) = (a, rest).
Proof.
  intros p a rest A H. induction A as [|c a C A IH]; cbn [app].
  - destruct rest as [|d rest]; [reflexivity|]. cbn in *. rewrite H. reflexivity.
  - cbn [span]. rewrite C, IH. reflexivity.
Qed.
Lemma span_all : forall p a, Forall (fun c => p c = true) a -> span p a = (a, []).
Proof. intros p a A. rewrite <- (app_nil_r a) at 1. apply span_ok; [exact A|exact I]. Qed.

Lemma sign_digits : forall s rest, all_digits s -> s <> [] -> sign (s ++ rest) = (1, s ++ rest).
Proof.
  intros [|c s] rest A N; [contradiction|]. inversion A as [|? ? D _]; subst. apply is_digit_range in D. cbn [app sign].
  destruct (Ascii.eqb_spec c "-") as [->|]; [exfalso; change (code "-") with 45 in D; lia|].
  destruct (Ascii.eqb_spec c "+") as [->|]; [exfalso; change (code "+") with 43 in D; lia|]. reflexivity.
Qed.
Lemma sign_minus : forall neg s rest, all_digits s -> s <> [] ->
  sign (minus neg ++ s ++ rest) = ((if neg then -1 else 1), s ++ rest).
Proof. intros [] s rest A N; [reflexivity|]. cbn [minus app]. apply sign_digits; assumption. Qed.

Lemma int_part_digits : forall i, int_part i -> all_digits i /\ i <> [].
Proof. intros i (N & (n & H) & _). apply numeral_value in H. split; [apply H|exact N]. Qed.

Lemma loose_digits : forall ft f, loose_frac ft f -> all_digits f /\ (ft = [] /\ f = [] \/ ft = "."%char :: f).
Proof. intros ft f [|ds n H]; [split; [constructor|left; split; reflexivity]|]. apply numeral_value in H. split; [apply H|right; reflexivity]. Qed.
Lemma frac_loose : forall ft f, frac_part ft f -> loose_frac ft f.
Proof. intros ft f [|ds n N H]; [constructor|]. apply (lf_some ds n H). Qed.
Lemma sign_loose : forall neg i rest, all_digits i -> (neg = true \/ i <> []) -> sign (minus neg ++ i ++ rest) = ((if neg then -1 else 1), i ++ rest).
Proof. intros [] i rest A N; [reflexivity|]. destruct N as [|N]; [discriminate|]. cbn [minus app]. apply sign_digits; assumption. Qed.

Definition exponent_of (s : text) : option Z :=
  match s with
  | [] => Some 0
  | c :: s =>
      if Ascii.eqb c "e" || Ascii.eqb c "E" then
        let '(h, s) := sign s in
        match span is_digit s with
        | ((_ :: _) as ds, []) => Some (h * value_of ds)
        | _ => None
        end
      else None
  end.
Lemma exp_ok : forall et e, exp_part et e -> exponent_of et = Some e /\ head_not is_digit et /\
  (et = [] /\ e = 0 \/ exists c t, et = c :: t /\ Ascii.eqb c "." = false).
Proof.
  assert (K : forall ds, ds <> [] -> all_digits ds -> forall h, match span is_digit ds with ((_ :: _) as ds, []) => Some (h * value_of ds) | _ => None end = Some (h * value_of ds)).
  { intros ds N A h. rewrite span_all by exact A. destruct ds; [contradiction|reflexivity]. }
  intros et e [|mark plus ds n M P N H|mark ds n M N H].
  - split; [reflexivity|]. split; [exact I|]. left. split; reflexivity.
  - apply numeral_value in H. destruct H as [A V]. split.
    + destruct M as [<-|[<-|[]]]; cbn [lit list_ascii_of_string app exponent_of Ascii.eqb Bool.eqb orb];
      (destruct P as [<-|[<-|[]]]; cbn [lit list_ascii_of_string app]; [rewrite <- (app_nil_r ds) at 1; rewrite sign_digits by assumption; rewrite app_nil_r|cbn [sign Ascii.eqb Bool.eqb]];
       rewrite K by assumption; rewrite V; f_equal; lia).
    + destruct M as [<-|[<-|[]]]; (split; [reflexivity|]; right; eexists; eexists; split; [reflexivity|reflexivity]).
  - apply numeral_value in H. destruct H as [A V]. split.
    + destruct M as [<-|[<-|[]]]; cbn [lit list_ascii_of_string app exponent_of Ascii.eqb Bool.eqb orb sign];
        rewrite K by assumption; rewrite V; f_equal; lia.
    + destruct M as [<-|[<-|[]]]; (split; [reflexivity|]; right; eexists; eexists; split; [reflexivity|reflexivity]).
Qed.

Lemma decimal_text_ok : forall neg i ft f et e, all_digits i -> (neg = true \/ i <> []) -> i ++ f <> [] -> loose_frac ft f -> exp_part et e ->
  decimal_text (minus neg ++ i ++ ft ++ et) = Some (signed neg (value_of (i ++ f)), e - Z.of_nat (List.length f)).
Proof.
  intros neg i ft f et e A N NE F E. apply loose_digits in F. destruct F as [AF F].
  apply exp_ok in E. destruct E as (X & HX & C). unfold decimal_text. rewrite sign_loose by assumption.
  assert (SP : span is_digit (i ++ ft ++ et) = (i, ft ++ et)).
  { apply span_ok; [exact A|]. destruct F as [[-> ->]| ->]; [exact HX|reflexivity]. }
  rewrite SP.
  assert (S2 : match ft ++ et return text * text with c :: s' => if Ascii.eqb c "." then span is_digit s' else @pair text text [] (ft ++ et) | [] => @pair text text [] [] end = (f, et)).
  { destruct F as [[-> ->]| ->].
    - cbn [app]. destruct C as [[-> _]|(c & t & -> & C)]; [reflexivity|]. rewrite C. reflexivity.
    - cbn [app Ascii.eqb Bool.eqb]. apply span_ok; assumption. }
  cbv beta iota. unfold text in *. rewrite S2. destruct (i ++ f) as [|c m] eqn:M; [contradiction|]. rewrite <- M in *. clear c m M.
  replace ((if neg then -1 else 1) * value_of (i ++ f)) with (signed neg (value_of (i ++ f))) by (destruct neg; unfold signed; lia).
  unfold exponent_of in X. destruct et as [|c et].
  - injection X as <-. reflexivity.
  - destruct (Ascii.eqb c "e" || Ascii.eqb c "E"); [|discriminate]. destruct (sign et) as [h t].
    destruct (span is_digit t) as [[|d ds] [|y r]]; try discriminate. injection X as <-. reflexivity.
Qed.
Lemma strtoimax_int : forall neg i n, i <> [] -> numeral i n ->
  strtoimax (minus neg ++ i) = if (- 2 ^ 63 <=? signed neg n) && (signed neg n <? 2 ^ 63) then Some (signed neg n) else None.
Proof.
  intros neg i n N H. apply numeral_value in H. destruct H as [A V].
  unfold strtoimax. rewrite <- (app_nil_r i) at 1. rewrite sign_minus by assumption. rewrite app_nil_r, span_all by exact A.
  destruct i as [|c i]; [contradiction|]. rewrite V. replace ((if neg then -1 else 1) * n) with (signed neg n) by (destruct neg; unfold signed; lia). reflexivity.
Qed.
Lemma strtoimax_decimal : forall neg i ft f et e, all_digits i -> (neg = true \/ i <> []) -> loose_frac ft f -> exp_part et e -> ft ++ et <> [] ->
  strtoimax (minus neg ++ i ++ ft ++ et) = None.
Proof.
  intros neg i ft f et e A NI F E N. unfold strtoimax. rewrite sign_loose by assumption.
  assert (H : head_not is_digit (ft ++ et)).
  { apply loose_digits in F. destruct F as [_ [[-> _]| ->]]; [apply (exp_ok et e E)|reflexivity]. }
  rewrite (span_ok is_digit i (ft ++ et) A H). destruct i; [reflexivity|]. destruct (ft ++ et); [contradiction|reflexivity].
Qed.

Lemma digit_in_number : forall c, is_digit c = true -> in_number c = true.
Proof. intros c H. unfold in_number. rewrite H. reflexivity. Qed.
Lemma digits_in_number : forall s, all_digits s -> Forall (fun c => in_number c = true) s.
Proof. intros s A. eapply Forall_impl; [|exact A]. exact digit_in_number. Qed.
Lemma exp_chars : forall et e, exp_part et e -> Forall (fun c => in_number c = true) et.
Proof.
  intros et e E. destruct E as [|mark plus ds k M P2 _ H2|mark ds k M _ H2]; [constructor| |];
    apply numeral_value in H2; destruct H2 as [H2 _]; apply digits_in_number in H2.
  - destruct M as [<-|[<-|[]]]; (constructor; [reflexivity|]; destruct P2 as [<-|[<-|[]]]; [exact H2|constructor; [reflexivity|exact H2]]).
  - destruct M as [<-|[<-|[]]]; (constructor; [reflexivity|]; constructor; [reflexivity|exact H2]).
Qed.
Lemma loose_chars : forall s v, loose s v -> Forall (fun c => in_number c = true) s /\
  (exists c r, s = c :: r /\ (is_digit c = true \/ c = "-"%char)) /\ match v with JInt _ | JNum _ => True | _ => False end.
Proof.
  assert (MC : forall neg, Forall (fun c => in_number c = true) (minus neg)) by (intros []; repeat constructor).
  assert (HD : forall neg i t, all_digits i -> (neg = true \/ i <> []) -> exists c r, minus neg ++ i ++ t = c :: r /\ (is_digit c = true \/ c = "-"%char)).
  { intros [] i t A N; [eexists; eexists; split; [reflexivity|right; reflexivity]|]. destruct N as [|N]; [discriminate|]. destruct i as [|c i]; [contradiction|].
    inversion A; subst. eexists; eexists; split; [reflexivity|left; assumption]. }
  intros s v [neg i n N H R|neg i m ft f et e n q y HI N NE F E H O Q RT B Y].
  - apply numeral_value in H. destruct H as [A _]. split; [apply Forall_app; split; [apply MC|apply digits_in_number, A]|]. split; [|exact I].
    rewrite <- (app_nil_r i). apply HD; [exact A|right; exact N].
  - apply numeral_value in HI. destruct HI as [A _]. apply loose_digits in F. destruct F as [AF F]. split; [|split; [apply HD; assumption|exact I]].
    apply Forall_app. split; [apply MC|]. apply Forall_app. split; [apply digits_in_number, A|].
    apply Forall_app. split; [|apply (exp_chars et e E)]. destruct F as [[-> _]| ->]; [constructor|]. constructor; [reflexivity|apply digits_in_number, AF].
Qed.
Lemma integer_decimal : forall s z, integer s z -> decimal_number s (inject_Z z).
Proof.
  intros s z [neg i n P H]. rewrite <- (app_nil_r i) at 1. apply (decimal_intro neg i [] [] [] 0 n); try assumption.
  - constructor. - constructor. - rewrite app_nil_r. exact H.
  - cbn [List.length]. change (10 ^ (0 - Z.of_nat 0))%Q with 1%Q. ring.
Qed.

Lemma stop_in_number : forall s, stop s -> head_not in_number s.
Proof.
  intros [|c s] H; [exact I|]. cbn in *. destruct (in_number c) eqn:E; [|reflexivity]. exfalso. apply H. unfold in_number in E.
  repeat (apply orb_prop in E; destruct E as [E|E]); try (apply Ascii.eqb_eq in E; subst c; cbn; repeat (try (left; reflexivity); right); fail).
  apply digit_decdigit, nth_error_In in E. cbn in E |- *. intuition.
Qed.

Lemma round_red : forall x, Qred (round x) = round x.
Proof. intros x. unfold round. destruct (Qeq_bool x 0); [reflexivity|]. apply Qred_complete, Qred_correct. Qed.
Lemma ten_power : forall e, ten e = (10 ^ e)%Q.
Proof. reflexivity. Qed.

Lemma strtod_ok : forall neg i m ft f et e n q, numeral i m -> (neg = true \/ i <> []) -> i ++ f <> [] -> loose_frac ft f -> exp_part et e -> numeral (i ++ f) n ->
  (q == inject_Z (signed neg n) * 10 ^ (e - Z.of_nat (List.length f)))%Q -> exists x, rounds_to q x /\ Qred x = x /\
  strtod (minus neg ++ i ++ ft ++ et) = Some (if Qle_bool (2 ^ 1024) (Qabs x) then Err OverflowError else Ok x).
Proof.
  intros neg i m ft f et e n q HI N NE F E H Q. apply numeral_value in HI. destruct HI as [A _]. unfold strtod. rewrite (decimal_text_ok neg i ft f et e A N NE F E).
  apply numeral_value in H. destruct H as [_ V]. rewrite V. eexists. split; [|split; [|reflexivity]]; [|apply round_red].
  apply rounds_to_eq. apply round_wd. rewrite ten_power. symmetry. exact Q.
Qed.
Lemma strtoimax_out : forall neg i m ft f et e n, numeral i m -> (neg = true \/ i <> []) -> i ++ f <> [] -> loose_frac ft f -> exp_part et e -> numeral (i ++ f) n ->
  (ft ++ et = [] -> ~ int64 (signed neg n)) -> strtoimax (minus neg ++ i ++ ft ++ et) = None.
Proof.
  intros neg i m ft f et e n HI N NE F E H O. destruct (ft ++ et) as [|c t] eqn:T.
  - assert (F0 : ft = []) by (destruct ft; [reflexivity|discriminate]). assert (E0 : et = []) by (destruct et; [reflexivity|destruct ft; discriminate]).
    subst ft et. assert (f = []) by (apply loose_digits in F; destruct F as [_ [[_ F]|F]]; [exact F|discriminate]). subst f. rewrite app_nil_r in *.
    rewrite (strtoimax_int neg i n NE H). destruct (_ && _) eqn:B; [|reflexivity]. exfalso. apply (O eq_refl).
    apply andb_prop in B. destruct B as [B1 B2]. apply Z.leb_le in B1. apply Z.ltb_lt in B2. split; assumption.
  - rewrite <- T. apply numeral_value in HI. apply (strtoimax_decimal neg i ft f et e); try assumption; [apply HI|]. rewrite T. discriminate.
Qed.
Lemma parse_loose : forall s v out rest, loose s v -> stop rest -> parse_number out (s ++ rest) = Ok (v, Some rest).
Proof.
  intros s v out rest L ST. unfold parse_number. rewrite (span_ok in_number s rest); [|apply (loose_chars s v L)|apply stop_in_number, ST].
  destruct L as [neg i n N H R|neg i m ft f et e n q y HI N NE F E H O Q RT B Y].
  - rewrite (strtoimax_int neg i n N H). destruct R as [R1 R2]. apply Z.leb_le in R1. apply Z.ltb_lt in R2. rewrite R1, R2. reflexivity.
  - rewrite (strtoimax_out neg i m ft f et e n) by assumption. destruct (strtod_ok neg i m ft f et e n q) as (x & RX & X & ->); try assumption.
    assert (EQ : x = y). { rewrite <- X, <- Y. apply Qred_complete. apply (rounds_unique q q); [reflexivity|exact RX|exact RT]. }
    subst x. destruct (Qle_bool (2 ^ 1024) (Qabs y)) eqn:C; [|reflexivity]. apply Qle_bool_iff in C. exfalso. apply (Qlt_not_le _ _ B C).
Qed.
Lemma strict_loose : forall s v, strict s v -> loose s v.
Proof.
  intros s v [s' z H R|s' q y H O RT B Y].
  - destruct H as [neg i n (N & _) H]. apply l_int; assumption.
  - destruct H as [neg i ft f et e n q' (N & (m & M) & P) F E H Q].
    apply (l_num neg i m ft f et e n q'); try assumption; [right; exact N|destruct i; [contradiction|discriminate]|apply frac_loose, F|].
    intros T. apply app_eq_nil in T. destruct T as [-> ->]. inversion F; subst f. rewrite app_nil_r in H. apply O. rewrite !app_nil_r.
    constructor; [|exact H]. split; [exact N|]. split; [exists m; exact M|exact P].
Qed.
