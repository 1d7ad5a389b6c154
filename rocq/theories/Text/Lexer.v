(** Numbers and tokens. *)
From Coq Require Import List Bool ZArith QArith Qabs Ascii String Lia.
From Verif.Base Require Import Py.
From Verif.Round Require Import Model Spec Rounding.
From Verif.Json Require Import Spec.
From Verif.Json Require Import Model Numbers.
From Verif.Json Require Strings Sound Grammar.
From Verif.Doc Require Import Model.
From Verif.Text Require Import Model Spec Strings.
Import ListNotations.
Local Open Scope Z_scope.

(** * The automaton accepts numbers *)
Lemma stop_step : forall l rest c r, stop rest -> rest = c :: r -> step l c = None.
Proof.
  intros l rest c r S ->. apply stop_in_number in S. cbn in S. unfold in_number in S.
  repeat (apply orb_false_iff in S; destruct S as [S ?]).
  assert (Ascii.eqb c "0" = false) by (destruct (Ascii.eqb_spec c "0") as [->|_]; [discriminate S|reflexivity]).
  destruct l; cbn [step]; unfold nonzero, is_mark;
    repeat match goal with H : ?x = false |- context [?x] => rewrite H end; reflexivity.
Qed.
Lemma run_stop : forall l t rest, stop rest -> may_end l = true -> run l t rest = Some ([], type_at l t, rest).
Proof.
  intros l t rest S M. destruct rest as [|c r]; cbn [run]; rewrite M; [reflexivity|]. rewrite (stop_step l (c :: r) c r S eq_refl). reflexivity.
Qed.
Lemma run_step : forall l t c s l' a t' r, step l c = Some l' -> run l' (type_at l t) s = Some (a, t', r) -> run l t (c :: s) = Some (c :: a, t', r).
Proof. intros l t c s l' a t' r S R. cbn [run]. rewrite S, R. reflexivity. Qed.
Lemma digit_not : forall c d, is_digit c = true -> is_digit d = false -> Ascii.eqb c d = false.
Proof. intros c d C D. destruct (Ascii.eqb_spec c d) as [->|]; [congruence|reflexivity]. Qed.

Lemma run_any2 : forall ds t rest, all_digits ds -> stop rest -> run any2 t (ds ++ rest) = Some (ds, t, rest).
Proof.
  intros ds t rest A S. induction A as [|c ds C A IH]; [apply (run_stop any2); [exact S|reflexivity]|].
  apply (run_step any2 t c _ any2); [cbn; rewrite C; reflexivity|exact IH].
Qed.
Definition after_exp (et : text) (t : number_type) : number_type := match et with [] => t | _ => is_float end.
Lemma run_exp : forall l t et e rest, (l = zero \/ l = any1 \/ l = decimal2) -> exp_part et e -> stop rest ->
  run l t (et ++ rest) = Some (et, after_exp et t, rest).
Proof.
  intros l t et e rest L E S.
  assert (TY : type_at l t = t) by (destruct L as [->|[->| ->]]; reflexivity). assert (ME : may_end l = true) by (destruct L as [->|[->| ->]]; reflexivity).
  assert (MK : forall mark s a t' r, In mark [lit "e"; lit "E"] -> run exponent_mark t s = Some (a, t', r) -> run l t (mark ++ s) = Some (mark ++ a, t', r)).
  { intros mark s a t' r I R. destruct I as [<-|[<-|[]]]; (apply (run_step l t _ s exponent_mark); [destruct L as [->|[->| ->]]; reflexivity|rewrite TY; exact R]). }
  assert (DG : forall ds, ds <> [] -> all_digits ds -> run exponent_mark t (ds ++ rest) = Some (ds, is_float, rest)).
  { intros [|c ds] N A; [contradiction|]. inversion A as [|? ? C A']; subst. apply (run_step exponent_mark t c _ any2); [|apply run_any2; assumption].
    cbn [step]. rewrite !(digit_not c) by (exact C || reflexivity). rewrite C. reflexivity. }
  assert (SG : forall c ds, (c = "+"%char \/ c = "-"%char) -> ds <> [] -> all_digits ds -> run exponent_mark t (c :: ds ++ rest) = Some (c :: ds, is_float, rest)).
  { intros c [|d ds] P N A; [contradiction|]. inversion A as [|? ? C A']; subst. apply (run_step exponent_mark t c _ sign_mark); [destruct P as [->| ->]; reflexivity|].
    apply (run_step sign_mark _ d _ any2); [cbn [step]; rewrite C; reflexivity|apply run_any2; assumption]. }
  destruct E as [|mark plus ds n M P N H|mark ds n M N H].
  - cbn [app after_exp]. rewrite (run_stop l t rest S ME), TY. reflexivity.
  - apply numeral_value in H. destruct H as [A _]. replace (after_exp (mark ++ plus ++ ds) t) with is_float by (destruct M as [<-|[<-|[]]]; reflexivity).
    rewrite <- !app_assoc. apply MK; [exact M|]. destruct P as [<-|[<-|[]]]; [apply DG; assumption|apply SG; [left; reflexivity|exact N|exact A]].
  - apply numeral_value in H. destruct H as [A _]. replace (after_exp (mark ++ lit "-" ++ ds) t) with is_float by (destruct M as [<-|[<-|[]]]; reflexivity).
    rewrite <- !app_assoc. apply MK; [exact M|]. apply SG; [right; reflexivity|exact N|exact A].
Qed.
Lemma run_frac : forall l t ft f et e rest, (l = zero \/ l = any1) -> frac_part ft f -> exp_part et e -> stop rest ->
  run l t ((ft ++ et) ++ rest) = Some (ft ++ et, after_exp (ft ++ et) t, rest).
Proof.
  intros l t ft f et e rest L F E S. assert (TY : type_at l t = t) by (destruct L as [->| ->]; reflexivity).
  destruct F as [|ds n N H]; [apply (run_exp l t et e); intuition|]. apply numeral_value in H. destruct H as [A _]. rewrite <- !app_assoc.
  change (after_exp (lit "." ++ ds ++ et) t) with is_float. apply (run_step l t "."%char (ds ++ et ++ rest) decimal1); [destruct L as [->| ->]; reflexivity|]. rewrite TY.
  assert (D2 : forall ds, all_digits ds -> run decimal2 is_float (ds ++ et ++ rest) = Some (ds ++ et, is_float, rest)).
  { clear - E S. intros ds A. induction A as [|c ds C A IH].
    - cbn [app]. rewrite (run_exp decimal2 is_float et e) by (auto || exact E || exact S). destruct et; reflexivity.
    - apply (run_step decimal2 is_float c _ decimal2); [cbn [step]; rewrite C; reflexivity|exact IH]. }
  destruct ds as [|d ds]; [contradiction|]. inversion A as [|? ? C A']; subst. apply (run_step decimal1 t d _ decimal2); [cbn [step]; rewrite C; reflexivity|]. apply D2, A'.
Qed.
Definition scan_type (neg : bool) (x : text) : number_type := after_exp x (if neg then is_integer else is_unsigned).
Lemma scan_number_ok : forall neg i ft f et e rest, int_part i -> frac_part ft f -> exp_part et e -> stop rest ->
  exists c s, Json.Spec.minus neg ++ i ++ ft ++ et = c :: s /\ (is_digit c = true \/ c = "-"%char) /\
  scan_number c (s ++ rest) = (number_of (c :: s) (scan_type neg (ft ++ et)), rest).
Proof.
  intros neg i ft f et e rest I F E S. destruct (int_part_digits i I) as [A N]. destruct I as (_ & _ & Z).
  assert (R1 : forall ds t, all_digits ds -> run any1 t (ds ++ (ft ++ et) ++ rest) = Some (ds ++ ft ++ et, after_exp (ft ++ et) t, rest)).
  { intros ds t D. induction D as [|c ds C D IH]; [apply (run_frac any1 t ft f et e); auto|]. apply (run_step any1 t c _ any1); [cbn [step]; rewrite C; reflexivity|exact IH]. }
  assert (RZ : forall t, run zero t ((ft ++ et) ++ rest) = Some (ft ++ et, after_exp (ft ++ et) t, rest)) by (intros t; apply (run_frac zero t ft f et e); auto).
  destruct i as [|d i]; [contradiction|]. inversion A as [|? ? D A']; subst.
  assert (HD : d = "0"%char /\ i = [] \/ d <> "0"%char).
  { destruct Z as [Z|Z]; [injection Z as -> ->; left; split; reflexivity|right; apply (Z d i eq_refl)]. }
  destruct neg; cbn [Json.Spec.minus].
  - exists "-"%char, ((d :: i) ++ ft ++ et). split; [reflexivity|]. split; [right; reflexivity|]. unfold scan_number. cbn [Ascii.eqb Bool.eqb].
    assert (R : run minus is_unsigned (((d :: i) ++ ft ++ et) ++ rest) = Some ((d :: i) ++ ft ++ et, after_exp (ft ++ et) is_integer, rest)).
    { rewrite <- app_assoc. destruct HD as [[-> ->]|ND].
      - apply (run_step minus is_unsigned "0"%char ((ft ++ et) ++ rest) zero); [reflexivity|apply RZ].
      - apply (run_step minus is_unsigned d (i ++ (ft ++ et) ++ rest) any1); [|apply R1, A']. cbn [step]. destruct (Ascii.eqb_spec d "0"); [contradiction|].
        unfold nonzero. rewrite D. destruct (Ascii.eqb_spec d "0"); [contradiction|reflexivity]. }
    rewrite R. reflexivity.
  - exists d, (i ++ ft ++ et). split; [reflexivity|]. split; [left; exact D|]. unfold scan_number. rewrite (digit_not d "-" D eq_refl).
    destruct HD as [[-> ->]|ND].
    + change (Ascii.eqb "0" "0") with true. cbv iota. cbn [app]. rewrite RZ. reflexivity.
    + destruct (Ascii.eqb_spec d "0"); [contradiction|]. rewrite <- app_assoc, R1 by exact A'. reflexivity.
Qed.

(** * What it accepts are numbers *)
Definition lang (l : label) (a : text) (t t' : number_type) : Prop :=
  match l with
  | any2 => all_digits a /\ t' = t
  | sign_mark => a <> [] /\ all_digits a /\ t' = t
  | exponent_mark => (exists e, exp_part (lit "e" ++ a) e /\ exp_part (lit "E" ++ a) e) /\ t' = is_float
  | decimal2 => exists ds et e, a = ds ++ et /\ all_digits ds /\ exp_part et e /\ t' = after_exp et t
  | decimal1 => exists ds et e, a = ds ++ et /\ ds <> [] /\ all_digits ds /\ exp_part et e /\ t' = is_float
  | zero => exists ft f et e, a = ft ++ et /\ frac_part ft f /\ exp_part et e /\ t' = after_exp (ft ++ et) t
  | any1 => exists ds ft f et e, a = ds ++ ft ++ et /\ all_digits ds /\ frac_part ft f /\ exp_part et e /\ t' = after_exp (ft ++ et) t
  | minus => exists i ft f et e, a = i ++ ft ++ et /\ int_part i /\ frac_part ft f /\ exp_part et e /\ t' = after_exp (ft ++ et) is_integer
  end.
Lemma int_part_intro : forall c ds, is_digit c = true -> c <> "0"%char -> all_digits ds -> int_part (c :: ds).
Proof.
  intros c ds C N A. split; [discriminate|]. split; [exists (value_of (c :: ds)); apply value_numeral; constructor; assumption|].
  right. intros d s E. injection E as <- _. exact N.
Qed.
Lemma int_part_zero : int_part (lit "0").
Proof. split; [discriminate|]. split; [exists 0; apply (n_snoc [] 0 "0"%char 0%nat n_nil); reflexivity|left; reflexivity]. Qed.
Lemma run_sound : forall s l t a t' r, run l t s = Some (a, t', r) -> s = a ++ r /\ lang l a t t'.
Proof.
  assert (E0 : forall l t, may_end l = true -> lang l [] t (type_at l t)).
  { intros [] t M; try discriminate M; cbn [lang type_at].
    - exists [], [], [], 0. split; [reflexivity|]. split; [constructor|]. split; [constructor|reflexivity].
    - exists [], [], [], [], 0. split; [reflexivity|]. split; [constructor|]. split; [constructor|]. split; [constructor|reflexivity].
    - exists [], [], 0. split; [reflexivity|]. split; [constructor|]. split; [constructor|reflexivity].
    - split; [constructor|reflexivity]. }
  induction s as [|c s IH]; intros l t a t' r H; cbn [run] in H.
  - destruct (may_end l) eqn:M; [|discriminate]. injection H as <- <- <-. split; [reflexivity|apply E0, M].
  - destruct (step l c) as [l'|] eqn:ST.
    + destruct (run l' (type_at l t) s) as [[[a' t2] r']|] eqn:R; [|discriminate]. injection H as <- <- <-. apply IH in R. destruct R as [-> R]. split; [reflexivity|].
      assert (MK : is_mark c = true -> [c] = lit "e" \/ [c] = lit "E").
      { intros M. apply orb_prop in M. destruct M as [M|M]; apply Ascii.eqb_eq in M; subst c; [left|right]; reflexivity. }
      assert (EX : is_mark c = true -> forall t1, lang exponent_mark a' t1 t2 -> exists e, exp_part (c :: a') e /\ t2 = is_float).
      { intros M t1 ((e & X1 & X2) & ->). exists e. split; [|reflexivity]. destruct (MK M) as [K|K]; injection K as ->; assumption. }
      assert (DC : lang decimal1 a' (type_at l t) t2 -> exists ft f et e, "."%char :: a' = ft ++ et /\ frac_part ft f /\ exp_part et e /\ t2 = after_exp (ft ++ et) t).
      { intros (ds & et & e & -> & N & A & X & ->). exists (lit "." ++ ds), ds, et, e. split; [reflexivity|]. split; [apply (f_some ds (value_of ds) N), value_numeral, A|]. split; [exact X|reflexivity]. }
      destruct l; cbn [step] in ST.
      * destruct (Ascii.eqb_spec c "0") as [->|NZ].
        -- injection ST as <-. destruct R as (ft & f & et & e & -> & F & X & ->). exists (lit "0"), ft, f, et, e. split; [reflexivity|]. split; [exact int_part_zero|]. split; [exact F|]. split; [exact X|reflexivity].
        -- unfold nonzero in ST. destruct (is_digit c) eqn:D; [|discriminate]. destruct (Ascii.eqb_spec c "0"); [contradiction|]. injection ST as <-.
           destruct R as (ds & ft & f & et & e & -> & A & F & X & ->). exists (c :: ds), ft, f, et, e. split; [reflexivity|]. split; [apply int_part_intro; assumption|]. split; [exact F|]. split; [exact X|reflexivity].
      * destruct (Ascii.eqb_spec c ".") as [->|].
        -- injection ST as <-. apply DC, R.
        -- destruct (is_mark c) eqn:M; [|discriminate]. injection ST as <-. destruct (EX eq_refl _ R) as (e & X & ->). exists [], [], (c :: a'), e. split; [reflexivity|]. split; [constructor|]. split; [exact X|reflexivity].
      * destruct (is_digit c) eqn:D; [|destruct (Ascii.eqb_spec c ".") as [->|]].
        -- injection ST as <-. destruct R as (ds & ft & f & et & e & -> & A & F & X & ->). exists (c :: ds), ft, f, et, e. split; [reflexivity|]. split; [constructor; assumption|]. split; [exact F|]. split; [exact X|reflexivity].
        -- injection ST as <-. destruct (DC R) as (ft & f & et & e & K & F & X & T). exists [], ft, f, et, e. split; [exact K|]. split; [constructor|]. split; [exact F|]. split; [exact X|exact T].
        -- destruct (is_mark c) eqn:M; [|discriminate]. injection ST as <-. destruct (EX eq_refl _ R) as (e & X & ->). exists [], [], [], (c :: a'), e. split; [reflexivity|]. split; [constructor|]. split; [constructor|]. split; [exact X|reflexivity].
      * destruct (is_digit c) eqn:D; [|discriminate]. injection ST as <-. destruct R as (ds & et & e & -> & A & X & ->). exists (c :: ds), et, e. split; [reflexivity|]. split; [discriminate|]. split; [constructor; assumption|]. split; [exact X|destruct et; reflexivity].
      * destruct (is_digit c) eqn:D.
        -- injection ST as <-. destruct R as (ds & et & e & -> & A & X & ->). exists (c :: ds), et, e. split; [reflexivity|]. split; [constructor; assumption|]. split; [exact X|reflexivity].
        -- destruct (is_mark c) eqn:M; [|discriminate]. injection ST as <-. destruct (EX eq_refl _ R) as (e & X & ->). exists [], (c :: a'), e. split; [reflexivity|]. split; [constructor|]. split; [exact X|reflexivity].
      * destruct (Ascii.eqb c "+" || Ascii.eqb c "-") eqn:P; [|destruct (is_digit c) eqn:D; [|discriminate]].
        -- injection ST as <-. destruct R as (N & A & ->). split; [|reflexivity]. assert (V := value_numeral a' A). apply orb_prop in P. destruct P as [P|P]; apply Ascii.eqb_eq in P; subst c.
           ++ exists (value_of a'). split; [apply (x_plus (lit "e") (lit "+") a')|apply (x_plus (lit "E") (lit "+") a')]; cbn; auto.
           ++ exists (- value_of a'). split; [apply (x_minus (lit "e") a')|apply (x_minus (lit "E") a')]; cbn; auto.
        -- injection ST as <-. destruct R as (A & ->). split; [|reflexivity]. assert (V := value_numeral (c :: a') (Forall_cons c D A)).
           exists (value_of (c :: a')). split; [apply (x_plus (lit "e") [] (c :: a'))|apply (x_plus (lit "E") [] (c :: a'))]; cbn; auto; discriminate.
      * destruct (is_digit c) eqn:D; [|discriminate]. injection ST as <-. destruct R as (A & ->). split; [discriminate|]. split; [constructor; assumption|reflexivity].
      * destruct (is_digit c) eqn:D; [|discriminate]. injection ST as <-. destruct R as (A & ->). split; [constructor; assumption|reflexivity].
    + destruct (may_end l) eqn:M; [|discriminate]. injection H as <- <- <-. split; [reflexivity|apply E0, M].
Qed.
Lemma scan_number_sound : forall c s t r, scan_number c s = (t, r) -> (is_digit c = true \/ c = "-"%char) ->
  t = parse_error \/ exists neg i ft f et e, c :: s = (Json.Spec.minus neg ++ i ++ ft ++ et) ++ r /\ int_part i /\ frac_part ft f /\ exp_part et e /\
    t = number_of (Json.Spec.minus neg ++ i ++ ft ++ et) (scan_type neg (ft ++ et)).
Proof.
  intros c s t r H D. unfold scan_number in H.
  destruct (run _ is_unsigned s) as [[[a t'] r']|] eqn:R; [|injection H as <- <-; left; reflexivity]. injection H as <- <-. right. apply run_sound in R. destruct R as [-> R].
  destruct (Ascii.eqb_spec c "-") as [->|NM].
  - destruct R as (i & ft & f & et & e & -> & I & F & X & ->). exists true, i, ft, f, et, e. split; [reflexivity|]. split; [exact I|]. split; [exact F|]. split; [exact X|reflexivity].
  - destruct D as [D|D]; [|contradiction]. destruct (Ascii.eqb_spec c "0") as [->|NZ].
    + destruct R as (ft & f & et & e & -> & F & X & ->). exists false, (lit "0"), ft, f, et, e. split; [reflexivity|]. split; [exact int_part_zero|]. split; [exact F|]. split; [exact X|reflexivity].
    + destruct R as (ds & ft & f & et & e & -> & A & F & X & ->). exists false, (c :: ds), ft, f, et, e. split; [reflexivity|]. split; [apply int_part_intro; assumption|]. split; [exact F|]. split; [exact X|reflexivity].
Qed.

(** * The value *)
Definition float_text (x : text) (q : Q) : Prop :=
  exists d, decimal_number x d /\ (forall z, integer x z -> ~ int65 z) /\ rounds_to d q /\ Qred q = q.
Lemma integer_sign : forall x z, integer x z -> (let '(g, ds) := sign x in g * value_of ds) = z.
Proof.
  intros x z [neg i n I H]. destruct (int_part_digits i I) as [A N]. apply numeral_value in H. destruct H as [_ <-].
  rewrite <- (app_nil_r i) at 1. rewrite sign_minus by assumption. rewrite app_nil_r. destruct neg; unfold signed; lia.
Qed.
Lemma plain_integer : forall neg i ft f et e, int_part i -> frac_part ft f -> exp_part et e -> ft ++ et = [] -> integer (Json.Spec.minus neg ++ i ++ ft ++ et) (signed neg (value_of i)).
Proof. intros neg i ft f et e I F X E. rewrite E, app_nil_r. constructor; [exact I|]. apply value_numeral, int_part_digits, I. Qed.
Lemma float_of_ok : forall neg i ft f et e n, int_part i -> frac_part ft f -> exp_part et e -> numeral (i ++ f) n ->
  float_of (Json.Spec.minus neg ++ i ++ ft ++ et) = value_float (round (inject_Z (signed neg n) * ten (e - Z.of_nat (List.length f)))).
Proof.
  intros neg i ft f et e n I F X H. destruct (int_part_digits i I) as [A N]. apply numeral_value in H. destruct H as [_ <-]. unfold float_of.
  rewrite (decimal_text_ok neg i ft f et e); [reflexivity|exact A|right; exact N|destruct i; [contradiction|discriminate]|apply frac_loose, F|exact X].
Qed.
Lemma dot_in : forall neg i ft f et e, int_part i -> frac_part ft f -> exp_part et e -> ft ++ et <> [] -> existsb (fun c => Ascii.eqb c "." || is_mark c) (Json.Spec.minus neg ++ i ++ ft ++ et) = true.
Proof.
  intros neg i ft f et e I F X N. rewrite !existsb_app. destruct F as [|ds n ND H]; [|rewrite !orb_true_r; reflexivity].
  destruct X as [|mark plus ds n M P ND H|mark ds n M ND H]; [contradiction| |]; destruct M as [<-|[<-|[]]]; rewrite !orb_true_r; reflexivity.
Qed.
Lemma integer_no_dot : forall x z, integer x z -> existsb (fun c => Ascii.eqb c "." || is_mark c) x = false.
Proof.
  intros x z [neg i n I H]. apply int_part_digits in I. destruct I as [A _]. rewrite existsb_app. apply orb_false_iff. split; [destruct neg; reflexivity|].
  clear H. induction A as [|c i C A IH]; [reflexivity|]. cbn [existsb]. rewrite IH. unfold is_mark. rewrite !(digit_not c) by (exact C || reflexivity). reflexivity.
Qed.
Lemma number_of_ok : forall neg i ft f et e, int_part i -> frac_part ft f -> exp_part et e ->
  let x := Json.Spec.minus neg ++ i ++ ft ++ et in
  (exists z, number_of x (scan_type neg (ft ++ et)) = value_int z /\ integer x z /\ int65 z) \/
  (exists q, number_of x (scan_type neg (ft ++ et)) = value_float q /\ float_text x q).
Proof.
  intros neg i ft f et e I F X x. destruct (int_part_digits i I) as [A N].
  assert (AF : all_digits f) by (apply frac_loose, loose_digits in F; apply F).
  assert (H : numeral (i ++ f) (value_of (i ++ f))) by (apply value_numeral, Forall_app; split; assumption).
  assert (FO := float_of_ok neg i ft f et e _ I F X H). fold x in FO.
  set (q := round (inject_Z (signed neg (value_of (i ++ f))) * ten (e - Z.of_nat (List.length f)))) in FO.
  assert (DN : decimal_number x (inject_Z (signed neg (value_of (i ++ f))) * ten (e - Z.of_nat (List.length f)))) by (apply (decimal_intro neg i ft f et e (value_of (i ++ f))); try assumption; reflexivity).
  assert (FT : (forall z, integer x z -> ~ int65 z) -> float_text x q).
  { intros K. eexists. split; [exact DN|]. split; [exact K|]. split; [apply round_ok|apply round_red]. }
  assert (IN := plain_integer neg i ft f et e I F X). assert (D := dot_in neg i ft f et e I F X). fold x in IN, D. clearbody x.
  destruct (ft ++ et) as [|d l].
  - specialize (IN eq_refl).
    assert (S := integer_sign x _ IN). unfold scan_type, after_exp, number_of. destruct (sign x) as [g ds]. rewrite S.
    assert (B := value_bound i A). assert (U : forall z, integer x z -> z = signed neg (value_of i)).
    { intros z Z. apply integer_sign in Z. assert (Z' := integer_sign x _ IN). destruct (sign x). congruence. }
    destruct neg; cbn [signed] in *.
    + destruct (Z.leb_spec (- 2 ^ 63) (- value_of i)) as [L|L].
      * left. eexists. split; [reflexivity|]. split; [exact IN|]. unfold int65. lia.
      * right. exists q. split; [exact FO|]. apply FT. intros z Z. apply U in Z. unfold int65. lia.
    + destruct (Z.ltb_spec (value_of i) (2 ^ 64)) as [L|L].
      * left. eexists. split; [reflexivity|]. split; [exact IN|]. unfold int65. lia.
      * right. exists q. split; [exact FO|]. apply FT. intros z Z. apply U in Z. unfold int65. lia.
  - right. exists q. split; [unfold number_of; destruct (sign x); exact FO|]. apply FT. intros z Z. exfalso. apply integer_no_dot in Z.
    specialize (D ltac:(discriminate)). congruence.
Qed.

(** * Tokens *)
Definition tok (t : token) (x : text) : Prop :=
  match t with
  | begin_array => x = lit "[" | end_array => x = lit "]" | begin_object => x = lit "{" | end_object => x = lit "}"
  | name_separator => x = lit ":" | value_separator => x = lit ","
  | literal_true => x = lit "true" | literal_false => x = lit "false" | literal_null => x = lit "null"
  | value_string y => exists s, x = lit """" ++ s ++ lit """" /\ chars s y
  | value_int z => integer x z /\ int65 z
  | value_float q => float_text x q
  | end_of_input | parse_error => False
  end.
Definition follows (t : token) (rest : text) : Prop := match t with value_int _ | value_float _ => stop rest | _ => True end.
Lemma scan_white : forall w s, white w -> scan (w ++ s) = scan s.
Proof. intros w s W. induction W as [|c w C W IH]; [reflexivity|]. apply Grammar.blank_ok in C. cbn [app scan]. rewrite C. exact IH. Qed.
Lemma match_prefix : forall p r, match_text p (p ++ r) = Some r.
Proof. induction p as [|c p IH]; intros r; [reflexivity|]. cbn. rewrite Ascii.eqb_refl. apply IH. Qed.
Lemma match_sound : forall p s r, match_text p s = Some r -> s = p ++ r.
Proof.
  induction p as [|c p IH]; intros s r H; cbn in H; [injection H as ->; reflexivity|]. destruct s as [|d s]; [discriminate|].
  destruct (Ascii.eqb_spec d c) as [->|]; [|discriminate]. apply IH in H. subst s. reflexivity.
Qed.
Lemma scan_digit : forall c s, (is_digit c = true \/ c = "-"%char) -> scan (c :: s) = scan_number c s.
Proof.
  intros c s D. destruct (Grammar.digit_opening c D) as [B _]. cbn [scan]. rewrite B.
  assert (X : Ascii.eqb c "-" || is_digit c = true) by (destruct D as [->| ->]; [apply orb_true_r|reflexivity]).
  assert (N : forall d, is_digit d = false -> d <> "-"%char -> Ascii.eqb c d = false).
  { intros d D' M. destruct (Ascii.eqb_spec c d) as [->|]; [|reflexivity]. destruct D as [D| ->]; [congruence|contradiction]. }
  rewrite !N by (reflexivity || discriminate). rewrite X. reflexivity.
Qed.
Lemma integer_parts : forall x z, integer x z -> exists neg i, x = Json.Spec.minus neg ++ i ++ [] ++ [] /\ int_part i.
Proof. intros x z [neg i n I H]. exists neg, i. rewrite !app_nil_r. split; [reflexivity|exact I]. Qed.
Lemma float_parts : forall x q, float_text x q -> exists neg i ft f et e, x = Json.Spec.minus neg ++ i ++ ft ++ et /\ int_part i /\ frac_part ft f /\ exp_part et e.
Proof. intros x q (d & [neg i ft f et e n d' I F X H Q] & _). exists neg, i, ft, f, et, e. repeat split; try assumption; apply I. Qed.
Lemma decimal_value : forall x d, decimal_number x d -> exists n e, decimal_text x = Some (n, e) /\ (d == inject_Z n * ten e)%Q.
Proof.
  intros x d [neg i ft f et e n q I F X H Q]. destruct (int_part_digits i I) as [A N]. apply numeral_value in H. destruct H as [_ <-].
  eexists _, _. split; [apply (decimal_text_ok neg i ft f et e); [exact A|right; exact N|destruct i; [contradiction|discriminate]|apply frac_loose, F|exact X]|exact Q].
Qed.
Lemma float_unique : forall x q q', float_text x q -> float_text x q' -> q = q'.
Proof.
  intros x q q' (d & D & _ & R & E) (d' & D' & _ & R' & E'). apply decimal_value in D, D'. destruct D as (n & e & T & D), D' as (n' & e' & T' & D').
  rewrite T in T'. injection T' as <- <-. rewrite <- E, <- E'. apply Qred_complete. apply (rounds_unique d d'); [rewrite D, D'; reflexivity|exact R|exact R'].
Qed.
Lemma tok_unique : forall t t' x, (match t with value_int _ | value_float _ => True | _ => False end) -> (match t' with value_int _ | value_float _ => True | _ => False end) ->
  tok t x -> tok t' x -> t = t'.
Proof.
  intros t t' x N N' T T'. destruct t; try contradiction; destruct t'; try contradiction.
  - destruct T as [T _], T' as [T' _]. apply integer_sign in T, T'. destruct (sign x). congruence.
  - destruct T as [T B], T' as (d & _ & K & _). exfalso. apply (K _ T B).
  - destruct T' as [T' B], T as (d & _ & K & _). exfalso. apply (K _ T' B).
  - f_equal. apply (float_unique x); assumption.
Qed.
Lemma scan_number_tok : forall t x rest, (match t with value_int _ | value_float _ => True | _ => False end) -> tok t x -> stop rest -> scan (x ++ rest) = (t, rest).
Proof.
  intros t x rest N T S.
  assert (P : exists neg i ft f et e, x = Json.Spec.minus neg ++ i ++ ft ++ et /\ int_part i /\ frac_part ft f /\ exp_part et e).
  { destruct t; try contradiction; [|apply (float_parts x q T)]. destruct T as [T _]. destruct (integer_parts x z T) as (neg & i & E & I).
    exists neg, i, [], [], [], 0. split; [exact E|]. split; [exact I|]. split; constructor. }
  destruct P as (neg & i & ft & f & et & e & E & I & F & X).
  destruct (scan_number_ok neg i ft f et e rest I F X S) as (c & s & EC & D & R). rewrite E, EC. cbn [app]. rewrite (scan_digit c _ D), R. f_equal.
  rewrite <- EC. apply (tok_unique _ _ x); [|exact N| |exact T]; rewrite ?E; destruct (number_of_ok neg i ft f et e I F X) as [(z & V & Z)|(q & V & Z)]; rewrite V; exact Logic.I || exact Z.
Qed.
Lemma scan_tok : forall t x w rest, white w -> tok t x -> follows t rest -> scan (w ++ x ++ rest) = (t, rest).
Proof.
  intros t x w rest W T F. rewrite scan_white by exact W. destruct t; cbn [tok] in T; try (subst x; reflexivity); try contradiction.
  - destruct T as (s & -> & C). rewrite <- !app_assoc. change (lit """" ++ s ++ lit """" ++ rest) with (""""%char :: s ++ lit """" ++ rest). cbn [scan is_blank].
    change (is_blank """") with false. cbn [Ascii.eqb Bool.eqb]. cbv iota. rewrite (scan_chars s t C). reflexivity.
  - apply scan_number_tok; [exact Logic.I|exact T|exact F].
  - apply scan_number_tok; [exact Logic.I|exact T|exact F].
Qed.
Lemma scan_end : forall w, white w -> scan w = (end_of_input, []).
Proof. intros w W. rewrite <- (app_nil_r w), scan_white by exact W. reflexivity. Qed.
Lemma scan_nul : forall w r, white w -> scan (w ++ ascii_of_nat 0 :: r) = (end_of_input, r).
Proof. intros w r W. rewrite scan_white by exact W. reflexivity. Qed.

Lemma scan_sound : forall s t r, scan s = (t, r) ->
  t = parse_error \/ exists w, white w /\ (t = end_of_input /\ (s = w /\ r = [] \/ s = w ++ ascii_of_nat 0 :: r) \/ exists x, s = w ++ x ++ r /\ tok t x).
Proof.
  induction s as [|c s IH]; intros t r H.
  - injection H as <- <-. right. exists []. split; [constructor|]. left. split; [reflexivity|]. left. split; reflexivity.
  - cbn [scan] in H. destruct (is_blank c) eqn:B.
    + apply IH in H. destruct H as [H|(w & W & H)]; [left; exact H|]. right. exists (c :: w). split; [constructor; [apply Grammar.blank_ok, B|exact W]|].
      destruct H as [(-> & [[-> ->]| ->])|(x & -> & T)]; [left; split; [reflexivity|left; split; reflexivity]|left; split; [reflexivity|right; reflexivity]|right; exists x; split; [reflexivity|exact T]].
    + assert (K : forall x, c :: s = x ++ r -> tok t x -> t = parse_error \/ exists w, white w /\ (t = end_of_input /\ (c :: s = w /\ r = [] \/ c :: s = w ++ ascii_of_nat 0 :: r) \/ exists x, c :: s = w ++ x ++ r /\ tok t x)).
      { intros x E T. right. exists []. split; [constructor|]. right. exists x. split; [exact E|exact T]. }
      destruct (Ascii.eqb_spec c "[") as [->|_]; [injection H as <- <-; apply (K (lit "[")); reflexivity|].
      destruct (Ascii.eqb_spec c "]") as [->|_]; [injection H as <- <-; apply (K (lit "]")); reflexivity|].
      destruct (Ascii.eqb_spec c "{") as [->|_]; [injection H as <- <-; apply (K (lit "{")); reflexivity|].
      destruct (Ascii.eqb_spec c "}") as [->|_]; [injection H as <- <-; apply (K (lit "}")); reflexivity|].
      destruct (Ascii.eqb_spec c ":") as [->|_]; [injection H as <- <-; apply (K (lit ":")); reflexivity|].
      destruct (Ascii.eqb_spec c ",") as [->|_]; [injection H as <- <-; apply (K (lit ",")); reflexivity|].
      unfold scan_literal in H.
      destruct (Ascii.eqb_spec c "t") as [->|_].
      { destruct (match_text (lit "rue") s) as [r'|] eqn:M; [|injection H as <- <-; left; reflexivity]. injection H as <- <-. apply match_sound in M. apply (K (lit "true")); [rewrite M; reflexivity|reflexivity]. }
      destruct (Ascii.eqb_spec c "f") as [->|_].
      { destruct (match_text (lit "alse") s) as [r'|] eqn:M; [|injection H as <- <-; left; reflexivity]. injection H as <- <-. apply match_sound in M. apply (K (lit "false")); [rewrite M; reflexivity|reflexivity]. }
      destruct (Ascii.eqb_spec c "n") as [->|_].
      { destruct (match_text (lit "ull") s) as [r'|] eqn:M; [|injection H as <- <-; left; reflexivity]. injection H as <- <-. apply match_sound in M. apply (K (lit "null")); [rewrite M; reflexivity|reflexivity]. }
      destruct (Ascii.eqb_spec c """") as [->|_].
      { destruct (scan_string [] s) as [[y r']|] eqn:M; [|injection H as <- <-; left; reflexivity]. injection H as <- <-. apply (string_sound _ _ _ _ _ (le_n _)) in M.
        destruct M as (cs & u & -> & C & ->). apply (K (lit """" ++ cs ++ lit """")); [rewrite <- !app_assoc; reflexivity|]. exists cs. split; [reflexivity|exact C]. }
      destruct (Ascii.eqb c "-" || is_digit c) eqn:D.
      { assert (D' : is_digit c = true \/ c = "-"%char) by (apply orb_prop in D; destruct D as [D|D]; [right; apply Ascii.eqb_eq, D|left; exact D]).
        destruct (scan_number_sound c s t r H D') as [->|(neg & i & ft & f & et & e & E & I & F & X & ->)]; [left; reflexivity|].
        apply (K (Json.Spec.minus neg ++ i ++ ft ++ et)); [exact E|]. destruct (number_of_ok neg i ft f et e I F X) as [(z & -> & Z)|(q & -> & Z)]; exact Z. }
      destruct (Z.eqb_spec (code c) 0) as [Z|Z]; [|injection H as <- <-; left; reflexivity].
      injection H as <- <-. right. exists []. split; [constructor|]. left. split; [reflexivity|]. right. cbn [app]. f_equal. apply (char_code c 0 Z).
Qed.
