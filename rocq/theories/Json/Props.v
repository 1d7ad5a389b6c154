(** C96: JSON and the image description of a TIFF file. *)
From Coq Require Import List Bool ZArith QArith Qabs Qround Ascii String Lia Sorting.Sorted.
From Verif.Base Require Import Py.
From Verif.Round Require Import Model Spec Rounding.
From Verif.Json Require Import Model Spec Strings Numbers Grammar Printing Writing Sound Facts.
Import ListNotations.
Local Open Scope Z_scope.

(** The parser accepts exactly JSON with numbers in the wider sense, and gives its value
    and the rest of the text. *)
Theorem C96_exact : forall s v rest, parse s = Ok (v, Some rest) <->
  exists w t, s = w ++ t ++ rest /\ white w /\ json loose t v /\ ends v rest.
Proof.
  intros s v rest. split.
  - apply (proj1 (sound _)).
  - intros (w & t & -> & W & J & E). unfold parse. apply (proj1 accepts); try assumption. rewrite !app_length. lia.
Qed.

(** All of RFC 8259 is accepted. *)
Theorem C96_accepts : forall w t v rest, white w -> json strict t v -> ends v rest -> parse (w ++ t ++ rest) = Ok (v, Some rest).
Proof. intros w t v rest W J E. apply C96_exact. exists w, t. split; [reflexivity|]. split; [exact W|]. split; [apply strict_json, J|exact E]. Qed.

(** Other numbers are accepted too. *)
Theorem C96_lenient_refuted : exists s v, parse s = Ok (v, Some []) /\ forall w t v', s = w ++ t -> white w -> ~ json strict t v'.
Proof.
  exists (lit "01"), (JInt 1). split; [reflexivity|]. intros w t v' E W J.
  assert (w = []). { destruct w as [|c w]; [reflexivity|]. exfalso. injection E as <- _. inversion W as [|? ? B _]; subst. vm_compute in B. intuition discriminate. }
  subst w. cbn [app] in E. subst t.
  assert (S : strict (lit "01") v') by (inversion J; assumption).
  assert (D : exists q, decimal_number (lit "01") q) by (inversion S; subst; eexists; [apply integer_decimal|]; eassumption).
  destruct D as [q D]. remember (lit "01") as s eqn:E. destruct D as [neg i ft f et e n q' P F X N Q]. destruct neg; [discriminate|]. cbn [minus app] in E.
  destruct P as (NE & (m & M) & Z). apply numeral_value in M. destruct M as [A _].
  destruct i as [|a i]; [contradiction|]. injection E as -> E. destruct Z as [Z|Z]; [|apply (Z _ _ eq_refl); reflexivity]. injection Z as ->. cbn [app] in E.
  apply frac_loose, loose_digits in F. destruct F as [_ [[-> _]| ->]]; [|discriminate E]. cbn [app] in E. subst et. change ["1"%char] with (lit "1") in X. remember (lit "1") as t eqn:T. destruct X as [|mark plus ds k MK _ _ _|mark ds k MK _ _]; [discriminate| |];
    destruct MK as [<-|[<-|[]]]; discriminate T.
Qed.

(** What is written is JSON, and it is read again. *)
Theorem C96_serialize : forall p v, possible v ->
  exists s, serialize p v = s ++ (if p : bool then [char 10] else []) /\ json strict s (reread v).
Proof.
  intros p v P. destruct (written v P (if p then 0 else -1) ltac:(destruct p; lia)) as (s & E & J). exists s. split; [|exact J].
  unfold serialize. rewrite E. destruct p; reflexivity.
Qed.
Theorem C96_roundtrip : forall p v, possible v -> parse (serialize p v) = Ok (reread v, Some (if p : bool then [char 10] else [])).
Proof.
  intros p v P. destruct (C96_serialize p v P) as (s & -> & J). apply (C96_accepts [] s); [constructor|exact J|].
  assert (S : stop (if p then [char 10] else [])) by (destruct p; [cbn; intuition discriminate|exact I]).
  destruct (reread v); exact I || exact S.
Qed.
(** Written once more it is the same text. *)
Theorem C96_stable : forall p v, possible v -> serialize p (reread v) = serialize p v.
Proof. intros p v P. apply written_again, P. Qed.

(** A double is written as a decimal number that is rounded to it again. *)
Theorem C96_number : forall q, possible (JNum q) -> exists d, decimal_number (serialize false (JNum q)) d /\ rounds_to d q.
Proof.
  intros q P. destruct (C96_serialize false (JNum q) P) as (s & E & J). rewrite app_nil_r in E. rewrite E. cbn [reread] in J.
  destruct (Qeq_bool q (inject_Z (Qfloor q)) && (Z.abs (Qfloor q) <? 10 ^ 17)) eqn:B.
  - assert (S : strict s (JInt (Qfloor q))) by (inversion J; assumption). inversion S as [s' z H R|]; subst. exists (inject_Z (Qfloor q)). split; [apply integer_decimal; assumption|].
    apply andb_prop in B. destruct B as [B _]. apply Qeq_bool_iff in B. apply rounds_to_eq. rewrite <- B. symmetry. apply round_fixed. apply P.
  - assert (S : strict s (JNum q)) by (inversion J; assumption). inversion S as [|s' d y H O R L Y]; subst. exists d. split; assumption.
Qed.

(** No control character is written without indentation. *)
Theorem C96_printable : forall v, possible v -> printable (serialize false v).
Proof. intros v P. apply compact_printable, P. Qed.

(** The only exception of the parser is for a number that is too large for a double. *)
Theorem C96_only_overflow : forall s e, parse s = Err e -> e = OverflowError.
Proof. intros s e. apply (proj1 (only_overflow _)). Qed.
Theorem C96_overflow : forall w t q y rest, white w -> decimal_number t q -> (forall z, integer t z -> ~ int64 z) ->
  rounds_to q y -> (2 ^ 1024 <= Qabs y)%Q -> stop rest -> parse (w ++ t ++ rest) = Err OverflowError.
Proof.
  intros w t q y rest W D O R L ST. destruct D as [neg i ft f et e n q' (N & (m & M) & P) F E H Q].
  assert (NE : i ++ f <> []) by (destruct i; [contradiction|discriminate]).
  assert (OUT : ft ++ et = [] -> ~ int64 (signed neg n)).
  { intros T. apply app_eq_nil in T. destruct T as [-> ->]. inversion F; subst f. rewrite app_nil_r in H. apply O. rewrite !app_nil_r.
    constructor; [|exact H]. split; [exact N|]. split; [exists m; exact M|exact P]. }
  assert (A : all_digits i) by (apply numeral_value in M; apply M).
  set (t := minus neg ++ i ++ ft ++ et).
  assert (CH : Forall (fun c => in_number c = true) t).
  { apply Forall_app. split; [destruct neg; repeat constructor|]. apply Forall_app. split; [apply digits_in_number, A|]. apply Forall_app. split; [|apply (exp_chars et e E)].
    apply frac_loose, loose_digits in F. destruct F as [AF [[-> _]| ->]]; [constructor|]. constructor; [reflexivity|apply digits_in_number, AF]. }
  assert (HD : exists c r, t = c :: r /\ (is_digit c = true \/ c = "-"%char)).
  { unfold t. destruct neg; [eexists; eexists; split; [reflexivity|right; reflexivity]|]. destruct i as [|c i]; [contradiction|]. inversion A; subst. eexists; eexists; split; [reflexivity|left; assumption]. }
  destruct HD as (c & r & T & D). unfold parse. rewrite Nat.add_succ_r. rewrite T. cbn [app]. rewrite digit_branch by assumption.
  change (c :: r ++ rest) with ((c :: r) ++ rest). rewrite <- T. unfold parse_number. rewrite (span_ok in_number t rest CH (stop_in_number rest ST)).
  unfold t. rewrite (strtoimax_out neg i m ft f et e n) by (assumption || (right; assumption) || (apply frac_loose; assumption)).
  destruct (strtod_ok neg i m ft f et e n q') as (x & RX & _ & ->); try assumption; [right; exact N|apply frac_loose, F|].
  assert (X : (x == y)%Q) by (apply (rounds_unique q' q'); [reflexivity|exact RX|exact R]).
  assert (B : Qle_bool (2 ^ 1024) (Qabs x) = true) by (apply Qle_bool_iff; rewrite X; exact L). rewrite B. reflexivity.
Qed.

(** The number of steps given to the parser of the model does not matter. *)
Theorem C96_fuel : forall n s, (2 * List.length s + 1 <= n)%nat -> parse_at n JNull s = parse s.
Proof. intros n s L. apply fuel_enough, L. Qed.

(** * The image description *)

(** What is written is read again, whatever comes behind it. *)
Theorem C96_metadata_roundtrip : forall f32 near rest, possible (JNum near) ->
  readMetadata f32 (Some (writeMetadata near ++ rest)) = Ok (1, f32 near).
Proof.
  intros f32 near rest P. unfold writeMetadata. set (v := JObj [(lit "near", JNum near); (lit "version", JInt 1)]).
  assert (PV : possible v).
  { split; [|split; [exact P|split; [split; [discriminate|reflexivity]|exact I]]].
    constructor; [constructor; [constructor|constructor]|]. constructor; [|constructor]. unfold before. cbn [fst lit list_ascii_of_string]. apply k_head. reflexivity. }
  assert (PR := compact_printable v PV). destruct (C96_serialize false v PV) as (s & E & J). rewrite app_nil_r in E. fold (serialize false v) in PR.
  assert (PA : parse (c_str (serialize false v ++ rest)) = Ok (reread v, Some (c_str rest))).
  { rewrite c_str_printable by exact PR. rewrite E. apply (C96_accepts [] s); [constructor|exact J|exact I]. }
  cbn [reread v map fst snd] in PA. apply (read_object f32) in PA. apply PA. split.
  - apply v_int. reflexivity.
  - cbn [reread] in *. set (o := [(lit "near", if _ && _ then _ else _); _]).
    destruct (Qeq_bool near (inject_Z (Qfloor near)) && (Z.abs (Qfloor near) <? 10 ^ 17)) eqn:B.
    + apply (r_int f32 o (Qfloor near)); [reflexivity| |apply P]. apply andb_prop in B. destruct B as [B _]. apply Qeq_bool_iff in B.
      apply rounds_to_eq. rewrite <- B. symmetry. apply round_fixed, P.
    + apply r_num. reflexivity.
Qed.

(** An object is read according to its members. *)
Theorem C96_metadata_reads : forall f32 w t o rest, printable (w ++ t) -> white w -> json loose t (JObj o) ->
  (forall z q, readMetadata f32 (Some (w ++ t ++ rest)) = Ok (z, q) <-> version_is o z /\ near_is f32 o q) /\
  ((forall z, ~ version_is o z) \/ (forall q, ~ near_is f32 o q) -> readMetadata f32 (Some (w ++ t ++ rest)) = Err RuntimeError).
Proof.
  intros f32 w t o rest P W J. apply (read_object f32 _ o (Some (c_str rest))). rewrite app_assoc, c_str_printable by exact P. rewrite <- app_assoc.
  apply C96_exact. exists w, t. split; [reflexivity|]. split; [exact W|]. split; [exact J|exact I].
Qed.
Theorem C96_metadata_errors : forall f32 d e, readMetadata f32 d = Err e -> e = RuntimeError \/ e = OverflowError.
Proof.
  intros f32 [s|] e H; [|discriminate]. destruct (parse (c_str s)) as [[v r]|e'] eqn:P.
  - destruct v as [|b|z|q|t|l|o]; try (unfold readMetadata in H; rewrite P in H; injection H as <-; left; reflexivity).
    assert (R := read_object f32 s o r P). destruct R as [R1 R2]. left.
    destruct (get_int64_ok o) as [[_ V]|(z & _ & V)]; [specialize (R2 (or_introl V)); congruence|].
    assert (D := get_double_ok f32 o). cbv zeta in D. destruct D as [[_ N]|(q & _ & N)]; [specialize (R2 (or_intror N)); congruence|].
    assert (X := proj2 (R1 z q) (conj V N)). congruence.
  - unfold readMetadata in H. rewrite P in H. injection H as <-. right. apply (C96_only_overflow _ _ P).
Qed.
(** Without an opening brace there is an error. *)
Theorem C96_metadata_brace : forall f32 s r, readMetadata f32 (Some s) = Ok r -> exists w t, s = w ++ lit "{" ++ t /\ white w.
Proof.
  intros f32 s r H. destruct (parse (c_str s)) as [[v r']|e'] eqn:P; [|unfold readMetadata in H; rewrite P in H; discriminate].
  assert (V : exists o, v = JObj o) by (destruct v; try (unfold readMetadata in H; rewrite P in H; discriminate); eexists; reflexivity). destruct V as [o ->].
  destruct (object_brace _ _ _ P) as (w & t & E & W). destruct (c_str_prefix s) as [u U]. exists w, (t ++ u). split; [|exact W]. rewrite U, E, <- app_assoc. reflexivity.
Qed.

(** A missing description means version 0 and near plane 1.  A description that ends too
    early is not reported: without the first member the
    defaults are used, and a number may lose its last digits. *)
Theorem C96_cut : forall f32, readMetadata f32 None = Ok (0, 1%Q) /\
  forall near k, (1 <= k <= 7)%nat -> readMetadata f32 (Some (firstn k (writeMetadata near))) = Ok (0, 1%Q).
Proof.
  intros f32. split; [reflexivity|]. intros near k K. unfold writeMetadata, serialize. cbn [serialize_at map joined]. destruct K as [K1 K2]. do 8 (destruct k as [|k]; [lia || reflexivity|]). lia.
Qed.
Theorem C96_cut_refuted : exists near k d, possible (JNum near) /\ (k < List.length (writeMetadata near))%nat /\
  readMetadata (fun x => x) (Some (firstn k (writeMetadata near))) = Ok (0, d) /\ ~ (d == near)%Q /\ ~ (d == 1)%Q.
Proof.
  exists (1 # 4)%Q, 11%nat, (round (1 # 5)). split; [|split; [|split; [|split]]].
  - split; [exists 1, (-2); split; [reflexivity|]; split; [discriminate|reflexivity]|]. split; reflexivity.
  - vm_compute. lia.
  - vm_compute. reflexivity.
  - vm_compute. discriminate.
  - vm_compute. discriminate.
Qed.

(** * Examples *)
Example possible_tenth : possible (JNum (3602879701896397 # 36028797018963968)).
Proof. split; [exists 3602879701896397, (-55); split; [reflexivity|]; split; [discriminate|reflexivity]|]. split; reflexivity. Qed.
Example tenth : serialize false (JNum (3602879701896397 # 36028797018963968)) = lit "0.10000000000000001".
Proof. vm_compute. reflexivity. Qed.
Example written_metadata : writeMetadata (1 # 2) = lit "{""near"":0.5,""version"":1}".
Proof. vm_compute. reflexivity. Qed.
Example read_metadata : readMetadata (fun x => x) (Some (lit "{""near"":0.5,""version"":1}")) = Ok (1, (1 # 2)%Q).
Proof. vm_compute. reflexivity. Qed.
(** A whole number comes back as an int64. *)
Example whole : reread (JNum (3 # 1)) = JInt 3%Z /\ serialize false (JNum (3 # 1)) = lit "3" /\ reread (JNum (2 ^ 60)%Q) = JNum (2 ^ 60)%Q.
Proof. vm_compute. auto. Qed.
Example pretty : serialize true (JArr [JNull; JObj [(lit "a", JBool true)]]) =
  lit "[" ++ [char 10] ++ lit "  null," ++ [char 10] ++ lit "  {" ++ [char 10] ++ lit "    ""a"": true" ++ [char 10] ++ lit "  }" ++ [char 10] ++ lit "]" ++ [char 10].
Proof. vm_compute. reflexivity. Qed.
(** The last of equal names counts; escapes; a surrogate alone is an error. *)
Example twice : parse (lit " {""b"":1, ""a"":[2,-0.5e1],""b"":""\u00e9\n""} x") =
  Ok (JObj [(lit "a", JArr [JInt 2; JNum (-5 # 1)]); (lit "b", JStr (map char [195; 169; 10]))], Some (lit " x")).
Proof. vm_compute. reflexivity. Qed.
Example lone : parse (lit """\ud800x""") = Ok (JStr [], None).
Proof. vm_compute. reflexivity. Qed.
Example too_large : parse (lit "[1,1e309]") = Err OverflowError.
Proof. vm_compute. reflexivity. Qed.
Example wrong_type : readMetadata (fun x => x) (Some (lit "{""version"":1.5}")) = Err RuntimeError.
Proof. vm_compute. reflexivity. Qed.
Example not_object : readMetadata (fun x => x) (Some (lit "Hasselblad")) = Err RuntimeError.
Proof. vm_compute. reflexivity. Qed.

Print Assumptions C96_exact.
Print Assumptions C96_accepts.
Print Assumptions C96_lenient_refuted.
Print Assumptions C96_serialize.
Print Assumptions C96_roundtrip.
Print Assumptions C96_stable.
Print Assumptions C96_number.
Print Assumptions C96_printable.
Print Assumptions C96_only_overflow.
Print Assumptions C96_overflow.
Print Assumptions C96_fuel.
Print Assumptions C96_metadata_roundtrip.
Print Assumptions C96_metadata_reads.
Print Assumptions C96_metadata_errors.
Print Assumptions C96_metadata_brace.
Print Assumptions C96_cut.
Print Assumptions C96_cut_refuted.
