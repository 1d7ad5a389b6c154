(** Reading again and writing again; the image description. *)
From Coq Require Import List Bool ZArith QArith Qabs Qround Ascii String Lia Sorting.Sorted.
From Verif.Base Require Import Py.
From Verif.Round Require Import Model Spec Rounding.
From Verif.Json Require Import Model Spec Strings Numbers Grammar Printing Writing Sound.
Import ListNotations.
Local Open Scope Z_scope.

(** * Writing again what was read *)
Lemma digits_unique : forall a b n, int_part a -> int_part b -> numeral a n -> numeral b n -> 0 < n -> a = b.
Proof.
  assert (K : forall a n, int_part a -> numeral a n -> 0 < n -> all_digits a /\ value_of a = n /\ exists c s, a = c :: s /\ c <> "0"%char).
  { intros a n (N & _ & Z) H P. apply numeral_value in H. destruct H as [A V]. split; [exact A|]. split; [exact V|].
    destruct a as [|c s]; [contradiction|]. exists c, s. split; [reflexivity|]. destruct Z as [Z|Z]; [|apply (Z c s eq_refl)].
    injection Z as -> ->. change (value_of ["0"%char]) with 0 in V. lia. }
  intros a b n PA PB NA NB P. destruct (K a n PA NA P) as (AA & VA & c & s & EA & CA). destruct (K b n PB NB P) as (AB & VB & d & t & EB & CB).
  apply value_unique; [exact AA|exact AB| |congruence].
  assert (B1 := value_bound a AA). assert (B2 := value_bound b AB). rewrite EA in AA. rewrite EB in AB. assert (H1 := value_head c s AA CA). assert (H2 := value_head d t AB CB).
  rewrite <- EA in H1. rewrite <- EB in H2. rewrite VA in *. rewrite VB in *. rewrite EA, EB in *. cbn [List.length] in *.
  destruct (Nat.lt_trichotomy (List.length s) (List.length t)) as [X|[->|X]]; [exfalso|reflexivity|exfalso].
  - assert (10 ^ Z.of_nat (S (List.length s)) <= 10 ^ Z.of_nat (List.length t)) by (apply Z.pow_le_mono_r; lia). lia.
  - assert (10 ^ Z.of_nat (S (List.length t)) <= 10 ^ Z.of_nat (List.length s)) by (apply Z.pow_le_mono_r; lia). lia.
Qed.
Lemma integer_unique : forall s s' z, integer s z -> integer s' z -> z <> 0 -> s = s'.
Proof.
  intros s s' z [neg i n P N] H NZ. remember (signed neg n) as z0 eqn:E. destruct H as [neg' i' n' P' N'].
  assert (B : 0 <= n) by (apply numeral_value in N; destruct N as [A <-]; apply value_bound, A).
  assert (B' : 0 <= n') by (apply numeral_value in N'; destruct N' as [A <-]; apply value_bound, A).
  assert (X : neg = neg' /\ n = n') by (destruct neg, neg'; cbn [signed] in *; split; reflexivity || lia). destruct X as [-> ->]. f_equal.
  apply (digits_unique i i' n'); try assumption. destruct neg'; cbn [signed] in *; lia.
Qed.
Lemma print_again : forall q z, possible (JNum q) -> reread (JNum q) = JInt z -> print_double q = print_int z.
Proof.
  intros q z P R. assert (J := print_double_ok q P). rewrite R in J. destruct (Z.eq_dec z 0) as [->|NZ].
  - cbn [reread] in R. destruct (Qeq_bool q (inject_Z (Qfloor q))) eqn:E; [|discriminate]. cbn [andb] in R. destruct (_ <? _); [|discriminate]. injection R as F. rewrite F in E.
    apply Qeq_bool_iff in E. destruct P as (_ & _ & RQ). rewrite <- RQ, (Qred_complete _ _ E). reflexivity.
  - assert (S : strict (print_double q) (JInt z)) by (inversion J; assumption). inversion S; subst. apply (integer_unique _ _ z); [assumption|apply print_int_ok|exact NZ].
Qed.
Lemma number_again : forall q indent, possible (JNum q) -> serialize_at indent (reread (JNum q)) = serialize_at indent (JNum q).
Proof.
  intros q indent P. destruct (reread (JNum q)) as [|b|z|q'|s|l|o] eqn:R; cbn [reread] in R;
    try (destruct (Qeq_bool _ _ && _) in R; discriminate).
  - cbn [serialize_at]. rewrite (print_again q z P R). reflexivity.
  - destruct (Qeq_bool _ _ && _) in R; [discriminate|]. injection R as ->. reflexivity.
Qed.
Lemma written_again : forall v, possible v -> forall indent, serialize_at indent (reread v) = serialize_at indent v.
Proof.
  induction v as [|b|z|q|t|l IH|o IH] using value_induction; intros P indent; try reflexivity.
  - apply number_again, P.
  - apply possible_arr in P. rewrite Forall_forall in IH, P. cbn [reread serialize_at].
    assert (M : map (fun x => line (if indent =? -1 then -1 else indent + 1) ++ serialize_at (if indent =? -1 then -1 else indent + 1) x) (map reread l) =
                map (fun x => line (if indent =? -1 then -1 else indent + 1) ++ serialize_at (if indent =? -1 then -1 else indent + 1) x) l).
    { rewrite map_map. apply map_ext_in. intros x X. rewrite (IH x X (P x X)). reflexivity. }
    rewrite M. destruct l; reflexivity.
  - apply possible_obj in P. destruct P as [_ P]. rewrite Forall_forall in IH, P. cbn [reread serialize_at].
    match goal with |- ((lit "{" ++ joined true (map ?g (map ?f o)) ++ _) ++ _) = _ => assert (M : map g (map f o) = map g o) end.
    { rewrite map_map. apply map_ext_in. intros x X. cbn [fst snd]. rewrite (IH x X (P x X)). reflexivity. }
    rewrite M. destruct o; reflexivity.
Qed.

(** * Characters *)
Lemma in_number_printable : forall c, in_number c = true -> 32 <= code c.
Proof.
  intros c H. unfold in_number in H. repeat (apply orb_prop in H; destruct H as [H|H]);
    try (apply Ascii.eqb_eq in H; subst c; vm_compute; discriminate). apply is_digit_range in H. lia.
Qed.
Lemma escape_printable : forall c, printable (escape c).
Proof.
  assert (B : forall c, forallb (fun c => 32 <=? code c) (escape c) = true).
  { intros [[] [] [] [] [] [] [] []]; reflexivity. }
  intros c. apply Forall_forall. intros d D. specialize (B c). rewrite forallb_forall in B. apply Z.leb_le, B, D.
Qed.
Lemma str_printable : forall s, printable (serialize_str s).
Proof.
  intros s. unfold serialize_str. apply Forall_app. split; [repeat constructor; discriminate|]. apply Forall_app. split; [|repeat constructor; discriminate].
  apply Forall_forall. intros c H. apply in_flat_map in H. destruct H as (x & _ & X). assert (E := escape_printable x). unfold printable in E. rewrite Forall_forall in E. apply E, X.
Qed.
Lemma lit_printable : forall s, forallb (fun c => 32 <=? code c) s = true -> printable s.
Proof. intros s H. apply Forall_forall. intros c C. rewrite forallb_forall in H. apply Z.leb_le, H, C. Qed.
Lemma joined_printable : forall l b, Forall printable l -> printable (joined b l).
Proof.
  intros l b H. revert b. induction H as [|s l S H IH]; intros b; cbn [joined]; [constructor|]. apply Forall_app. split; [destruct b; apply lit_printable; reflexivity|].
  apply Forall_app. split; [exact S|apply IH].
Qed.
Lemma compact_printable : forall v, possible v -> printable (serialize_at (-1) v).
Proof.
  assert (NUM : forall s v, json strict s v -> match v with JInt _ | JNum _ => True | _ => False end -> printable s).
  { intros s v J K. destruct J; try contradiction. apply strict_loose, loose_chars in H. destruct H as [H _]. eapply Forall_impl; [|exact H]. cbn. apply in_number_printable. }
  induction v as [|b|z|q|t|l IH|o IH] using value_induction; intros P.
  - apply lit_printable. reflexivity.
  - destruct b; apply lit_printable; reflexivity.
  - cbn [serialize_at]. rewrite app_nil_r. apply (NUM _ (JInt z)); [|exact I]. apply j_number, s_int; [apply print_int_ok|exact P].
  - cbn [serialize_at]. rewrite app_nil_r. apply (NUM _ (reread (JNum q))); [apply print_double_ok, P|]. cbn [reread]. destruct (_ && _); exact I.
  - cbn [serialize_at]. rewrite app_nil_r. apply str_printable.
  - apply possible_arr in P. rewrite Forall_forall in IH, P. cbn [serialize_at]. rewrite app_nil_r. apply Forall_app. split; [apply lit_printable; reflexivity|].
    apply Forall_app. split; [|destruct l; apply lit_printable; reflexivity]. apply joined_printable. apply Forall_forall. intros s S. apply in_map_iff in S. destruct S as (x & <- & X).
    apply Forall_app. split; [constructor|apply (IH x X (P x X))].
  - apply possible_obj in P. destruct P as [_ P]. rewrite Forall_forall in IH, P. cbn [serialize_at]. rewrite app_nil_r. apply Forall_app. split; [apply lit_printable; reflexivity|].
    apply Forall_app. split; [|destruct o; apply lit_printable; reflexivity]. apply joined_printable. apply Forall_forall. intros s S. apply in_map_iff in S. destruct S as (x & <- & X).
    apply Forall_app. split; [constructor|]. apply Forall_app. split; [apply str_printable|]. apply Forall_app. split; [apply lit_printable; reflexivity|].
    apply Forall_app. split; [constructor|apply (IH x X (P x X))].
Qed.

(** * The image description *)
Lemma c_str_printable : forall s rest, printable s -> c_str (s ++ rest) = s ++ c_str rest.
Proof.
  intros s rest P. induction P as [|c s C P IH]; [reflexivity|]. cbn [app c_str]. destruct (Z.eqb_spec (code c) 0); [lia|]. rewrite IH. reflexivity.
Qed.
Lemma get_int64_ok : forall o, match oget (lit "version") o with None => Ok 0 | Some v => get_int64 v end = Err RuntimeError /\ (forall z, ~ version_is o z) \/
  exists z, match oget (lit "version") o with None => Ok 0 | Some v => get_int64 v end = Ok z /\ version_is o z.
Proof.
  intros o. rewrite oget_lookup. destruct (lookup (lit "version") o) as [[|b|z|q|s|l|m]|] eqn:L;
    try (left; split; [reflexivity|]; intros z V; inversion V; congruence).
  - right. exists z. split; [reflexivity|apply v_int, L].
  - right. exists 0. split; [reflexivity|apply v_missing, L].
Qed.
Lemma get_double_ok : forall f32 o, let r := match oget (lit "near") o with None => Ok 1%Q | Some v => let* x := get_double v in Ok (f32 x) end in
  r = Err RuntimeError /\ (forall q, ~ near_is f32 o q) \/ exists q, r = Ok q /\ near_is f32 o q.
Proof.
  intros f32 o. cbv zeta. rewrite oget_lookup. destruct (lookup (lit "near") o) as [[|b|z|q|s|l|m]|] eqn:L;
    try (left; split; [reflexivity|]; intros z V; inversion V; congruence).
  - right. exists (f32 (round (inject_Z z))). split; [reflexivity|]. apply (r_int f32 o z); [exact L|apply round_ok|apply round_red].
  - right. exists (f32 q). split; [reflexivity|apply r_num, L].
  - right. exists 1%Q. split; [reflexivity|apply r_missing, L].
Qed.
Lemma version_unique : forall o a b, version_is o a -> version_is o b -> a = b.
Proof. intros o a b [] []; congruence. Qed.
Lemma near_unique : forall f32 o a b, near_is f32 o a -> near_is f32 o b -> a = b.
Proof.
  intros f32 o a b A B. inversion A as [|q|z q L R X]; inversion B as [|q'|z' q' L' R' X']; subst; try congruence.
  f_equal. rewrite <- X, <- X'. apply Qred_complete. rewrite L in L'. injection L' as ->. apply (rounds_unique (inject_Z z') (inject_Z z')); [reflexivity|exact R|exact R'].
Qed.
Lemma read_object : forall f32 s o rest, parse (c_str s) = Ok (JObj o, rest) ->
  (forall z q, readMetadata f32 (Some s) = Ok (z, q) <-> version_is o z /\ near_is f32 o q) /\
  ((forall z, ~ version_is o z) \/ (forall q, ~ near_is f32 o q) -> readMetadata f32 (Some s) = Err RuntimeError).
Proof.
  intros f32 s o rest H. unfold readMetadata. rewrite H. cbn [bind].
  destruct (get_int64_ok o) as [[-> V]|(z & -> & V)]; cbn [bind].
  - split; [|intros _; reflexivity]. intros z q. split; [discriminate|]. intros [X _]. destruct (V z X).
  - assert (D := get_double_ok f32 o). cbv zeta in D. destruct D as [[-> N]|(q & -> & N)]; cbn [bind].
    + split; [|intros _; reflexivity]. intros z' q. split; [discriminate|]. intros [_ X]. destruct (N q X).
    + split; [|intros [X|X]; [destruct (X z V)|destruct (X q N)]]. intros z' q'. split.
      * intros E. injection E as <- <-. split; assumption.
      * intros [V' N']. rewrite (version_unique o z z' V V'), (near_unique f32 o q q' N N'). reflexivity.
Qed.

Lemma c_str_prefix : forall s, exists u, s = c_str s ++ u.
Proof.
  induction s as [|c s [u IH]]; [exists []; reflexivity|]. cbn [c_str]. destruct (code c =? 0); [exists (c :: s); reflexivity|]. exists u. cbn. f_equal. exact IH.
Qed.
Lemma object_brace : forall s o r, parse s = Ok (JObj o, r) -> exists w t, s = w ++ lit "{" ++ t /\ white w.
Proof.
  assert (IT : forall n a s v r, items n a s = Ok (v, r) -> exists l, v = JArr l).
  { induction n as [|n IH]; intros a s v r H; [injection H as <- _; eexists; reflexivity|]. cbn [items] in H. destruct (parse_at n JNull s) as [[x [y|]]|]; [|injection H as <- _; eexists; reflexivity|discriminate].
    cbn [bind] in H. destruct (expect "," y); [apply (IH _ _ _ _ H)|injection H as <- _; eexists; reflexivity]. }
  intros s o r H. unfold parse in H. rewrite Nat.add_succ_r in H. cbn [parse_at] in H. destruct (skip_sound s) as (w & E & W). destruct (skip_ws s) as [|c s']; [discriminate|].
  destruct (Ascii.eqb c "n"); [destruct (match_text _ s'); discriminate|]. destruct (Ascii.eqb c "f"); [destruct (match_text _ s'); discriminate|].
  destruct (Ascii.eqb c "t"); [destruct (match_text _ s'); discriminate|]. destruct (Ascii.eqb c """"); [destruct (parse_string [] s'); discriminate|].
  destruct (Ascii.eqb c "["); [destruct (expect "]" s'); [discriminate|]; apply IT in H; destruct H; discriminate|].
  destruct (Ascii.eqb_spec c "{") as [->|]; [exists w, s'; split; assumption|].
  destruct (is_digit c || Ascii.eqb c "-"); [|discriminate]. unfold parse_number in H. destruct (span in_number (c :: s')) as [a b].
  destruct (strtoimax a); [discriminate|]. destruct (strtod a) as [[x|]|]; discriminate.
Qed.
