From Coq Require Import List ZArith NArith Bool String Ascii Reals Lia.
From Verif.Base Require Import Py PyFacts Vec.
From Verif.Cloud Require Import Model.
From Verif.Ply Require Import Model Spec.
Import ListNotations.
Local Open Scope string_scope.
Local Open Scope list_scope.

(** * Words and numbers *)

Lemma not_space : forall c, (N_of_ascii c <> 32 /\ ~ (9 <= N_of_ascii c <= 13))%N -> is_space c = false.
Proof.
  intros c (A & B). unfold is_space. rewrite (proj2 (N.eqb_neq _ _)) by exact A. cbn [orb]. destruct (N.leb_spec 9 (N_of_ascii c)); [|reflexivity]. destruct (N.leb_spec (N_of_ascii c) 13); [exfalso; apply B; split; assumption|reflexivity].
Qed.
Lemma not_newline : forall c, is_space c = false -> c <> newline.
Proof. intros c H ->. discriminate H. Qed.
Lemma word_stop : forall w r, Forall (fun c => is_space c = false) w -> (r = [] \/ exists c r', r = c :: r' /\ is_space c = true) -> word (w ++ r) = (w, r).
Proof.
  intros w r F H. induction F as [|c w N F IH]; cbn [app].
  - destruct H as [-> |(c & r' & -> & S)]; [reflexivity|]. cbn [word]. rewrite S. reflexivity.
  - cbn [word]. rewrite N, IH. reflexivity.
Qed.
Lemma token_word : forall w r, w <> [] -> Forall (fun c => is_space c = false) w -> (r = [] \/ exists c r', r = c :: r' /\ is_space c = true) -> token (w ++ r) = (w, r).
Proof.
  intros w r NE F H. unfold token. assert (S : skip_space (w ++ r) = w ++ r). { destruct w as [|c w]; [congruence|]. inversion F as [|? ? N _]; subst. cbn [app skip_space]. rewrite N. reflexivity. }
  rewrite S. apply word_stop; assumption.
Qed.
Lemma token_space : forall l, token (" "%char :: l) = token l.
Proof. reflexivity. Qed.
Lemma word_ok_space : forall w, word_ok w -> w <> [] /\ Forall (fun c => is_space c = false) w.
Proof. intros w (N & F). split; [exact N|]. eapply Forall_impl; [|exact F]. intros c. apply not_space. Qed.
Lemma digit_facts : forall c, (48 <= N_of_ascii c <= 57)%N -> is_space c = false /\ digit c = Some (N_of_ascii c - 48)%N.
Proof.
  intros c H. split; [apply not_space; lia|]. unfold digit. rewrite (proj2 (N.leb_le _ _)) by lia. rewrite (proj2 (N.leb_le _ _)) by lia. reflexivity.
Qed.
Lemma number_value : forall w a, Forall (fun c => (48 <= N_of_ascii c <= 57)%N) w -> number a w = fold_left (fun a c => a * 10 + (N_of_ascii c - 48))%N w a.
Proof. intros w a F. revert a. induction F as [|c w D F IH]; intro a; [reflexivity|]. cbn [number fold_left]. destruct (digit_facts c D) as (_ & ->). apply IH. Qed.
Lemma read_size_ok : forall w n, number_text w n -> (n < 18446744073709551616)%N -> read_size (" "%char :: w) = Ok n.
Proof.
  intros w n (NE & F & V) B. unfold read_size. cbn [skip_space]. change (is_space " "%char) with true. cbn [skip_space].
  assert (S : skip_space w = w). { destruct w as [|c w]; [congruence|]. inversion F as [|? ? D _]; subst. cbn [skip_space]. destruct (digit_facts c D) as (-> & _). reflexivity. }
  rewrite S. destruct w as [|c w]; [congruence|]. rewrite number_value by exact F. rewrite V. f_equal. apply N.min_l. lia.
Qed.

Lemma ascii_digit : forall d, (d < 10)%N -> N_of_ascii (ascii_of_N (48 + d)) = (48 + d)%N.
Proof. intros d H. apply N_ascii_embedding. lia. Qed.
Lemma decimal_text : forall fuel n acc k, (n < 2 ^ N.of_nat fuel \/ fuel = 0%nat /\ n < 10)%N -> Forall (fun c => (48 <= N_of_ascii c <= 57)%N) acc ->
  fold_left (fun a c => a * 10 + (N_of_ascii c - 48))%N acc n = k ->
  number_text (decimal fuel n acc) k.
Proof.
  assert (D : forall n acc k, Forall (fun c => (48 <= N_of_ascii c <= 57)%N) acc -> fold_left (fun a c => a * 10 + (N_of_ascii c - 48))%N acc n = k ->
    Forall (fun c => (48 <= N_of_ascii c <= 57)%N) (ascii_of_N (48 + n mod 10) :: acc) /\
    fold_left (fun a c => a * 10 + (N_of_ascii c - 48))%N (ascii_of_N (48 + n mod 10) :: acc) (n / 10)%N = k).
  { intros n acc k F V. assert (M : (n mod 10 < 10)%N) by (apply N.mod_lt; lia). split.
    - constructor; [rewrite ascii_digit by exact M; revert M; generalize (n mod 10)%N; intros; lia|exact F].
    - cbn [fold_left]. rewrite ascii_digit by exact M. rewrite <- V. f_equal. assert (DM := N.div_mod n 10 ltac:(discriminate)). revert DM. generalize (n mod 10)%N (n / 10)%N. intros; lia. }
  intro fuel. induction fuel as [|fuel IH]; intros n acc k B F V; destruct (D n acc k F V) as (F' & V'); cbn [decimal].
  - assert (Z : (n / 10 = 0)%N). { apply N.div_small. destruct B as [B|(_ & B)]; [change (2 ^ N.of_nat 0)%N with 1%N in B; lia|exact B]. } rewrite Z in V'. split; [discriminate|]. split; assumption.
  - destruct (N.eqb_spec (n / 10) 0) as [Z|Z].
    + rewrite Z in V'. split; [discriminate|]. split; assumption.
    + apply IH; [|exact F'|exact V']. destruct B as [B|(C & _)]; [|discriminate C]. rewrite Nat2N.inj_succ, N.pow_succ_r' in B. left. apply N.div_lt_upper_bound; lia.
Qed.
Lemma print_size_text : forall n, number_text (print_size n) n.
Proof.
  intro n. unfold print_size. apply decimal_text; [|constructor|reflexivity]. left. destruct n as [|p]; [reflexivity|]. cbn [N.size_nat]. change (N.pos p) with (N.pos p).
  assert (H : forall q, (N.pos q < 2 ^ N.of_nat (Pos.size_nat q))%N).
  { intro q. induction q as [q IH|q IH|]; cbn [Pos.size_nat]; [| |reflexivity]; rewrite Nat2N.inj_succ, N.pow_succ_r'; lia. }
  apply H.
Qed.

(** * Lines *)

Lemma getline_line : forall l r, Forall (fun c => c <> newline) l -> getline (l ++ newline :: r) = (l, Some r).
Proof.
  intros l r F. induction F as [|c l N F IH]; cbn [app getline]; [destruct (ascii_dec newline newline); [reflexivity|congruence]|].
  destruct (ascii_dec c newline); [contradiction|]. rewrite IH. reflexivity.
Qed.
Lemma parse_step : forall n h l r h', Forall (fun c => c <> newline) l -> header_line h l = Ok (Some h') -> parse_lines (S n) h (l ++ newline :: r) = parse_lines n h' r.
Proof.
  intros n h l r h' F H. cbn [parse_lines]. rewrite getline_line by exact F. rewrite H. cbn [bind]. destruct l; reflexivity.
Qed.
Lemma parse_stop : forall n h l r, Forall (fun c => c <> newline) l -> header_line h l = Ok None -> parse_lines (S n) h (l ++ newline :: r) = Ok (h, Stream r true).
Proof.
  intros n h l r F H. cbn [parse_lines]. rewrite getline_line by exact F. rewrite H. cbn [bind]. destruct l; reflexivity.
Qed.

Definition plain (w : bytes) : Prop := Forall (fun c => is_space c = false) w.
Lemma plain_line : forall w, plain w -> Forall (fun c => c <> newline) w.
Proof. intros w. apply Forall_impl. intros c. apply not_newline. Qed.
Lemma number_plain : forall w n, number_text w n -> w <> [] /\ plain w.
Proof. intros w n (NE & F & _). split; [exact NE|]. eapply Forall_impl; [|exact F]. intros c H. apply digit_facts, H. Qed.
Lemma spelled_ok : forall t T, spelled t T -> property_type_from_string (text T) = t /\ same (text T) "list" = false /\ text T <> [] /\ plain (text T).
Proof. intros t T H. destruct H; (split; [reflexivity|split; [reflexivity|split; [discriminate|repeat constructor]]]). Qed.
Lemma spelled_name : forall t, t <> INVALID -> spelled t (type_name t).
Proof. intros [] H; try congruence; constructor. Qed.
Lemma width_stride : forall t n, width t n -> stride t = n /\ t <> INVALID.
Proof. intros t n H. destruct H; (split; [reflexivity|discriminate]). Qed.
Lemma spelled_width : forall t T, spelled t T -> width t (stride t).
Proof. intros t T H. destruct H; constructor. Qed.

Lemma add_to_last_app : forall els e p, add_to_last (els ++ [e]) p = Some (els ++ [Element (e_name e) (e_size e) (e_properties e ++ [p])]).
Proof.
  intros els e p. induction els as [|x els IH]; [reflexivity|]. cbn [app add_to_last]. rewrite IH. destruct (els ++ [e]) eqn:E; [destruct els; discriminate|reflexivity].
Qed.
Lemma property_line : forall h els e p l, property_text p l -> elements h = els ++ [e] ->
  exists w, l = w ++ [newline] /\ Forall (fun c => c <> newline) w /\
    header_line h w = Ok (Some (Header (is_binary h) (is_big_endian h) (els ++ [Element (e_name e) (e_size e) (e_properties e ++ [p])]))).
Proof.
  intros h els e [n t lt] l (T & S & W & NL & ->) E. cbn [p_name p_type p_list] in *. subst lt. destruct (spelled_ok t T S) as (PT & NLIST & TN & TP). destruct (word_ok_space n W) as (NN & NP).
  exists (text "property " ++ text T ++ text " " ++ n). split; [rewrite <- !app_assoc; reflexivity|]. split.
  - apply Forall_app; split; [repeat constructor; discriminate|]. apply Forall_app. split; [apply plain_line, TP|]. apply Forall_app. split; [repeat constructor; discriminate|apply plain_line, NP].
  - unfold header_line. change (token (text "property " ++ text T ++ text " " ++ n)) with (text "property", " "%char :: text T ++ text " " ++ n). cbv iota beta.
    change (same (text "property") "ply") with false. change (same (text "property") "PLY") with false. change (same (text "property") "") with false. change (same (text "property") "comment") with false.
    change (same (text "property") "format") with false. change (same (text "property") "element") with false. change (same (text "property") "property") with true. cbn [orb].
    unfold read_property. rewrite token_space, (token_word (text T)) by (try assumption; right; exists " "%char, n; split; reflexivity). rewrite NLIST. change (text " " ++ n) with (" "%char :: n). rewrite token_space. rewrite <- (app_nil_r n) at 1. rewrite token_word by (try assumption; left; reflexivity). rewrite PT, E, add_to_last_app. reflexivity.
Qed.
Lemma property_lines : forall ps pl, Forall2 property_text ps pl -> forall n h els e r, elements h = els ++ [e] ->
  parse_lines (List.length ps + n) h (List.concat pl ++ r) = parse_lines n (Header (is_binary h) (is_big_endian h) (els ++ [Element (e_name e) (e_size e) (e_properties e ++ ps)])) r.
Proof.
  intros ps pl F. induction F as [|p l ps pl P F IH]; intros n h els e r E; cbn [List.length Nat.add List.concat app].
  - f_equal. destruct h as [b g k]. cbn in *. subst k. f_equal. f_equal. f_equal. destruct e; cbn. rewrite app_nil_r. reflexivity.
  - destruct (property_line h els e p l P E) as (w & -> & W & H). rewrite <- !app_assoc. cbn [app]. rewrite (parse_step _ _ _ _ _ W H). rewrite (IH n _ els (Element (e_name e) (e_size e) (e_properties e ++ [p])) r) by reflexivity.
    cbn [is_binary is_big_endian e_name e_size e_properties]. rewrite <- app_assoc. reflexivity.
Qed.
Lemma element_lines : forall els el, Forall2 element_text els el -> forall n h r,
  parse_lines (list_sum (map (fun e => S (List.length (e_properties e))) els) + n) h (List.concat el ++ r) = parse_lines n (Header (is_binary h) (is_big_endian h) (elements h ++ els)) r.
Proof.
  intros els el F. induction F as [|e l els el P F IH]; intros n h r.
  - destruct h. cbn. rewrite app_nil_r. reflexivity.
  - destruct P as (num & pl & W & B & NUM & PL & ->). destruct (word_ok_space _ W) as (NN & NP). destruct (number_plain _ _ NUM) as (DN & DP).
    cbn [map list_sum fold_right List.concat]. change (fold_right Nat.add 0%nat) with list_sum.
    set (w := text "element " ++ e_name e ++ text " " ++ num).
    assert (EQ : (text "element " ++ e_name e ++ text " " ++ num ++ [newline] ++ List.concat pl) ++ List.concat el ++ r = w ++ newline :: (List.concat pl ++ (List.concat el ++ r))) by (unfold w; rewrite <- !app_assoc; reflexivity).
    match goal with |- parse_lines _ _ ?x = _ => replace x with (w ++ newline :: (List.concat pl ++ (List.concat el ++ r))) by (rewrite <- EQ, <- !app_assoc; reflexivity) end.
    cbn [Nat.add]. rewrite (parse_step _ _ w _ (Header (is_binary h) (is_big_endian h) (elements h ++ [Element (e_name e) (e_size e) []]))).
    + rewrite <- Nat.add_assoc. rewrite (property_lines _ _ PL _ _ (elements h) (Element (e_name e) (e_size e) [])) by reflexivity. cbn [is_binary is_big_endian e_name e_size e_properties app]. rewrite IH. cbn [is_binary is_big_endian elements]. rewrite <- app_assoc. destruct e. reflexivity.
    + unfold w. apply Forall_app. split; [repeat constructor; discriminate|]. apply Forall_app. split; [apply plain_line, NP|]. apply Forall_app. split; [repeat constructor; discriminate|apply plain_line, DP].
    + unfold header_line, w. change (token (text "element " ++ e_name e ++ text " " ++ num)) with (text "element", " "%char :: e_name e ++ text " " ++ num). cbv iota beta.
      change (same (text "element") "ply") with false. change (same (text "element") "PLY") with false. change (same (text "element") "") with false. change (same (text "element") "comment") with false.
      change (same (text "element") "format") with false. change (same (text "element") "element") with true. cbn [orb].
      unfold read_element. rewrite token_space, (token_word (e_name e)) by (try assumption; right; exists " "%char, num; split; reflexivity). change (text " " ++ num) with (" "%char :: num). rewrite (read_size_ok num _ NUM B). reflexivity.
Qed.
Lemma lines_bound : forall els el, Forall2 element_text els el -> (list_sum (map (fun e => S (List.length (e_properties e))) els) <= List.length (List.concat el))%nat.
Proof.
  intros els el F. induction F as [|e l els el P F IH]; [cbn; lia|]. cbn [map list_sum fold_right List.concat]. change (fold_right Nat.add 0%nat) with list_sum. rewrite app_length.
  assert (B : (S (List.length (e_properties e)) <= List.length l)%nat); [|lia]. destruct P as (num & pl & _ & _ & _ & PL & ->). rewrite !app_length. cbn [List.length text list_ascii_of_string].
  assert (C : (List.length (e_properties e) <= List.length (List.concat pl))%nat); [|lia]. clear -PL. induction PL as [|p l ps pl P F IH]; [cbn; lia|]. cbn [List.length List.concat]. rewrite app_length.
  destruct P as (T & _ & _ & _ & ->). rewrite app_length. cbn [List.length text list_ascii_of_string]. lia.
Qed.
Lemma parse_header_ok : forall be els hd data, header_text be els hd -> parse_header (hd ++ data) = Ok (Header true be els, Stream data true).
Proof.
  intros be els hd data (el & F & ->). unfold parse_header. set (fmt := text (if be then "format binary_big_endian 1.0" else "format binary_little_endian 1.0")).
  assert (B : exists m, S (List.length ((text "ply" ++ [newline] ++ fmt ++ [newline] ++ List.concat el ++ text "end_header" ++ [newline]) ++ data)) = S (S (list_sum (map (fun e => S (List.length (e_properties e))) els) + S m))).
  { assert (X := lines_bound els el F). rewrite !app_length. cbn [List.length text list_ascii_of_string]. match goal with |- exists m, S ?a = S (S (?b + S m)) => exists (a - b - 2)%nat end. lia. }
  destruct B as (m & ->).
  replace ((text "ply" ++ [newline] ++ fmt ++ [newline] ++ List.concat el ++ text "end_header" ++ [newline]) ++ data)
    with (text "ply" ++ newline :: (fmt ++ newline :: (List.concat el ++ (text "end_header" ++ newline :: data)))) by (rewrite <- !app_assoc; reflexivity).
  rewrite (parse_step _ empty_header (text "ply") _ empty_header) by (try reflexivity; repeat constructor; discriminate).
  rewrite (parse_step _ empty_header fmt _ (Header true be [])).
  - rewrite (element_lines els el F). cbn [is_binary is_big_endian elements app]. apply parse_stop; [repeat constructor; discriminate|reflexivity].
  - unfold fmt. destruct be; repeat constructor; discriminate.
  - unfold fmt. destruct be; reflexivity.
Qed.

(** * Data *)

Definition flat (els : list element) : list (element * property) :=
  flat_map (fun e => List.concat (repeat (map (pair e) (e_properties e)) (N.to_nat (e_size e)))) els.
Lemma foldM_app : forall A S (f : S -> A -> res S) a b s, foldM f s (a ++ b) = (let* s := foldM f s a in foldM f s b).
Proof. intros A S f a. induction a as [|x a IH]; intros b s; [reflexivity|]. cbn [app foldM]. destruct (f s x); [|reflexivity]. cbn [bind]. apply IH. Qed.
Lemma foldM_ext : forall A S (f g : S -> A -> res S) l s, (forall s x, f s x = g s x) -> foldM f s l = foldM g s l.
Proof. intros A S f g l. induction l as [|x l IH]; intros s H; [reflexivity|]. cbn [foldM]. rewrite H. destruct (g s x); [|reflexivity]. cbn [bind]. apply IH, H. Qed.
Lemma foldM_map : forall A B S (f : S -> B -> res S) (g : A -> B) l s, foldM f s (map g l) = foldM (fun s x => f s (g x)) s l.
Proof. intros A B S f g l. induction l as [|x l IH]; intro s; [reflexivity|]. cbn [map foldM]. destruct (f s (g x)); [|reflexivity]. cbn [bind]. apply IH. Qed.
Lemma each_flat : forall S (f : element -> property -> S -> res S) els s, each_property f els s = foldM (fun s ep => f (fst ep) (snd ep) s) s (flat els).
Proof.
  intros S f els. unfold each_property. induction els as [|e els IH]; intro s; [reflexivity|]. cbn [foldM flat flat_map]. rewrite foldM_app. 
  assert (E : forall n s, foldM (fun s (_ : unit) => foldM (fun s p => f e p s) s (e_properties e)) s (repeat tt n) = foldM (fun s ep => f (fst ep) (snd ep) s) s (List.concat (repeat (map (pair e) (e_properties e)) n))).
  { intro n. induction n as [|n IHn]; intro s'; [reflexivity|]. cbn [repeat foldM List.concat]. rewrite foldM_app, foldM_map. cbn [fst snd]. destruct (foldM (fun s p => f e p s) s' (e_properties e)); [|reflexivity]. cbn [bind]. apply IHn. }
  rewrite E. destruct (foldM (fun s ep => f (fst ep) (snd ep) s) s _); [|reflexivity]. cbn [bind]. apply IH.
Qed.

Definition scalar (ep : element * property) : Prop := p_list (snd ep) = None /\ p_type (snd ep) <> INVALID.
Definition need (l : list (element * property)) : nat := list_sum (map (fun ep => stride (p_type (snd ep))) l).
Definition reqd (keys : list N) (l : list (element * property)) : nat := list_sum (map (fun ep => if requested keys (fst ep) (snd ep) then stride (p_type (snd ep)) else 0%nat) l).

Lemma is_read_good : forall n sc b r, List.length b = n -> is_read n (Reader sc (Stream (b ++ r) true)) = Reader (b ++ skipn n sc) (Stream r true).
Proof.
  intros n sc b r L. unfold is_read. cbn [good from rest scratch]. subst n. rewrite firstn_app, Nat.sub_diag, firstn_all. cbn [firstn]. rewrite app_nil_r. rewrite skipn_app, skipn_all, Nat.sub_diag. cbn [skipn app]. rewrite Nat.eqb_refl. reflexivity.
Qed.
Lemma is_read_length : forall n r, (n <= List.length (scratch r))%nat -> List.length (scratch (is_read n r)) = List.length (scratch r).
Proof.
  intros n r H. unfold is_read. destruct (good (from r)); [|reflexivity]. cbn [scratch]. rewrite app_length, skipn_length, firstn_length. lia.
Qed.
Lemma is_read_short : forall n sc l, (List.length l < n)%nat -> good (from (is_read n (Reader sc (Stream l true)))) = false.
Proof. intros n sc l H. unfold is_read. cbn [good from rest]. rewrite firstn_length. apply Nat.eqb_neq. lia. Qed.
Lemma is_read_bad : forall n r, good (from r) = false -> is_read n r = r.
Proof. intros n r H. unfold is_read. rewrite H. reflexivity. Qed.
Lemma stride_8 : forall t, (stride t <= 8)%nat.
Proof. intros []; cbn; lia. Qed.

Definition step1 (be : bool) (keys : list N) (x : nat * reader) (ep : element * property) : res (nat * reader) :=
  let* (n, r) := skip_property_binary be (snd ep) (snd x) in
  Ok ((if requested keys (fst ep) (snd ep) then fst x + n else fst x)%nat, r).
Lemma first_flat : forall be keys els s, first_pass be keys els s = foldM (step1 be keys) (0%nat, s) (flat els).
Proof. intros. unfold first_pass. rewrite each_flat. reflexivity. Qed.
Lemma first_ok : forall be keys l, Forall scalar l -> forall t r, (8 <= List.length (scratch r))%nat ->
  exists r', foldM (step1 be keys) (t, r) l = Ok ((t + reqd keys l)%nat, r') /\ List.length (scratch r') = List.length (scratch r) /\
    (good (from r) = false -> r' = r) /\
    (good (from r) = true -> (need l <= List.length (rest (from r)))%nat -> good (from r') = true) /\
    (good (from r) = true -> (List.length (rest (from r)) < need l)%nat -> good (from r') = false).
Proof.
  intros be keys l F. induction F as [|ep l (NL & NI) F IH]; intros t r H.
  - exists r. cbn. rewrite Nat.add_0_r. repeat split; try tauto. intros _ X. lia.
  - cbn [foldM]. set (st := stride (p_type (snd ep))).
    assert (ST : step1 be keys (t, r) ep = Ok ((if requested keys (fst ep) (snd ep) then t + st else t)%nat, is_read st r)) by (unfold step1, skip_property_binary; rewrite NL; reflexivity). rewrite ST. cbn [bind]. assert (S8 := stride_8 (p_type (snd ep))). fold st in S8.
    destruct (IH (if requested keys (fst ep) (snd ep) then t + st else t)%nat (is_read st r)) as (r' & E & L & BAD & GOOD & SHORT); [rewrite is_read_length; lia|].
    exists r'. split; [rewrite E; f_equal; f_equal; unfold reqd; cbn [map list_sum fold_right fst snd]; fold st; change (fold_right Nat.add 0%nat) with list_sum; destruct (requested keys (fst ep) (snd ep)); lia|].
    split; [rewrite L; apply is_read_length; lia|]. destruct r as [sc [rs g]]. cbn [from rest good scratch] in *. split; [|split].
    + intros ->. rewrite BAD; [reflexivity|]. rewrite is_read_bad; reflexivity.
    + intros -> N. unfold need in N. cbn [map list_sum fold_right] in N. fold st in N. change (fold_right Nat.add 0%nat) with list_sum in N.
      assert (RS : rs = firstn st rs ++ skipn st rs) by (symmetry; apply firstn_skipn). assert (LF : List.length (firstn st rs) = st) by (rewrite firstn_length; lia).
      rewrite RS in GOOD. rewrite (is_read_good st sc _ _ LF) in GOOD. apply GOOD; [reflexivity|]. cbn [from rest]. rewrite skipn_length. unfold need. lia.
    + intros -> N. destruct (le_lt_dec st (List.length rs)) as [Q|Q].
      * assert (RS : rs = firstn st rs ++ skipn st rs) by (symmetry; apply firstn_skipn). assert (LF : List.length (firstn st rs) = st) by (rewrite firstn_length; lia).
        rewrite RS in SHORT. rewrite (is_read_good st sc _ _ LF) in SHORT. apply SHORT; [reflexivity|]. cbn [from rest]. rewrite skipn_length. unfold need in *. cbn [map list_sum fold_right] in N. fold st in N. change (fold_right Nat.add 0%nat) with list_sum in N. lia.
      * rewrite BAD; apply is_read_short; exact Q.
Qed.

Definition step2 (cap : nat) (be : bool) (keys : list N) (x : bytes * reader) (ep : element * property) : res (bytes * reader) :=
  if requested keys (fst ep) (snd ep) then
    match p_list (snd ep) with
    | Some lt =>
        let* (b, r) := read_property_binary be lt (snd x) in
        foldM (fun (x : bytes * reader) (_ : unit) =>
                 let* (b, r) := read_property_binary be (p_type (snd ep)) (snd x) in
                 let* out := put cap (fst x) b in Ok (out, r))
              (fst x, r) (repeat tt (N.to_nat (le_value b)))
    | None =>
        let* (b, r) := read_property_binary be (p_type (snd ep)) (snd x) in
        let* out := put cap (fst x) b in Ok (out, r)
    end
  else let* (_, r) := skip_property_binary be (snd ep) (snd x) in Ok (fst x, r).
Lemma second_flat : forall cap be keys els s, second_pass cap be keys els s = foldM (step2 cap be keys) ([], s) (flat els).
Proof. intros. unfold second_pass. rewrite each_flat. reflexivity. Qed.

Definition swap (be : bool) (b : bytes) : bytes := if be then rev b else b.
Lemma swap_length : forall be b, List.length (swap be b) = List.length b.
Proof. intros [] b; [apply rev_length|reflexivity]. Qed.
Lemma read_binary : forall be t r, t <> INVALID -> read_property_binary be t r = Ok (swap be (firstn (stride t) (scratch (is_read (stride t) r))), is_read (stride t) r).
Proof. intros be t r H. unfold read_property_binary. destruct t; try congruence; reflexivity. Qed.
Lemma put_ok : forall cap out b, (List.length out + List.length b <= cap)%nat -> put cap out b = Ok (out ++ b).
Proof. intros cap out b H. unfold put. rewrite (proj2 (Nat.leb_le _ _)) by exact H. reflexivity. Qed.

Definition taken (be : bool) (keys : list N) (x : (element * property) * bytes) : bytes :=
  if requested keys (fst (fst x)) (snd (fst x)) then swap be (snd x) else [].
Lemma second_good : forall cap be keys l fields, Forall scalar l -> Forall2 (fun ep f => List.length f = stride (p_type (snd ep))) l fields ->
  forall out sc r, (8 <= List.length sc)%nat -> (List.length out + reqd keys l <= cap)%nat ->
  exists sc', foldM (step2 cap be keys) (out, Reader sc (Stream (List.concat fields ++ r) true)) l = Ok (out ++ flat_map (taken be keys) (combine l fields), Reader sc' (Stream r true)).
Proof.
  intros cap be keys l fields S F. induction F as [|ep f l fields L F IH]; intros out sc r H C.
  - exists sc. cbn. rewrite app_nil_r. reflexivity.
  - inversion S as [|? ? (NL & NI) S']; subst. cbn [foldM List.concat combine flat_map]. assert (S8 := stride_8 (p_type (snd ep))). set (st := stride (p_type (snd ep))) in *.
    unfold reqd in C. cbn [map list_sum fold_right] in C. change (fold_right Nat.add 0%nat) with list_sum in C. fold st in C. rewrite <- app_assoc.
    assert (R := is_read_good st sc f (List.concat fields ++ r) L).
    assert (FST : firstn st (f ++ skipn st sc) = f) by (rewrite <- L, firstn_app, Nat.sub_diag, firstn_all; cbn; apply app_nil_r).
    assert (H' : (8 <= List.length (f ++ skipn st sc))%nat) by (rewrite app_length, skipn_length, L; lia).
    assert (ST : step2 cap be keys (out, Reader sc (Stream (f ++ List.concat fields ++ r) true)) ep = Ok (out ++ taken be keys (ep, f), Reader (f ++ skipn st sc) (Stream (List.concat fields ++ r) true))).
    { unfold step2, taken. cbn [fst snd]. destruct (requested keys (fst ep) (snd ep)) eqn:RQ.
      - rewrite NL, (read_binary be _ _ NI). fold st. rewrite R. cbn [bind scratch]. rewrite FST. rewrite put_ok by (rewrite swap_length, L; lia). reflexivity.
      - unfold skip_property_binary. rewrite NL. fold st. rewrite R. cbn [bind]. rewrite app_nil_r. reflexivity. }
    rewrite ST. cbn [bind]. unfold taken at 1 2. cbn [fst snd]. destruct (requested keys (fst ep) (snd ep)) eqn:RQ.
    +
      destruct (IH S' (out ++ swap be f) (f ++ skipn st sc) r H') as (sc' & E); [rewrite app_length, swap_length, L; unfold reqd; lia|]. exists sc'. rewrite E, <- app_assoc. reflexivity.
    + rewrite app_nil_r. destruct (IH S' out (f ++ skipn st sc) r H') as (sc' & E); [unfold reqd; lia|]. exists sc'. rewrite E. reflexivity.
Qed.
Lemma second_bad : forall cap be keys l, Forall scalar l -> forall out r, (8 <= List.length (scratch r))%nat -> good (from r) = false -> (List.length out + reqd keys l <= cap)%nat ->
  foldM (step2 cap be keys) (out, r) l = Ok (out ++ flat_map (fun ep => if requested keys (fst ep) (snd ep) then swap be (firstn (stride (p_type (snd ep))) (scratch r)) else []) l, r).
Proof.
  intros cap be keys l S. induction S as [|ep l (NL & NI) S IH]; intros out r H B C; [cbn; rewrite app_nil_r; reflexivity|]. assert (S8 := stride_8 (p_type (snd ep))).
  cbn [foldM flat_map]. unfold reqd in C. cbn [map list_sum fold_right] in C. change (fold_right Nat.add 0%nat) with list_sum in C. assert (ST : step2 cap be keys (out, r) ep = if requested keys (fst ep) (snd ep) then (let* out := put cap out (swap be (firstn (stride (p_type (snd ep))) (scratch r))) in Ok (out, r)) else Ok (out, r)).
  { unfold step2. cbn [fst snd]. destruct (requested keys (fst ep) (snd ep)); [rewrite NL, (read_binary be _ _ NI), is_read_bad by exact B; reflexivity|]. unfold skip_property_binary. rewrite NL, is_read_bad by exact B. reflexivity. }
  rewrite ST. destruct (requested keys (fst ep) (snd ep)) eqn:RQ.
  - assert (LS : List.length (swap be (firstn (stride (p_type (snd ep))) (scratch r))) = stride (p_type (snd ep))) by (rewrite swap_length, firstn_length; lia).
    rewrite put_ok by (rewrite LS; lia). cbn [bind]. rewrite IH by (try assumption; rewrite app_length, LS; unfold reqd; lia). rewrite <- app_assoc. reflexivity.
  - cbn [bind]. rewrite IH by (try assumption; unfold reqd; lia). reflexivity.
Qed.

Lemma taken_length : forall be keys l fields, Forall2 (fun ep f => List.length f = stride (p_type (snd ep))) l fields -> List.length (flat_map (taken be keys) (combine l fields)) = reqd keys l.
Proof.
  intros be keys l fields F. induction F as [|ep f l fields L F IH]; [reflexivity|]. cbn [combine flat_map]. rewrite app_length, IH. unfold reqd. cbn [map list_sum fold_right]. f_equal. unfold taken. cbn [fst snd]. destruct (requested keys (fst ep) (snd ep)); [rewrite swap_length; exact L|reflexivity].
Qed.
Lemma fields_need : forall l fields, Forall2 (fun (ep : element * property) (f : bytes) => List.length f = stride (p_type (snd ep))) l fields -> List.length (List.concat fields) = need l.
Proof. intros l fields F. induction F as [|ep f l fields L F IH]; [reflexivity|]. cbn [List.concat]. rewrite app_length, IH, L. reflexivity. Qed.

Lemma read_data_good : forall be keys els fields extra, Forall scalar (flat els) -> Forall2 (fun ep f => List.length f = stride (p_type (snd ep))) (flat els) fields ->
  read_data be keys els (Stream (List.concat fields ++ extra) true) = Ok (flat_map (taken be keys) (combine (flat els) fields)).
Proof.
  intros be keys els fields extra S F. unfold read_data. rewrite first_flat.
  destruct (first_ok be keys (flat els) S 0 (Reader (repeat zero 128) (Stream (List.concat fields ++ extra) true))) as (r' & E & L & _ & G & _); [cbn [scratch]; rewrite repeat_length; lia|]. rewrite E. cbn [bind].
  rewrite G; [|reflexivity|cbn [from rest]; rewrite app_length, (fields_need _ _ F); lia]. rewrite second_flat.
  destruct (second_good (0 + reqd keys (flat els)) be keys _ _ S F [] (scratch r') extra) as (sc' & E2); [rewrite L; cbn [scratch]; rewrite repeat_length; lia|cbn; lia|].
  rewrite E2. cbn [bind app]. rewrite (taken_length _ _ _ _ F), Nat.eqb_refl. reflexivity.
Qed.
Lemma read_data_short : forall be keys els data, Forall scalar (flat els) -> (List.length data < need (flat els))%nat ->
  exists sc, (8 <= List.length sc)%nat /\ read_data be keys els (Stream data true) = Ok (flat_map (fun ep => if requested keys (fst ep) (snd ep) then swap be (firstn (stride (p_type (snd ep))) sc) else []) (flat els)).
Proof.
  intros be keys els data S N. unfold read_data. rewrite first_flat.
  destruct (first_ok be keys (flat els) S 0 (Reader (repeat zero 128) (Stream data true))) as (r' & E & L & _ & _ & SH); [cbn [scratch]; rewrite repeat_length; lia|]. rewrite E. cbn [bind].
  rewrite SH by (try reflexivity; exact N). rewrite second_flat. assert (L8 : (8 <= List.length (scratch r'))%nat) by (rewrite L; cbn [scratch]; rewrite repeat_length; lia).
  exists (scratch r'). split; [exact L8|]. rewrite second_bad; [|exact S|exact L8|cbn [from]; apply SH; [reflexivity|exact N]|cbn; lia]. cbn [bind app scratch].
  assert (X : forall l, List.length (flat_map (fun ep => if requested keys (fst ep) (snd ep) then swap be (firstn (stride (p_type (snd ep))) (scratch r')) else []) l) = reqd keys l).
  { intro l. induction l as [|ep l IH]; [reflexivity|]. cbn [flat_map]. rewrite app_length, IH. unfold reqd. cbn [map list_sum fold_right]. f_equal. assert (S8 := stride_8 (p_type (snd ep))). destruct (requested keys (fst ep) (snd ep)); [rewrite swap_length, firstn_length; lia|reflexivity]. }
  rewrite X, Nat.eqb_refl. reflexivity.
Qed.

(** * The whole file *)

Definition bytes_of_rows (d : list (list bytes)) : bytes := List.concat (List.concat d).

Lemma Forall2_concat_app : forall A B (R : A -> B -> Prop) a b c d, Forall2 R a b -> Forall2 R c d -> Forall2 R (a ++ c) (b ++ d).
Proof. intros A B R a b c d F. induction F; intro G; [exact G|]. cbn. constructor; auto. Qed.
Lemma row_flat : forall e row, row_ok e row -> Forall2 (fun (ep : element * property) f => List.length f = stride (p_type (snd ep))) (map (pair e) (e_properties e)) row.
Proof.
  intros e row H. unfold row_ok in H. induction H as [|p f ps row W F IH]; cbn [map]; constructor; [cbn [snd]; symmetry; apply width_stride, W|exact IH].
Qed.
Lemma rows_flat : forall e rows, Forall (row_ok e) rows -> Forall2 (fun (ep : element * property) f => List.length f = stride (p_type (snd ep))) (List.concat (repeat (map (pair e) (e_properties e)) (List.length rows))) (List.concat rows).
Proof. intros e rows F. induction F as [|row rows R F IH]; cbn [List.length repeat List.concat]; [constructor|]. apply Forall2_concat_app; [apply row_flat, R|exact IH]. Qed.
Lemma data_flat : forall els d, Forall2 rows_ok els d -> Forall2 (fun (ep : element * property) f => List.length f = stride (p_type (snd ep))) (flat els) (List.concat (List.concat d)).
Proof.
  intros els d F. induction F as [|e rows els d (L & R) F IH]; cbn [flat flat_map List.concat]; [constructor|]. rewrite concat_app. apply Forall2_concat_app; [|exact IH]. rewrite <- L, Nat2N.id. apply rows_flat, R.
Qed.
Lemma header_scalar : forall be els hd, header_text be els hd -> Forall scalar (flat els) /\ forall e p, In e els -> In p (e_properties e) -> p_list p = None /\ width (p_type p) (stride (p_type p)).
Proof.
  intros be els hd (el & F & _). assert (P : forall e p, In e els -> In p (e_properties e) -> p_list p = None /\ width (p_type p) (stride (p_type p))).
  { intros e p IE IP. clear -F IE IP. induction F as [|x l els el H F IH]; [destruct IE|]. destruct IE as [-> |IE]; [|apply IH, IE]. destruct H as (_ & pl & _ & _ & _ & PL & _).
    induction PL as [|q l' ps pl Q PL IH']; [destruct IP|]. destruct IP as [-> |IP]; [|apply IH', IP]. destruct Q as (T & S & _ & N & _). split; [exact N|eapply spelled_width, S]. }
  split; [|exact P]. apply Forall_forall. intros [e p] I. unfold flat in I. apply in_flat_map in I. destruct I as (x & IX & I). apply in_concat in I. destruct I as (l & IL & I). apply repeat_spec in IL. subst l. apply in_map_iff in I. destruct I as (q & EQ & IQ). injection EQ as -> ->.
  destruct (P e p IX IQ) as (A & B). split; [exact A|]. apply width_stride in B. apply B.
Qed.

Definition xyz_keys : list N := [hash_fnv1a (text "vertexx"); hash_fnv1a (text "vertexy"); hash_fnv1a (text "vertexz")].
Lemma same_true : forall a s, same a s = true <-> a = text s.
Proof. intros a s. unfold same. destruct (list_eq_dec ascii_dec a (text s)); split; congruence. Qed.
Lemma same_refl : forall s, same (text s) s = true.
Proof. intro s. apply same_true. reflexivity. Qed.
Lemma is_xyz_spec : forall p, is_xyz p = true <-> exists k, In k ["x"; "y"; "z"] /\ p_name p = text k.
Proof.
  intro p. unfold is_xyz. rewrite existsb_exists. split; intros (k & I & H); exists k; (split; [exact I|]); apply same_true; exact H.
Qed.
Lemma find_xyz : forall e k, has_xyz e -> In k ["x"; "y"; "z"] -> exists p, find_property k (e_properties e) = Some p /\ p_name p = text k.
Proof.
  intros e k H I. unfold find_property. assert (P : In (Property (text k) FLOAT32 None) (e_properties e)).
  { assert (F : In (Property (text k) FLOAT32 None) (filter is_xyz (e_properties e))) by (rewrite H; cbn in *; intuition (subst; auto)). apply filter_In in F. apply F. }
  destruct (find (fun p => same (p_name p) k) (e_properties e)) as [p|] eqn:E.
  - exists p. split; [reflexivity|]. apply find_some in E. apply same_true, E.
  - exfalso. apply (find_none _ _ E) in P. cbn [p_name] in P. rewrite same_refl in P. discriminate P.
Qed.
Lemma request_ok : forall pre e post, e_name e = text "vertex" -> (forall x, In x pre -> e_name x <> text "vertex") -> has_xyz e ->
  request_properties (pre ++ e :: post) "vertex" ["x"; "y"; "z"] = Ok (xyz_keys, e_size e).
Proof.
  intros pre e post N NP H. unfold request_properties.
  assert (F : find_element "vertex" (pre ++ e :: post) = Some e).
  { unfold find_element. induction pre as [|x pre IH]; cbn [app find]; [rewrite N, same_refl; reflexivity|]. destruct (same (e_name x) "vertex") eqn:S; [|apply IH; intros y I; apply NP; right; exact I].
    apply same_true in S. exfalso. apply (NP x); [left; reflexivity|exact S]. }
  rewrite F. destruct (pre ++ e :: post) eqn:Z; [destruct pre; discriminate Z|]. clear Z.
  destruct (find_xyz e "x" H) as (px & Ex & Nx); [cbn; auto|]. destruct (find_xyz e "y" H) as (py & Ey & Ny); [cbn; auto|]. destruct (find_xyz e "z" H) as (pz & Ez & Nz); [cbn; auto|].
  cbn [foldM]. rewrite Ex, Nx, N. cbn [existsb bind]. rewrite Ey, Ny. cbn [bind app]. change (text "vertex" ++ text "x") with (text "vertexx"). change (text "vertex" ++ text "y") with (text "vertexy"). change (text "vertex" ++ text "z") with (text "vertexz").
  replace (existsb (N.eqb (hash_fnv1a (text "vertexy"))) [hash_fnv1a (text "vertexx")]) with false by (vm_compute; reflexivity). cbn [bind app]. rewrite Ez, Nz. change (text "vertex" ++ text "z") with (text "vertexz").
  replace (existsb (N.eqb (hash_fnv1a (text "vertexz"))) [hash_fnv1a (text "vertexx"); hash_fnv1a (text "vertexy")]) with false by (vm_compute; reflexivity). reflexivity.
Qed.
Lemma requested_spec : forall els e p, no_collision els -> In e els -> In p (e_properties e) ->
  requested xyz_keys e p = true <-> e_name e = text "vertex" /\ is_xyz p = true.
Proof.
  intros els e p NC IE IP. unfold requested. rewrite existsb_exists. split.
  - intros (h & I & H). apply N.eqb_eq in H. assert (K : exists k, In k ["x"; "y"; "z"] /\ h = hash_fnv1a (text "vertex" ++ text k)).
    { destruct I as [<- |[<- |[<- |[]]]]; [exists "x"|exists "y"|exists "z"]; (split; [cbn; tauto|reflexivity]). }
    destruct K as (k & IK & ->). destruct (NC e p k IE IP IK H) as (A & B). split; [exact A|]. apply is_xyz_spec. eauto.
  - intros (N & X). apply is_xyz_spec in X. destruct X as (k & IK & P). rewrite N, P. exists (hash_fnv1a (text "vertex" ++ text k)). split; [|apply N.eqb_refl].
    destruct IK as [<- |[<- |[<- |[]]]]; [left|right; left|right; right; left]; reflexivity.
Qed.

Lemma taken_other : forall be l fields, (forall ep, In ep l -> requested xyz_keys (fst ep) (snd ep) = false) -> flat_map (taken be xyz_keys) (combine l fields) = [].
Proof.
  intros be l. induction l as [|ep l IH]; intros [|f fields] H; try reflexivity. cbn [combine flat_map]. unfold taken at 1. cbn [fst snd]. rewrite H by (left; reflexivity). apply IH. intros x I. apply H. right. exact I.
Qed.
Lemma combine_app' : forall A B (a : list A) (b : list B) c d, List.length a = List.length b -> combine (a ++ c) (b ++ d) = combine a b ++ combine c d.
Proof. intros A B a. induction a as [|x a IH]; intros [|y b] c d L; try discriminate; [reflexivity|]. cbn. f_equal. apply IH. cbn in L. lia. Qed.
Lemma Forall2_len : forall A B (R : A -> B -> Prop) a b, Forall2 R a b -> List.length a = List.length b.
Proof. intros A B R a b F. induction F; cbn; congruence. Qed.

(** One row. *)
Lemma float_of_exists : forall be f, List.length f = 4%nat -> exists x, float_of be f x /\ swap be f = float_bytes x.
Proof.
  intros be f L. destruct f as [|a [|b [|c [|d [|]]]]]; try discriminate L. destruct be; [exists (d, c, b, a)|exists (a, b, c, d)]; split; reflexivity.
Qed.
Lemma row_taken : forall be e row, (forall p, In p (e_properties e) -> requested xyz_keys e p = is_xyz p) -> has_xyz e -> row_ok e row ->
  exists fx fy fz x y z, flat_map (taken be xyz_keys) (combine (map (pair e) (e_properties e)) row) = float_bytes x ++ float_bytes y ++ float_bytes z /\
    field e row "x" fx /\ float_of be fx x /\ field e row "y" fy /\ float_of be fy y /\ field e row "z" fz /\ float_of be fz z.
Proof.
  intros be e row RQ H R.
  assert (T : forall ps row, (forall p, In p ps -> requested xyz_keys e p = is_xyz p) -> flat_map (taken be xyz_keys) (combine (map (pair e) ps) row) = flat_map (fun q => swap be (snd q)) (filter (fun q => is_xyz (fst q)) (combine ps row))).
  { intro ps. induction ps as [|p ps IH]; intros [|f rw] Q; try reflexivity. cbn [map combine flat_map filter]. rewrite IH by (intros; apply Q; right; assumption). unfold taken at 1. cbn [fst snd]. rewrite Q by (left; reflexivity). destruct (is_xyz p); reflexivity. }
  rewrite (T _ _ RQ). set (qs := filter (fun q => is_xyz (fst q)) (combine (e_properties e) row)).
  assert (M : map fst qs = filter is_xyz (e_properties e)).
  { unfold qs. unfold row_ok in R. clear -R. induction R as [|p f ps rw _ R IH]; [reflexivity|]. cbn [combine filter fst]. destruct (is_xyz p); cbn [map fst]; rewrite IH; reflexivity. }
  assert (Q : forall p f, In (p, f) qs -> List.length f = stride (p_type p) /\ exists i, nth_error (e_properties e) i = Some p /\ nth_error row i = Some f).
  { intros p f I. apply filter_In in I. destruct I as (I & _). unfold row_ok in R. clear -R I. induction R as [|q g ps rw W R IH]; [destruct I|]. destruct I as [E|I].
    - injection E as -> ->. split; [symmetry; apply width_stride, W|]. exists 0%nat. split; reflexivity.
    - destruct (IH I) as (L & i & A & B). split; [exact L|]. exists (S i). split; assumption. }
  rewrite H in M. destruct qs as [|[px fx] [|[py fy] [|[pz fz] [|]]]]; try discriminate M. cbn [map fst] in M. injection M as -> -> ->.
  destruct (Q _ fx ltac:(left; reflexivity)) as (Lx & ix & Ax & Bx). destruct (Q _ fy ltac:(right; left; reflexivity)) as (Ly & iy & Ay & By). destruct (Q _ fz ltac:(right; right; left; reflexivity)) as (Lz & iz & Az & Bz).
  destruct (float_of_exists be fx Lx) as (x & Fx & Sx). destruct (float_of_exists be fy Ly) as (y & Fy & Sy). destruct (float_of_exists be fz Lz) as (z & Fz & Sz).
  exists fx, fy, fz, x, y, z. split; [cbn [flat_map snd]; rewrite Sx, Sy, Sz, app_nil_r; reflexivity|]. split; [exists ix; eexists; split; [exact Ax|split; [reflexivity|exact Bx]]|]. split; [exact Fx|].
  split; [exists iy; eexists; split; [exact Ay|split; [reflexivity|exact By]]|]. split; [exact Fy|]. split; [exists iz; eexists; split; [exact Az|split; [reflexivity|exact Bz]]|]. exact Fz.
Qed.
Definition triple_bytes (t : f32 * f32 * f32) : bytes := float_bytes (fst (fst t)) ++ float_bytes (snd (fst t)) ++ float_bytes (snd t).
Lemma rows_taken : forall be e rows, (forall p, In p (e_properties e) -> requested xyz_keys e p = is_xyz p) -> has_xyz e -> Forall (row_ok e) rows ->
  exists ts, flat_map (taken be xyz_keys) (combine (List.concat (repeat (map (pair e) (e_properties e)) (List.length rows))) (List.concat rows)) = flat_map triple_bytes ts /\ Forall2 (row_is be e) rows ts.
Proof.
  intros be e rows RQ H F. induction F as [|row rows R F IH]; [exists []; split; [reflexivity|constructor]|]. destruct IH as (ts & E & G).
  destruct (row_taken be e row RQ H R) as (fx & fy & fz & x & y & z & ER & A1 & A2 & A3 & A4 & A5 & A6). exists ((x, y, z) :: ts). split.
  - cbn [List.length repeat List.concat]. rewrite combine_app' by (rewrite map_length; exact (Forall2_len _ _ _ _ _ R)). rewrite flat_map_app, ER, E. reflexivity.
  - constructor; [exists fx, fy, fz; cbn [fst snd]; auto 10|exact G].
Qed.

Lemma floats_bytes : forall l r, floats (flat_map float_bytes l ++ r) = l ++ floats r.
Proof. intros l r. induction l as [|[[[a b] c] d] l IH]; [reflexivity|]. cbn [flat_map float_bytes app floats]. rewrite IH. reflexivity. Qed.
Lemma triples_bytes : forall ts, flat_map triple_bytes ts = flat_map float_bytes (flat_map triple_floats ts).
Proof. intro ts. induction ts as [|[[x y] z] ts IH]; [reflexivity|]. cbn [flat_map triple_floats fst snd app]. rewrite IH. unfold triple_bytes. cbn [fst snd]. rewrite <- !app_assoc. reflexivity. Qed.
Lemma triples_length : forall ts, List.length (flat_map triple_bytes ts) = (12 * List.length ts)%nat.
Proof. intro ts. induction ts as [|[[[[[a b] c] d] [[[a' b'] c'] d']] [[[a'' b''] c''] d'']] ts IH]; [reflexivity|]. cbn [flat_map]. rewrite app_length, IH. cbn [List.length]. unfold triple_bytes. cbn. lia. Qed.

Lemma read_ok : forall ascii_data be pre e post hd dpre rows dpost extra,
  e_name e = text "vertex" -> (forall x, In x (pre ++ post) -> e_name x <> text "vertex") ->
  header_text be (pre ++ e :: post) hd -> has_xyz e -> no_collision (pre ++ e :: post) ->
  Forall2 rows_ok pre dpre -> rows_ok e rows -> Forall2 rows_ok post dpost ->
  exists ts, read_points_cpp ascii_data (hd ++ List.concat (List.concat (List.concat (dpre ++ rows :: dpost))) ++ extra) = Ok (flat_map triple_floats ts) /\ Forall2 (row_is be e) rows ts.
Proof.
  intros ascii_data be pre e post hd dpre rows dpost extra N NP HD H NC FP FR FQ.
  unfold read_points_cpp. rewrite (parse_header_ok be _ hd _ HD). cbn [bind elements is_binary is_big_endian].
  rewrite request_ok by (try assumption; intros x I; apply NP, in_or_app; left; exact I). cbn [bind].
  destruct (header_scalar be _ hd HD) as (SC & _).
  assert (DF : Forall2 rows_ok (pre ++ e :: post) (dpre ++ rows :: dpost)) by (apply Forall2_concat_app; [exact FP|constructor; assumption]).
  rewrite (read_data_good be xyz_keys _ _ extra SC (data_flat _ _ DF)). cbn [bind].
  assert (RQ : forall p, In p (e_properties e) -> requested xyz_keys e p = is_xyz p).
  { intros p I. apply eq_true_iff_eq. assert (IE : In e (pre ++ e :: post)) by (apply in_or_app; right; left; reflexivity). rewrite (requested_spec _ e p NC IE I). split; [intros (_ & X); exact X|intro X; split; assumption]. }
  assert (RO : forall els, incl els (pre ++ post) -> forall ep, In ep (flat els) -> requested xyz_keys (fst ep) (snd ep) = false).
  { intros els IN [x p] I. unfold flat in I. apply in_flat_map in I. destruct I as (x' & IX & I). apply in_concat in I. destruct I as (l & IL & I). apply repeat_spec in IL. subst l. apply in_map_iff in I. destruct I as (q & EQ & IQ). injection EQ as -> ->.
    cbn [fst snd]. destruct (requested xyz_keys x p) eqn:E; [|reflexivity]. exfalso. assert (IX' := IN x IX). apply requested_spec with (els := pre ++ e :: post) in E; [|exact NC|apply in_app_iff; apply in_app_iff in IX'; cbn; tauto|exact IQ]. apply (NP x IX'), E. }
  destruct FR as (LR & FR). destruct (rows_taken be e rows RQ H FR) as (ts & ET & FT).
  assert (OUT : flat_map (taken be xyz_keys) (combine (flat (pre ++ e :: post)) (List.concat (List.concat (dpre ++ rows :: dpost)))) = flat_map triple_bytes ts).
  { unfold flat. rewrite flat_map_app. cbn [flat_map]. fold (flat pre) (flat post). rewrite concat_app. cbn [List.concat]. rewrite !concat_app.
    rewrite combine_app' by (apply (Forall2_len _ _ _ _ _ (data_flat _ _ FP))). rewrite <- LR, Nat2N.id.
    rewrite combine_app' by (apply (Forall2_len _ _ _ _ _ (rows_flat _ _ FR))). rewrite !flat_map_app, ET.
    rewrite !taken_other; [rewrite app_nil_r; reflexivity| |]; apply RO; intros x I; apply in_or_app; auto. }
  unfold bytes in *. rewrite OUT. rewrite triples_length. assert (LT := Forall2_len _ _ _ _ _ FT). rewrite <- LR, Nat2N.id, LT. rewrite Nat.leb_refl, Nat.sub_diag. cbn [repeat]. exists ts. split; [|exact FT].
  rewrite triples_bytes, floats_bytes. cbn [floats]. rewrite app_nil_r. reflexivity.
Qed.

(** * Writing *)

Lemma word_bool : forall w, w <> [] -> forallb (fun c => negb (is_space c)) w = true -> word_ok w.
Proof.
  intros w N F. split; [exact N|]. apply Forall_forall. intros c I. rewrite forallb_forall in F. specialize (F c I). apply negb_true_iff in F. unfold is_space in F. apply orb_false_iff in F. destruct F as (A & B). split; [apply N.eqb_neq, A|].
  intros (C & D). apply N.leb_le in C, D. rewrite C, D in B. discriminate B.
Qed.
Lemma write_header_text : forall els, Forall (fun e => word_ok (e_name e) /\ (e_size e < 18446744073709551616)%N /\ Forall (fun p => word_ok (p_name p) /\ p_list p = None /\ p_type p <> INVALID) (e_properties e)) els ->
  header_text false els (write_header els).
Proof.
  intros els F. exists (map (fun e => text "element " ++ e_name e ++ text " " ++ print_size (e_size e) ++ [newline] ++ flat_map write_property (e_properties e)) els). split.
  - induction F as [|e els (W & B & P) F IH]; cbn [map]; constructor; [|exact IH]. exists (print_size (e_size e)), (map write_property (e_properties e)). split; [exact W|]. split; [exact B|]. split; [apply print_size_text|]. split; [|rewrite flat_map_concat_map; reflexivity].
    clear -P. induction P as [|p ps (W & N & I) P IH]; cbn [map]; constructor; [|exact IH]. exists (type_name (p_type p)). split; [apply spelled_name, I|]. split; [exact W|]. split; [exact N|]. unfold write_property. rewrite N. reflexivity.
  - unfold write_header. rewrite flat_map_concat_map. reflexivity.
Qed.

Definition xyz : list property := [Property (text "x") FLOAT32 None; Property (text "y") FLOAT32 None; Property (text "z") FLOAT32 None].
Definition rgb : list property := [Property (text "red") UINT8 None; Property (text "green") UINT8 None; Property (text "blue") UINT8 None].
Definition vertex_el (n : N) : element := Element (text "vertex") n xyz.
Definition vertex_rgb_el (n : N) : element := Element (text "vertex") n (xyz ++ rgb).

Definition hx (k : string) : N := hash_fnv1a (text "vertex" ++ text k).
Definition user3 : list (N * nat) := [(hx "x", 0%nat); (hx "y", 0%nat); (hx "z", 0%nat)].
Definition user6 : list (N * nat) := user3 ++ [(hx "red", 1%nat); (hx "green", 1%nat); (hx "blue", 1%nat)].
Lemma vertex_writer_is : forall ps, vertex_writer ps = Writer [vertex_el (N.of_nat (List.length ps) / 3)] user3 [(flat_map float_bytes ps, 0%nat)].
Proof.
  intro ps. unfold vertex_writer, add_properties. cbn [empty_writer w_elements w_user w_buffers add_to_element map app]. f_equal.
Qed.
Lemma color_writer_is : forall ps cs, add_properties (vertex_writer ps) "vertex" ["red"; "green"; "blue"] UINT8 (N.of_nat (List.length cs) / 3) cs =
  Writer [vertex_rgb_el (N.of_nat (List.length ps) / 3)] user6 [(flat_map float_bytes ps, 0%nat); (cs, 0%nat)].
Proof.
  intros ps cs. rewrite vertex_writer_is. unfold add_properties. cbn [w_elements w_user w_buffers app]. f_equal.
Qed.

Definition wstep (u : list (N * nat)) (x : bytes * list (bytes * nat)) (ep : element * property) : res (bytes * list (bytes * nat)) :=
  match dget N.eqb (hash_fnv1a (e_name (fst ep) ++ p_name (snd ep))) u with
  | Some i => let* (b, bs) := advance (snd x) i (stride (p_type (snd ep))) in Ok (fst x ++ b, bs)
  | None => Err Undefined
  end.
Lemma write_flat : forall w, write_binary w = (let* (out, _) := foldM (wstep (w_user w)) ([], w_buffers w) (flat (w_elements w)) in Ok (write_header (w_elements w) ++ out)).
Proof. intro w. unfold write_binary. rewrite each_flat. reflexivity. Qed.

Lemma advance_here : forall d b r o bs n, o = List.length d -> List.length b = n -> advance ((d ++ b ++ r, o) :: bs) 0 n = Ok (b, (d ++ b ++ r, (o + n)%nat) :: bs).
Proof.
  intros d b r o bs n -> <-. cbn [advance]. rewrite (proj2 (Nat.leb_le _ _)) by (rewrite !app_length; lia). rewrite skipn_app, skipn_all, Nat.sub_diag. cbn [skipn app]. rewrite firstn_app, Nat.sub_diag, firstn_all. cbn [firstn]. rewrite app_nil_r. reflexivity.
Qed.
Lemma step_here : forall u e p out d b r o bs, dget N.eqb (hash_fnv1a (e_name e ++ p_name p)) u = Some 0%nat -> o = List.length d -> List.length b = stride (p_type p) ->
  wstep u (out, (d ++ b ++ r, o) :: bs) (e, p) = Ok (out ++ b, (d ++ b ++ r, (o + stride (p_type p))%nat) :: bs).
Proof. intros u e p out d b r o bs U O L. unfold wstep. cbn [fst snd]. rewrite U, (advance_here _ _ _ _ _ _ O L). reflexivity. Qed.
Lemma step_second : forall u e p out x d b r o, dget N.eqb (hash_fnv1a (e_name e ++ p_name p)) u = Some 1%nat -> o = List.length d -> List.length b = stride (p_type p) ->
  wstep u (out, [x; (d ++ b ++ r, o)]) (e, p) = Ok (out ++ b, [x; (d ++ b ++ r, (o + stride (p_type p))%nat)]).
Proof. intros u e p out x d b r o U O L. unfold wstep. cbn [fst snd]. rewrite U. destruct x as [xd xo]. change (advance [(xd, xo); (d ++ b ++ r, o)] 1 (stride (p_type p))) with (let* (c, bs) := advance [(d ++ b ++ r, o)] 0 (stride (p_type p)) in Ok (c, (xd, xo) :: bs)). rewrite (advance_here _ _ _ _ _ _ O L). reflexivity. Qed.
Lemma float_length : forall f, List.length (float_bytes f) = 4%nat.
Proof. intros [[[a b] c] d]. reflexivity. Qed.
Lemma float_stride : forall f k, List.length (float_bytes f) = stride (p_type (Property k FLOAT32 None)).
Proof. intros. apply float_length. Qed.

(** The coordinates of one point. *)
Lemma xyz_row : forall u n ps t out d r bs, dget N.eqb (hx "x") u = Some 0%nat -> dget N.eqb (hx "y") u = Some 0%nat -> dget N.eqb (hx "z") u = Some 0%nat ->
  foldM (wstep u) (out, (d ++ triple_bytes t ++ r, List.length d) :: bs) (map (pair (Element (text "vertex") n ps)) xyz) =
  Ok (out ++ triple_bytes t, ((d ++ triple_bytes t) ++ r, List.length (d ++ triple_bytes t)) :: bs).
Proof.
  intros u n ps [[x y] z] out d r bs UX UY UZ. unfold triple_bytes, xyz. cbn [fst snd map foldM].
  assert (E1 : d ++ (float_bytes x ++ float_bytes y ++ float_bytes z) ++ r = d ++ float_bytes x ++ (float_bytes y ++ float_bytes z ++ r)) by (rewrite <- !app_assoc; reflexivity).
  assert (E2 : d ++ float_bytes x ++ (float_bytes y ++ float_bytes z ++ r) = (d ++ float_bytes x) ++ float_bytes y ++ (float_bytes z ++ r)) by (rewrite <- !app_assoc; reflexivity).
  assert (E3 : (d ++ float_bytes x) ++ float_bytes y ++ (float_bytes z ++ r) = (d ++ float_bytes x ++ float_bytes y) ++ float_bytes z ++ r) by (rewrite <- !app_assoc; reflexivity).
  rewrite E1. rewrite (step_here u (Element (text "vertex") n ps) (Property (text "x") FLOAT32 None) out d (float_bytes x) _ _ bs UX eq_refl (float_stride _ _)). cbn [bind p_type stride].
  rewrite E2. rewrite (step_here u (Element (text "vertex") n ps) (Property (text "y") FLOAT32 None) _ (d ++ float_bytes x) (float_bytes y) _ _ bs UY); [|rewrite app_length, float_length; reflexivity|apply float_stride]. cbn [bind p_type stride].
  rewrite E3. rewrite (step_here u (Element (text "vertex") n ps) (Property (text "z") FLOAT32 None) _ (d ++ float_bytes x ++ float_bytes y) (float_bytes z) _ _ bs UZ); [|rewrite !app_length, !float_length; lia|apply float_stride]. cbn [bind p_type stride].
  match goal with |- Ok (?a, (?b, ?c) :: _) = Ok (?a', (?b', ?c') :: _) => replace a with a' by (rewrite <- !app_assoc; reflexivity); replace b with b' by (rewrite <- !app_assoc; reflexivity); replace c with c' by (rewrite !app_length, !float_length; lia) end. reflexivity.
Qed.
Lemma write_rows3 : forall n ts out d, foldM (wstep user3) (out, [(d ++ flat_map triple_bytes ts, List.length d)]) (List.concat (repeat (map (pair (vertex_el n)) xyz) (List.length ts))) =
  Ok (out ++ flat_map triple_bytes ts, [(d ++ flat_map triple_bytes ts, (List.length d + List.length (flat_map triple_bytes ts))%nat)]).
Proof.
  intros n ts. unfold vertex_el. induction ts as [|t ts IH]; intros out d; cbn [List.length repeat List.concat flat_map foldM]; [rewrite !app_nil_r, Nat.add_0_r; reflexivity|].
  rewrite foldM_app. rewrite xyz_row by (vm_compute; reflexivity). cbn [bind]. rewrite IH. rewrite <- !app_assoc. rewrite !app_length, !Nat.add_assoc. reflexivity.
Qed.

(** The colors of one point. *)
Definition rgb_bytes (c : ascii * ascii * ascii) : bytes := match c with (r, g, b) => [r; g; b] end.
Lemma rgb_row : forall n ps c out x d r, foldM (wstep user6) (out, [x; (d ++ rgb_bytes c ++ r, List.length d)]) (map (pair (Element (text "vertex") n ps)) rgb) =
  Ok (out ++ rgb_bytes c, [x; ((d ++ rgb_bytes c) ++ r, List.length (d ++ rgb_bytes c))]).
Proof.
  intros n ps [[cr cg] cb] out x d r. unfold rgb_bytes, rgb. cbn [map foldM].
  change (d ++ [cr; cg; cb] ++ r) with (d ++ [cr] ++ ([cg; cb] ++ r)).
  rewrite (step_second user6 (Element (text "vertex") n ps) (Property (text "red") UINT8 None) out x d [cr] _ _ ltac:(vm_compute; reflexivity) eq_refl eq_refl). cbn [bind p_type stride].
  replace (d ++ [cr] ++ ([cg; cb] ++ r)) with ((d ++ [cr]) ++ [cg] ++ ([cb] ++ r)) by (rewrite <- !app_assoc; reflexivity).
  rewrite (step_second user6 (Element (text "vertex") n ps) (Property (text "green") UINT8 None) _ x (d ++ [cr]) [cg] _ _ ltac:(vm_compute; reflexivity)); [|rewrite app_length; reflexivity|reflexivity]. cbn [bind p_type stride].
  replace ((d ++ [cr]) ++ [cg] ++ ([cb] ++ r)) with ((d ++ [cr; cg]) ++ [cb] ++ r) by (rewrite <- !app_assoc; reflexivity).
  rewrite (step_second user6 (Element (text "vertex") n ps) (Property (text "blue") UINT8 None) _ x (d ++ [cr; cg]) [cb] _ _ ltac:(vm_compute; reflexivity)); [|rewrite app_length; cbn; lia|reflexivity]. cbn [bind p_type stride].
  match goal with |- Ok (?a, [_; (?b, ?c)]) = Ok (?a', [_; (?b', ?c')]) => replace a with a' by (rewrite <- !app_assoc; reflexivity); replace b with b' by (rewrite <- !app_assoc; reflexivity); replace c with c' by (rewrite !app_length; cbn; lia) end. reflexivity.
Qed.
Lemma row6 : forall n ps t c out d r d2 r2,
  foldM (wstep user6) (out, [(d ++ triple_bytes t ++ r, List.length d); (d2 ++ rgb_bytes c ++ r2, List.length d2)]) (map (pair (Element (text "vertex") n ps)) (xyz ++ rgb)) =
  Ok ((out ++ triple_bytes t) ++ rgb_bytes c, [((d ++ triple_bytes t) ++ r, List.length (d ++ triple_bytes t)); ((d2 ++ rgb_bytes c) ++ r2, List.length (d2 ++ rgb_bytes c))]).
Proof. intros. rewrite map_app, foldM_app, xyz_row by (vm_compute; reflexivity). cbn [bind]. apply rgb_row. Qed.
Definition point_bytes (q : (f32 * f32 * f32) * (ascii * ascii * ascii)) : bytes := triple_bytes (fst q) ++ rgb_bytes (snd q).
Lemma write_rows6 : forall n ts cs out d d2, (List.length cs = List.length ts)%nat ->
  exists bs, foldM (wstep user6) (out, [(d ++ flat_map triple_bytes ts, List.length d); (d2 ++ flat_map rgb_bytes cs, List.length d2)]) (List.concat (repeat (map (pair (vertex_rgb_el n)) (xyz ++ rgb)) (List.length ts))) =
  Ok (out ++ flat_map point_bytes (combine ts cs), bs).
Proof.
  intros n ts. unfold vertex_rgb_el. induction ts as [|t ts IH]; intros [|c cs] out d d2 L; try discriminate L; cbn [List.length repeat List.concat flat_map foldM combine]; [eexists; rewrite !app_nil_r; reflexivity|].
  rewrite foldM_app. rewrite row6. cbn [bind].
  destruct (IH cs ((out ++ triple_bytes t) ++ rgb_bytes c) (d ++ triple_bytes t) (d2 ++ rgb_bytes c)) as (bs & E); [cbn in L; lia|]. exists bs. etransitivity; [exact E|]. unfold point_bytes at 2. cbn [fst snd]. rewrite <- !app_assoc. reflexivity.
Qed.
Lemma write_rows6_short : forall n ts cs out d d2, (List.length cs < List.length ts)%nat ->
  foldM (wstep user6) (out, [(d ++ flat_map triple_bytes ts, List.length d); (d2 ++ flat_map rgb_bytes cs, List.length d2)]) (List.concat (repeat (map (pair (vertex_rgb_el n)) (xyz ++ rgb)) (List.length ts))) = Err Undefined.
Proof.
  intros n ts. unfold vertex_rgb_el. induction ts as [|t ts IH]; intros cs out d d2 L; [cbn in L; lia|]. cbn [List.length repeat List.concat flat_map].
  rewrite foldM_app. destruct cs as [|c cs].
  - rewrite (map_app _ xyz rgb), (foldM_app _ _ _ _ (map _ rgb)), xyz_row by (vm_compute; reflexivity). cbn [bind]. assert (ST : forall o x, wstep user6 (o, [x; (d2 ++ flat_map rgb_bytes [], List.length d2)]) (Element (text "vertex") n (xyz ++ rgb), Property (text "red") UINT8 None) = Err Undefined).
    { intros o [xd xo]. unfold wstep. cbn [fst snd e_name p_name p_type stride]. replace (dget N.eqb (hash_fnv1a (text "vertex" ++ text "red")) user6) with (Some 1%nat) by (vm_compute; reflexivity).
      cbn [advance flat_map]. rewrite app_nil_r. rewrite (proj2 (Nat.leb_gt _ _)) by lia. reflexivity. }
    change (map (pair (Element (text "vertex") n (xyz ++ rgb))) rgb) with ((Element (text "vertex") n (xyz ++ rgb), Property (text "red") UINT8 None) :: map (pair (Element (text "vertex") n (xyz ++ rgb))) (tl rgb)). cbn [foldM]. rewrite ST. reflexivity.
  - cbn [flat_map]. rewrite row6. cbn [bind]. apply IH. cbn in L. lia.
Qed.
