(** Headers with any spacing. *)
From Coq Require Import List ZArith NArith Bool String Ascii Reals Lia.
From Verif.Base Require Import Py PyFacts Vec.
From Verif.Ply Require Import Model Spec Proofs.
From Verif.PlyText Require Import Spec.
Import ListNotations.
Local Open Scope string_scope.
Local Open Scope list_scope.

Lemma space_is : forall c, space c -> is_space c = true.
Proof.
  intros c [E|(A & B)]; unfold is_space; [rewrite E; reflexivity|]. rewrite (proj2 (N.leb_le _ _) A), (proj2 (N.leb_le _ _) B). apply orb_true_r.
Qed.
Lemma skip_spaces : forall s l, Forall space s -> skip_space (s ++ l) = skip_space l.
Proof. intros s l F. induction F as [|c s C F IH]; [reflexivity|]. cbn [app skip_space]. rewrite (space_is c C). exact IH. Qed.
Lemma skip_word_start : forall w l, word_ok w -> skip_space (w ++ l) = w ++ l.
Proof.
  intros w l W. destruct (word_ok_space w W) as (N & F). destruct w as [|c w]; [congruence|]. inversion F as [|? ? C _]; subst. cbn [app skip_space]. rewrite C. reflexivity.
Qed.
Definition ends (r : bytes) : Prop := r = [] \/ exists c r', r = c :: r' /\ is_space c = true.

Section Kind.
  Variable B : ascii -> Prop.
  Hypothesis BS : forall c, B c -> space c.
  Lemma spaces_of : forall s, Forall B s -> Forall space s.
  Proof. intros s. apply Forall_impl. exact BS. Qed.
  Lemma spaced_next : forall w ws l, spaced B (w :: ws) l -> exists r, skip_space l = w ++ r /\ word (w ++ r) = (w, r) /\ ends r /\ spaced B ws r /\ word_ok w.
  Proof.
    intros w ws l H. inversion H as [|s w' ws' r F W S E]; subst. assert (EN : ends r). { destruct E as [-> |(c & r' & -> & C)]; [left; reflexivity|]. right. exists c, r'. split; [reflexivity|apply space_is, BS, C]. }
    exists r. rewrite (skip_spaces s _ (spaces_of s F)), skip_word_start by exact W. split; [reflexivity|]. split; [apply word_stop; [apply word_ok_space, W|exact EN]|]. split; [exact EN|]. split; assumption.
  Qed.
  Lemma spaced_token : forall w ws l, spaced B (w :: ws) l -> exists r, token l = (w, r) /\ spaced B ws r.
  Proof. intros w ws l H. destruct (spaced_next w ws l H) as (r & E & T & _ & S & _). exists r. unfold token. rewrite E. split; assumption. Qed.
  Lemma spaced_none : forall l, spaced B [] l -> skip_space l = [].
  Proof. intros l H. inversion H as [s F|]; subst. rewrite <- (app_nil_r l). apply skip_spaces, spaces_of, F. Qed.
End Kind.

Lemma blank_space : forall c, blank c -> space c.
Proof. intros c (H & _). exact H. Qed.
Lemma blank_line : forall ws l, spaced blank ws l -> Forall (fun c => c <> newline) l.
Proof.
  intros ws l H. induction H as [s F|s w ws r F W S IH _]; [eapply Forall_impl; [|exact F]; intros c (_ & N); exact N|]. apply Forall_app. split; [eapply Forall_impl; [|exact F]; intros c (_ & N); exact N|]. apply Forall_app. split; [apply plain_line, word_ok_space, W|exact IH].
Qed.
Lemma digit_none : forall c, is_space c = true -> digit c = None.
Proof. intros [[] [] [] [] [] [] [] []] H; try reflexivity; discriminate H. Qed.
Lemma number_stop : forall w n a r, Forall (fun c => (48 <= N_of_ascii c <= 57)%N) w -> fold_left (fun a c => a * 10 + (N_of_ascii c - 48))%N w a = n -> ends r -> number a (w ++ r) = n.
Proof.
  intros w n a r F. revert a. induction F as [|c w D F IH]; intros a V E; cbn [app fold_left] in *.
  - subst n. destruct E as [-> |(c & r' & -> & S)]; [reflexivity|]. cbn [number]. rewrite digit_none by exact S. reflexivity.
  - cbn [number]. destruct (digit_facts c D) as (_ & ->). apply IH; assumption.
Qed.
Lemma number_word : forall w n, number_text w n -> word_ok w.
Proof. intros w n (N & F & _). split; [exact N|]. eapply Forall_impl; [|exact F]. intros c D. cbn beta in D. split; lia. Qed.
Lemma spaced_size : forall w n l, spaced blank [w] l -> number_text w n -> (n < 18446744073709551616)%N -> read_size l = Ok n.
Proof.
  intros w n l H T L. destruct (spaced_next blank blank_space w [] l H) as (r & E & _ & EN & _). unfold read_size. rewrite E. destruct T as (NE & F & V). destruct w as [|c w]; [congruence|]. cbn [app].
  change (c :: w ++ r) with ((c :: w) ++ r). rewrite (number_stop _ n 0%N r F V EN). f_equal. apply N.min_l. lia.
Qed.

(** * One line *)
Lemma noise_line : forall h ws l, noise ws -> spaced blank ws l -> header_line h l = Ok (Some h).
Proof.
  intros h ws l N S. unfold header_line. destruct ws as [|w ws].
  - unfold token. rewrite (spaced_none blank blank_space l S). reflexivity.
  - destruct (spaced_token blank blank_space w ws l S) as (r & -> & _). destruct N as [-> | ->]; reflexivity.
Qed.
Lemma property_read : forall p ws l, property_words p ws -> spaced blank ws l -> exists r, token l = (text "property", r) /\ read_property r = p.
Proof.
  intros p ws l P S. destruct P as [n t T ST W|n t T c C ST SC W].
  - destruct (spaced_token blank blank_space _ _ _ S) as (r & E & S1). destruct (spaced_token blank blank_space _ _ _ S1) as (r1 & E1 & S2). destruct (spaced_token blank blank_space _ _ _ S2) as (r2 & E2 & _).
    exists r. split; [exact E|]. destruct (spelled_ok t T ST) as (PT & NL & _). unfold read_property. rewrite E1, NL, E2, PT. reflexivity.
  - destruct (spaced_token blank blank_space _ _ _ S) as (r & E & S1). destruct (spaced_token blank blank_space _ _ _ S1) as (r1 & E1 & S2). destruct (spaced_token blank blank_space _ _ _ S2) as (r2 & E2 & S3). destruct (spaced_token blank blank_space _ _ _ S3) as (r3 & E3 & S4). destruct (spaced_token blank blank_space _ _ _ S4) as (r4 & E4 & _).
    exists r. split; [exact E|]. destruct (spelled_ok t T ST) as (PT & _). destruct (spelled_ok c C SC) as (PC & _). unfold read_property. rewrite E1. change (same (text "list") "list") with true. cbv iota. rewrite E2, E3, E4, PT, PC. reflexivity.
Qed.
Lemma property_line' : forall h els e p ws l, property_words p ws -> spaced blank ws l -> elements h = els ++ [e] ->
  header_line h l = Ok (Some (Header (is_binary h) (is_big_endian h) (els ++ [Element (e_name e) (e_size e) (e_properties e ++ [p])]))).
Proof.
  intros h els e p ws l P S E. destruct (property_read p ws l P S) as (r & T & R). unfold header_line. rewrite T.
  change (same (text "property") "ply") with false. change (same (text "property") "PLY") with false. change (same (text "property") "") with false. change (same (text "property") "comment") with false.
  change (same (text "property") "format") with false. change (same (text "property") "element") with false. change (same (text "property") "property") with true. cbn [orb]. rewrite R, E, add_to_last_app. reflexivity.
Qed.
Lemma element_line' : forall h e num l, (e_size e < 18446744073709551616)%N -> number_text num (e_size e) -> spaced blank [text "element"; e_name e; num] l ->
  header_line h l = Ok (Some (Header (is_binary h) (is_big_endian h) (elements h ++ [Element (e_name e) (e_size e) []]))).
Proof.
  intros h e num l B NUM S. destruct (spaced_token blank blank_space _ _ _ S) as (r & E & S1). destruct (spaced_token blank blank_space _ _ _ S1) as (r1 & E1 & S2). unfold header_line. rewrite E.
  change (same (text "element") "ply") with false. change (same (text "element") "PLY") with false. change (same (text "element") "") with false. change (same (text "element") "comment") with false.
  change (same (text "element") "format") with false. change (same (text "element") "element") with true. cbn [orb]. unfold read_element. rewrite E1, (spaced_size num _ r1 S2 NUM B). reflexivity.
Qed.

(** * All lines *)
Lemma line_step : forall n h ws b r h', line ws b -> (forall l, spaced blank ws l -> header_line h l = Ok (Some h')) -> parse_lines (S n) h (b ++ r) = parse_lines n h' r.
Proof. intros n h ws b r h' (l & S & ->) H. rewrite <- app_assoc. cbn [app]. apply parse_step; [apply (blank_line ws), S|apply H, S]. Qed.
Lemma properties_parsed : forall ps ls, properties_lines ps ls -> forall bs, Forall2 line ls bs -> forall n h els e r, elements h = els ++ [e] ->
  parse_lines (List.length ls + n) h (List.concat bs ++ r) = parse_lines n (Header (is_binary h) (is_big_endian h) (els ++ [Element (e_name e) (e_size e) (e_properties e ++ ps)])) r.
Proof.
  intros ps ls P. induction P as [|ws ps ls N P IH|p ws ps ls W P IH]; intros bs F n h els e r E.
  - inversion F; subst. cbn [List.length Nat.add List.concat app]. f_equal. destruct h as [b g k]. cbn in *. subst k. destruct e; cbn. rewrite app_nil_r. reflexivity.
  - inversion F as [|? b ? bs' L F']; subst. cbn [List.length Nat.add List.concat]. rewrite <- app_assoc. rewrite (line_step _ _ ws b _ h L) by (intros l S; apply (noise_line h ws l N S)). apply IH; assumption.
  - inversion F as [|? b ? bs' L F']; subst. cbn [List.length Nat.add List.concat]. rewrite <- app_assoc. rewrite (line_step _ _ ws b _ _ L (fun l S => property_line' h els e p ws l W S E)).
    rewrite (IH bs' F' n _ els (Element (e_name e) (e_size e) (e_properties e ++ [p])) r) by reflexivity. cbn [is_binary is_big_endian e_name e_size e_properties]. rewrite <- app_assoc. reflexivity.
Qed.
Lemma elements_parsed : forall els ls, elements_lines els ls -> forall bs, Forall2 line ls bs -> forall n h r,
  parse_lines (List.length ls + n) h (List.concat bs ++ r) = parse_lines n (Header (is_binary h) (is_big_endian h) (elements h ++ els)) r.
Proof.
  intros els ls P. induction P as [|ws els ls N P IH|e num pl els ls W B NUM PL P IH]; intros bs F n h r.
  - inversion F; subst. cbn [List.length Nat.add List.concat app]. f_equal. destruct h as [b g k]. cbn. rewrite app_nil_r. reflexivity.
  - inversion F as [|? b ? bs' L F']; subst. cbn [List.length Nat.add List.concat]. rewrite <- app_assoc. rewrite (line_step _ _ ws b _ h L) by (intros l S; apply (noise_line h ws l N S)). apply IH; assumption.
  - inversion F as [|? b ? bs' L F']; subst. apply Forall2_app_inv_l in F'. destruct F' as (b1 & b2 & F1 & F2 & ->). cbn [List.length Nat.add List.concat]. rewrite concat_app, app_length, <- !app_assoc.
    rewrite (line_step _ _ _ b _ _ L (fun l S => element_line' h e num l B NUM S)). rewrite <- Nat.add_assoc.
    rewrite (properties_parsed _ _ PL b1 F1 _ _ (elements h) (Element (e_name e) (e_size e) [])) by reflexivity. cbn [is_binary is_big_endian e_name e_size e_properties app]. rewrite (IH b2 F2). cbn [is_binary is_big_endian elements]. rewrite <- app_assoc. destruct e. reflexivity.
Qed.
Lemma lines_length : forall ls bs, Forall2 line ls bs -> (List.length ls <= List.length (List.concat bs))%nat.
Proof. intros ls bs F. induction F as [|ws b ls bs (l & _ & ->) F IH]; [cbn; lia|]. cbn [List.length List.concat]. rewrite !app_length. cbn [List.length]. lia. Qed.

Definition binary (f : format) : bool := match f with Text => false | _ => true end.
Theorem parse_ply : forall f els hd data, ply_header f els hd -> parse_header (hd ++ data) = Ok (Header (binary f) (big f) els, Stream data true).
Proof.
  intros f els hd data (ls & bs & v & EL & W & F & ->). cbn [app] in F. inversion F as [|? b1 ? bs1 L1 F1]; subst. inversion F1 as [|? b2 ? bs2 L2 F2]; subst. apply Forall2_app_inv_l in F2. destruct F2 as (b3 & b4 & F3 & F4 & ->). inversion F4 as [|? b5 ? bs5 L5 F5]; subst. inversion F5; subst.
  unfold parse_header. cbn [List.concat]. rewrite concat_app. cbn [List.concat]. rewrite app_nil_r, <- !app_assoc.
  assert (X : exists m, S (List.length (b1 ++ b2 ++ List.concat b3 ++ b5 ++ data)) = S (S (List.length ls + S m))).
  { destruct L1 as (c1 & _ & ->). destruct L2 as (c2 & _ & ->). assert (Y := lines_length ls b3 F3). rewrite !app_length. cbn [List.length]. match goal with |- exists m, S ?a = S (S (?b + S m)) => exists (a - b - 2)%nat end. lia. }
  destruct X as (m & ->).
  rewrite (line_step _ _ _ b1 _ empty_header L1). 2: { intros l S. unfold header_line. destruct (spaced_token blank blank_space _ _ _ S) as (r & -> & _). reflexivity. }
  rewrite (line_step _ _ _ b2 _ (Header (binary f) (big f) []) L2).
  2: { intros l S. unfold header_line. destruct (spaced_token blank blank_space _ _ _ S) as (r & -> & S1). destruct (spaced_token blank blank_space _ _ _ S1) as (r1 & E & _).
       change (same (text "format") "ply") with false. change (same (text "format") "PLY") with false. change (same (text "format") "") with false. change (same (text "format") "comment") with false. change (same (text "format") "format") with true. cbn [orb]. rewrite E. destruct f; reflexivity. }
  rewrite (elements_parsed els ls EL b3 F3). cbn [is_binary is_big_endian elements app]. destruct L5 as (l & S & ->). rewrite <- app_assoc. cbn [app]. apply parse_stop; [apply (blank_line _ _ S)|].
  unfold header_line. destruct (spaced_token blank blank_space _ _ _ S) as (r & -> & _). reflexivity.
Qed.
(** Every property has a type. *)
Lemma header_types : forall f els hd, ply_header f els hd -> forall e p, In e els -> In p (e_properties e) -> p_type p <> INVALID.
Proof.
  intros f els hd (ls & _ & _ & EL & _). induction EL as [|ws els ls _ EL IH|e num pl els ls _ _ _ PL _ IH]; intros e' p IE IP; [destruct IE|eapply IH; eassumption|]. destruct IE as [-> |IE]; [|eapply IH; eassumption].
  clear IH. induction PL as [|ws ps ls' _ PL IH|q ws ps ls' Q PL IH]; [destruct IP|exact (IH IP)|]. destruct IP as [-> |IP]; [|exact (IH IP)]. destruct Q as [n t T S _|n t T c C S _ _]; cbn [p_type]; destruct S; discriminate.
Qed.
