(** The parser reads exactly the documents. *)
From Coq Require Import List Bool ZArith QArith Qabs Ascii String Lia Sorting.Sorted.
From Verif.Base Require Import Py.
From Verif.Round Require Import Model Spec Rounding.
From Verif.Json Require Import Spec.
From Verif.Json Require Import Model Numbers.
From Verif.Json Require Grammar Strings.
From Verif.Doc Require Import Model Facts.
From Verif.Doc Require Import Spec.
From Verif.Text Require Import Model Spec Strings Lexer.
Import ListNotations.
Local Open Scope Z_scope.

(** * Objects *)
Lemma get_lookup : forall k o, get k o = lookup k o.
Proof.
  intros k o. induction o as [|[x v] o IH]; [reflexivity|]. cbn [get lookup]. destruct (String.eqb_spec x k) as [->|N], (string_dec k k) as [_|C].
  - reflexivity. - contradiction C. reflexivity.
  - destruct (string_dec k x) as [->|]; [contradiction N; reflexivity|exact IH].
  - contradiction C. reflexivity.
Qed.
Definition all_in (l o : list (string * json)) : list (string * json) := fold_left (fun o m => emplace (fst m) (snd m) o) l o.
Lemma emplace_ordered : forall k v o, ordered o -> ordered (emplace k v o).
Proof. intros k v o O. unfold emplace. destruct (get k o); [exact O|]. apply ordered_put, O. Qed.
Lemma emplace_lookup : forall k v o k', lookup k' (emplace k v o) = match lookup k' o with Some x => Some x | None => if string_dec k' k then Some v else None end.
Proof.
  intros k v o k'. rewrite <- !get_lookup. unfold emplace. destruct (get k o) as [x|] eqn:G.
  - destruct (get k' o) eqn:G'; [reflexivity|]. destruct (string_dec k' k) as [->|]; [congruence|reflexivity].
  - rewrite get_put. destruct (String.eqb_spec k k') as [->|N].
    + rewrite G. destruct (string_dec k' k') as [_|C]; [reflexivity|contradiction C; reflexivity].
    + destruct (get k' o); [reflexivity|]. destruct (string_dec k' k) as [->|]; [contradiction N; reflexivity|reflexivity].
Qed.
Lemma all_in_ok : forall l o, ordered o -> ordered (all_in l o) /\ forall k, lookup k (all_in l o) = match lookup k o with Some x => Some x | None => lookup k l end.
Proof.
  induction l as [|[x v] l IH]; intros o O.
  - split; [exact O|]. intros k. cbn. destruct (lookup k o); reflexivity.
  - destruct (IH (emplace x v o) (emplace_ordered x v o O)) as [S L]. split; [exact S|]. intros k. change (all_in ((x, v) :: l) o) with (all_in l (emplace x v o)). rewrite L, emplace_lookup.
    cbn [lookup]. destruct (lookup k o); [reflexivity|]. destruct (string_dec k x); reflexivity.
Qed.
Lemma object_all : forall l, object_of l (all_in l []).
Proof. intros l. apply (all_in_ok l []). constructor. Qed.
Lemma object_unique : forall l o o', object_of l o -> object_of l o' -> o = o'.
Proof. intros l o o' [S L] [S' L']. apply ordered_ext; [exact S|exact S'|]. intros k. rewrite !get_lookup, L, L'. reflexivity. Qed.

(** * Reading *)
Scheme value_ind3 := Minimality for value_text Sort Prop
  with elements_ind3 := Minimality for elements_text Sort Prop
  with members_ind3 := Minimality for members_text Sort Prop.
Combined Scheme text_mutind from value_ind3, elements_ind3, members_ind3.

Definition read (n : nat) (s : text) : res (json * text) := let '(t, r) := scan s in parse_internal n t r.
Definition read_elements (n : nat) (a : list json) (s : text) : res (json * text) := let '(t, r) := scan s in elements n a t r.
Definition read_members (n : nat) (o : list (string * json)) (s : text) : res (json * text) := let '(t, r) := scan s in members n o t r.
Lemma read_array : forall n s, parse_internal (S n) begin_array s =
  match fst (scan s) with end_array => Ok (JArr [], snd (scan s)) | _ => read_elements n [] s end.
Proof. intros n s. unfold read_elements. cbn [parse_internal]. destruct (scan s) as [[] r]; reflexivity. Qed.
Lemma read_object : forall n s, parse_internal (S n) begin_object s =
  match fst (scan s) with end_object => Ok (JObj [], snd (scan s)) | _ => read_members n [] s end.
Proof. intros n s. unfold read_members. cbn [parse_internal]. destruct (scan s) as [[] r]; reflexivity. Qed.
Lemma read_more : forall n a s, read_elements (S n) a s =
  (let* (v, s) := read n s in
   match scan s with
   | (value_separator, s) => read_elements n (a ++ [v]) s
   | (end_array, s) => Ok (JArr (a ++ [v]), s)
   | _ => Err IOError
   end).
Proof.
  intros n a s. unfold read_elements, read. destruct (scan s) as [t r]. cbn [elements]. destruct (parse_internal n t r) as [[v s1]|e]; [|reflexivity]. cbn [bind].
  destruct (scan s1) as [[] s2]; reflexivity.
Qed.
Lemma read_member : forall n o s, read_members (S n) o s =
  match scan s with
  | (value_string k, s) =>
      match scan s with
      | (name_separator, s) =>
          let* (v, s) := read n s in
          match scan s with
          | (value_separator, s) => read_members n (emplace (string_of_list_ascii k) v o) s
          | (end_object, s) => Ok (JObj (emplace (string_of_list_ascii k) v o), s)
          | _ => Err IOError
          end
      | _ => Err IOError
      end
  | _ => Err IOError
  end.
Proof.
  intros n o s. unfold read_members, read. destruct (scan s) as [[] r]; try reflexivity. cbn [members]. destruct (scan r) as [[] r1]; try reflexivity. destruct (scan r1) as [t2 r2].
  destruct (parse_internal n t2 r2) as [[v s1]|e]; [|reflexivity]. cbn [bind]. destruct (scan s1) as [[] s2]; reflexivity.
Qed.

Definition starter (t : token) : Prop :=
  match t with end_array | end_object | end_of_input | name_separator | value_separator | parse_error => False | _ => True end.
Lemma number_tok : forall s v, number s v -> exists t, tok t s /\ starter t /\ (forall n r, parse_internal (S n) t r = Ok (v, r)).
Proof.
  intros s v [x z I B|x q y D K R L E].
  - exists (value_int z). split; [split; assumption|]. split; [exact Logic.I|reflexivity].
  - exists (value_float y). split; [exists q; split; [exact D|split; [exact K|split; [exact R|exact E]]]|]. split; [exact Logic.I|]. intros n r. cbn [parse_internal].
    destruct (Qle_bool (2 ^ 1024) (Qabs y)) eqn:O; [|reflexivity]. apply Qle_bool_iff in O. exfalso. apply (Qlt_not_le _ _ L O).
Qed.
Lemma number_head : forall s v, number s v -> exists c r, s = c :: r /\ code c < 128.
Proof.
  intros s v N.
  assert (P : exists neg i ft et, s = Json.Spec.minus neg ++ i ++ ft ++ et /\ int_part i).
  { destruct N as [x z [neg i k I _] _|x q y D _ _ _ _]; [exists neg, i, [], []; rewrite !app_nil_r; split; [reflexivity|exact I]|]. destruct D as [neg i ft f et e k q' I F X H Q]. exists neg, i, ft, et. split; [reflexivity|exact I]. }
  destruct P as (neg & i & ft & et & -> & I). apply int_part_digits in I. destruct I as [A N']. destruct neg; [eexists _, _; split; [reflexivity|reflexivity]|].
  destruct i as [|c i]; [contradiction|]. inversion A as [|? ? C _]; subst. apply is_digit_range in C. exists c, (i ++ ft ++ et). split; [reflexivity|lia].
Qed.
Lemma follows_stop : forall t r, stop r -> follows t r.
Proof. intros [] r S; exact Logic.I || exact S. Qed.
Ltac stops := apply Grammar.stop_white; [assumption|]; cbn; intuition discriminate.

Lemma accepts :
  (forall s v, value_text s v -> forall n w rest, (2 * List.length s <= n)%nat -> white w -> stop rest ->
     starter (fst (scan (w ++ s ++ rest))) /\ read n (w ++ s ++ rest) = Ok (v, rest)) /\
  (forall s l, elements_text s l -> forall n a rest, (2 * List.length s + 1 <= n)%nat ->
     starter (fst (scan (s ++ lit "]" ++ rest))) /\ read_elements n a (s ++ lit "]" ++ rest) = Ok (JArr (a ++ l), rest)) /\
  (forall s l, members_text s l -> forall n o rest, (2 * List.length s + 1 <= n)%nat ->
     starter (fst (scan (s ++ lit "}" ++ rest))) /\ read_members n o (s ++ lit "}" ++ rest) = Ok (JObj (all_in l o), rest)).
Proof.
  assert (T1 : forall t x n w rest, tok t x -> white w -> stop rest -> starter t -> starter (fst (scan (w ++ x ++ rest))) /\ read n (w ++ x ++ rest) = parse_internal n t rest).
  { intros t x n w rest T W S ST. unfold read. rewrite (scan_tok t x w rest W T (follows_stop t rest S)). split; [exact ST|reflexivity]. }
  assert (T2 : forall t x n w rest, tok t x -> white w -> (forall r, follows t r) -> starter t -> starter (fst (scan (w ++ x ++ rest))) /\ read n (w ++ x ++ rest) = parse_internal n t rest).
  { intros t x n w rest T W S ST. unfold read. rewrite (scan_tok t x w rest W T (S rest)). split; [exact ST|reflexivity]. }
  assert (SC : forall t x w rest, tok t x -> white w -> (forall r, follows t r) -> scan (w ++ x ++ rest) = (t, rest)) by (intros t x w rest T W S; apply scan_tok; [exact W|exact T|apply S]).
  assert (SA : forall t X Y, starter t -> (match t with end_array => X | _ => Y end) = Y :> res (json * text)) by (intros [] X Y H; reflexivity || contradiction H).
  assert (SO : forall t X Y, starter t -> (match t with end_object => X | _ => Y end) = Y :> res (json * text)) by (intros [] X Y H; reflexivity || contradiction H).
  apply text_mutind.
  - intros n w rest L W ST. destruct n as [|n]; [cbn in L; lia|]. destruct (T1 literal_null (lit "null") (S n) w rest eq_refl W ST Logic.I) as [A ->]. split; [exact A|reflexivity].
  - intros n w rest L W ST. destruct n as [|n]; [cbn in L; lia|]. destruct (T1 literal_true (lit "true") (S n) w rest eq_refl W ST Logic.I) as [A ->]. split; [exact A|reflexivity].
  - intros n w rest L W ST. destruct n as [|n]; [cbn in L; lia|]. destruct (T1 literal_false (lit "false") (S n) w rest eq_refl W ST Logic.I) as [A ->]. split; [exact A|reflexivity].
  - intros s v N n w rest L W ST. destruct (number_tok s v N) as (t & T & SS & R). destruct n as [|n].
    { exfalso. destruct (number_head s v N) as (c & r & -> & _). cbn in L. lia. }
    destruct (T1 t s (S n) w rest T W ST SS) as [A ->]. split; [exact A|apply R].
  - intros s t C n w rest L W ST. destruct n as [|n]; [cbn in L; lia|]. destruct (T1 (value_string t) (lit """" ++ s ++ lit """") (S n) w rest ltac:(exists s; split; [reflexivity|exact C]) W ST Logic.I) as [A ->]. split; [exact A|reflexivity].
  - intros w0 W0 n w rest L W ST. destruct n as [|n]; [cbn in L; lia|]. rewrite <- !app_assoc.
    destruct (T2 begin_array (lit "[") (S n) w (w0 ++ lit "]" ++ rest) eq_refl W (fun _ => Logic.I) Logic.I) as [A ->]. split; [exact A|].
    rewrite read_array, (SC end_array (lit "]") w0 rest eq_refl W0 (fun _ => Logic.I)). reflexivity.
  - intros s l _ IH n w rest L W ST. destruct n as [|n]; [cbn in L; lia|]. rewrite <- !app_assoc.
    destruct (T2 begin_array (lit "[") (S n) w (s ++ lit "]" ++ rest) eq_refl W (fun _ => Logic.I) Logic.I) as [A ->]. split; [exact A|].
    destruct (IH n [] rest) as [B C]; [cbn [lit list_ascii_of_string app List.length] in L; rewrite app_length in L; cbn in L; lia|]. rewrite read_array, SA by exact B. exact C.
  - intros w0 W0 n w rest L W ST. destruct n as [|n]; [cbn in L; lia|]. rewrite <- !app_assoc.
    destruct (T2 begin_object (lit "{") (S n) w (w0 ++ lit "}" ++ rest) eq_refl W (fun _ => Logic.I) Logic.I) as [A ->]. split; [exact A|].
    rewrite read_object, (SC end_object (lit "}") w0 rest eq_refl W0 (fun _ => Logic.I)). reflexivity.
  - intros s l o _ IH OB n w rest L W ST. destruct n as [|n]; [cbn in L; lia|]. rewrite <- !app_assoc.
    destruct (T2 begin_object (lit "{") (S n) w (s ++ lit "}" ++ rest) eq_refl W (fun _ => Logic.I) Logic.I) as [A ->]. split; [exact A|].
    destruct (IH n [] rest) as [B C]; [cbn [lit list_ascii_of_string app List.length] in L; rewrite app_length in L; cbn in L; lia|]. rewrite read_object, SO by exact B.
    rewrite C, (object_unique l _ _ OB (object_all l)). reflexivity.
  - intros w s v w' W J IH W' n a rest L. destruct n as [|n]; [lia|]. rewrite <- !app_assoc. rewrite !app_length in L.
    destruct (IH n w (w' ++ lit "]" ++ rest) ltac:(lia) W ltac:(stops)) as [A B]. split; [exact A|]. rewrite read_more, B. cbn [bind].
    rewrite (SC end_array (lit "]") w' rest eq_refl W' (fun _ => Logic.I)). reflexivity.
  - intros w s v w' r l W J IH W' _ IHr n a rest L. destruct n as [|n]; [lia|]. rewrite <- !app_assoc. rewrite !app_length in L. cbn [List.length lit list_ascii_of_string] in L.
    destruct (IH n w (w' ++ lit "," ++ r ++ lit "]" ++ rest) ltac:(lia) W ltac:(stops)) as [A B]. split; [exact A|]. rewrite read_more, B. cbn [bind].
    rewrite (SC value_separator (lit ",") w' _ eq_refl W' (fun _ => Logic.I)). rewrite (proj2 (IHr n (a ++ [v]) rest ltac:(lia))), <- app_assoc. reflexivity.
  - intros w ks k w1 w2 s v w' W C W1 W2 J IH W' n o rest L. destruct n as [|n]; [lia|]. rewrite !app_length in L.
    assert (K : scan ((w ++ lit """" ++ ks ++ lit """" ++ w1 ++ lit ":" ++ w2 ++ s ++ w') ++ lit "}" ++ rest) = (value_string k, w1 ++ lit ":" ++ w2 ++ s ++ w' ++ lit "}" ++ rest)).
    { rewrite <- (SC (value_string k) (lit """" ++ ks ++ lit """") w (w1 ++ lit ":" ++ w2 ++ s ++ w' ++ lit "}" ++ rest)); [rewrite <- !app_assoc; reflexivity|exists ks; split; [reflexivity|exact C]|exact W|intros r; exact Logic.I]. }
    rewrite read_member, K. split; [exact Logic.I|]. rewrite (SC name_separator (lit ":") w1 _ eq_refl W1 (fun _ => Logic.I)).
    destruct (IH n w2 (w' ++ lit "}" ++ rest) ltac:(lia) W2 ltac:(stops)) as [A B]. rewrite B. cbn [bind].
    rewrite (SC end_object (lit "}") w' rest eq_refl W' (fun _ => Logic.I)). reflexivity.
  - intros w ks k w1 w2 s v w' r l W C W1 W2 J IH W' _ IHr n o rest L. destruct n as [|n]; [lia|]. rewrite !app_length in L. cbn [List.length lit list_ascii_of_string] in L.
    assert (K : scan ((w ++ lit """" ++ ks ++ lit """" ++ w1 ++ lit ":" ++ w2 ++ s ++ w' ++ lit "," ++ r) ++ lit "}" ++ rest) = (value_string k, w1 ++ lit ":" ++ w2 ++ s ++ w' ++ lit "," ++ r ++ lit "}" ++ rest)).
    { rewrite <- (SC (value_string k) (lit """" ++ ks ++ lit """") w (w1 ++ lit ":" ++ w2 ++ s ++ w' ++ lit "," ++ r ++ lit "}" ++ rest)); [rewrite <- !app_assoc; reflexivity|exists ks; split; [reflexivity|exact C]|exact W|intros x; exact Logic.I]. }
    rewrite read_member, K. split; [exact Logic.I|]. rewrite (SC name_separator (lit ":") w1 _ eq_refl W1 (fun _ => Logic.I)).
    destruct (IH n w2 (w' ++ lit "," ++ r ++ lit "}" ++ rest) ltac:(lia) W2 ltac:(stops)) as [A B]. rewrite B. cbn [bind].
    rewrite (SC value_separator (lit ",") w' _ eq_refl W' (fun _ => Logic.I)). rewrite (proj2 (IHr n _ rest ltac:(lia))). reflexivity.
Qed.

(** * What is read is a document *)
Lemma scan_inv : forall s t r, scan s = (t, r) -> t <> parse_error -> t <> end_of_input -> exists w x, s = w ++ x ++ r /\ white w /\ tok t x.
Proof.
  intros s t r H N M. apply scan_sound in H. destruct H as [H|(w & W & [[H _]|(x & E & T)])]; [contradiction|contradiction|]. exists w, x. split; [exact E|split; assumption].
Qed.
Lemma sound : forall n,
  (forall s v rest, read n s = Ok (v, rest) -> exists w t, s = w ++ t ++ rest /\ white w /\ value_text t v) /\
  (forall a s v rest, read_elements n a s = Ok (v, rest) -> exists t l, s = t ++ lit "]" ++ rest /\ elements_text t l /\ v = JArr (a ++ l)) /\
  (forall o s v rest, read_members n o s = Ok (v, rest) -> exists t l, s = t ++ lit "}" ++ rest /\ members_text t l /\ v = JObj (all_in l o)).
Proof.
  induction n as [|n (IHv & IHe & IHm)].
  { split; [|split]; intros *; unfold read, read_elements, read_members; destruct (scan s); discriminate. }
  split; [|split].
  - intros s v rest H. unfold read in H. destruct (scan s) as [t r] eqn:E.
    assert (K : t <> parse_error -> t <> end_of_input -> (forall x, tok t x -> exists u, x ++ r = u ++ rest /\ value_text u v) -> exists w t, s = w ++ t ++ rest /\ white w /\ value_text t v).
    { intros N M X. apply scan_inv in E; [|exact N|exact M]. destruct E as (w & x & -> & W & T). destruct (X x T) as (u & U & V). exists w, u. split; [rewrite U; reflexivity|]. split; assumption. }
    destruct t; try discriminate.
    + apply K; [discriminate|discriminate|]. intros x TX0. cbn [tok] in TX0. subst x. rewrite read_array in H. destruct (scan r) as [t r1] eqn:E1. cbn [fst snd] in H.
      assert (EL : read_elements n [] r = Ok (v, rest) -> exists u, lit "[" ++ r = u ++ rest /\ value_text u v).
      { intros Q. apply IHe in Q. destruct Q as (u & l & -> & U & ->). exists (lit "[" ++ u ++ lit "]"). split; [rewrite <- !app_assoc; reflexivity|]. apply j_arr, U. }
      destruct t; try (apply EL, H). injection H as <- <-. apply scan_inv in E1; [|discriminate|discriminate]. destruct E1 as (w & x & -> & W & TX). cbn [tok] in TX. subst x.
      exists (lit "[" ++ w ++ lit "]"). split; [rewrite <- !app_assoc; reflexivity|]. apply j_arr0, W.
    + apply K; [discriminate|discriminate|]. intros x TX0. cbn [tok] in TX0. subst x. rewrite read_object in H. destruct (scan r) as [t r1] eqn:E1. cbn [fst snd] in H.
      assert (EL : read_members n [] r = Ok (v, rest) -> exists u, lit "{" ++ r = u ++ rest /\ value_text u v).
      { intros Q. apply IHm in Q. destruct Q as (u & l & -> & U & ->). exists (lit "{" ++ u ++ lit "}"). split; [rewrite <- !app_assoc; reflexivity|]. apply (j_obj u l); [exact U|apply object_all]. }
      destruct t; try (apply EL, H). injection H as <- <-. apply scan_inv in E1; [|discriminate|discriminate]. destruct E1 as (w & x & -> & W & TX). cbn [tok] in TX. subst x.
      exists (lit "{" ++ w ++ lit "}"). split; [rewrite <- !app_assoc; reflexivity|]. apply j_obj0, W.
    + injection H as <- <-. apply K; [discriminate|discriminate|]. intros x TX. cbn [tok] in TX. subst x. eexists. split; [reflexivity|constructor].
    + injection H as <- <-. apply K; [discriminate|discriminate|]. intros x TX. cbn [tok] in TX. subst x. eexists. split; [reflexivity|constructor].
    + injection H as <- <-. apply K; [discriminate|discriminate|]. intros x TX. cbn [tok] in TX. subst x. eexists. split; [reflexivity|constructor].
    + injection H as <- <-. apply K; [discriminate|discriminate|]. intros x (cs & -> & C). eexists. split; [reflexivity|]. apply j_str, C.
    + injection H as <- <-. apply K; [discriminate|discriminate|]. intros x [I B]. exists x. split; [reflexivity|]. apply j_number, n_int; assumption.
    + cbn [parse_internal] in H. destruct (Qle_bool (2 ^ 1024) (Qabs q)) eqn:O; [discriminate|]. injection H as <- <-. apply K; [discriminate|discriminate|]. intros x (d & D & N & R & Q). exists x. split; [reflexivity|].
      apply j_number, (n_num x d q); try assumption. destruct (Qlt_le_dec (Qabs q) (2 ^ 1024)) as [|C]; [assumption|]. apply Qle_bool_iff in C. congruence.
  - intros a s v rest H. rewrite read_more in H. destruct (read n s) as [[x s1]|] eqn:R; [|discriminate]. cbn [bind] in H. apply IHv in R. destruct R as (w & u & -> & W & U).
    destruct (scan s1) as [t s2] eqn:E. destruct t; try discriminate.
    + injection H as <- <-. apply scan_inv in E; [|discriminate|discriminate]. destruct E as (w' & y & -> & W' & TX). cbn [tok] in TX. subst y.
      exists (w ++ u ++ w'), [x]. split; [rewrite <- !app_assoc; reflexivity|]. split; [apply e_one; assumption|reflexivity].
    + apply scan_inv in E; [|discriminate|discriminate]. destruct E as (w' & y & -> & W' & TX). cbn [tok] in TX. subst y. apply IHe in H. destruct H as (z & l & -> & Z & ->).
      exists (w ++ u ++ w' ++ lit "," ++ z), (x :: l). split; [rewrite <- !app_assoc; reflexivity|]. split; [apply e_more; assumption|]. rewrite <- app_assoc. reflexivity.
  - intros o s v rest H. rewrite read_member in H. destruct (scan s) as [t s0] eqn:E0. destruct t; try discriminate. apply scan_inv in E0; [|discriminate|discriminate]. destruct E0 as (w & y0 & -> & W & (ks & -> & C)).
    destruct (scan s0) as [t1 s1] eqn:E1. destruct t1; try discriminate. apply scan_inv in E1; [|discriminate|discriminate]. destruct E1 as (w1 & y1 & -> & W1 & TX). cbn [tok] in TX. subst y1.
    destruct (read n s1) as [[x s2]|] eqn:R; [|discriminate]. cbn [bind] in H. apply IHv in R. destruct R as (w2 & u & -> & W2 & U).
    destruct (scan s2) as [t3 s3] eqn:E. destruct t3; try discriminate.
    + injection H as <- <-. apply scan_inv in E; [|discriminate|discriminate]. destruct E as (w' & y & -> & W' & TX). cbn [tok] in TX. subst y.
      exists (w ++ lit """" ++ ks ++ lit """" ++ w1 ++ lit ":" ++ w2 ++ u ++ w'), [(string_of_list_ascii t, x)]. split; [rewrite <- !app_assoc; reflexivity|]. split; [apply p_one; assumption|reflexivity].
    + apply scan_inv in E; [|discriminate|discriminate]. destruct E as (w' & y & -> & W' & TX). cbn [tok] in TX. subst y. apply IHm in H. destruct H as (z & l & -> & Z & ->).
      exists (w ++ lit """" ++ ks ++ lit """" ++ w1 ++ lit ":" ++ w2 ++ u ++ w' ++ lit "," ++ z), ((string_of_list_ascii t, x) :: l). split; [rewrite <- !app_assoc; reflexivity|]. split; [apply p_more; assumption|reflexivity].
Qed.
Lemma io_only : forall n,
  (forall s e, read n s = Err e -> e = IOError) /\ (forall a s e, read_elements n a s = Err e -> e = IOError) /\ (forall o s e, read_members n o s = Err e -> e = IOError).
Proof.
  induction n as [|n (IHv & IHe & IHm)].
  { split; [|split]; intros *; unfold read, read_elements, read_members; destruct (scan s); cbn; congruence. }
  split; [|split].
  - intros s e H. unfold read in H. destruct (scan s) as [t r]. destruct t; try (injection H as <-; reflexivity); try discriminate.
    + rewrite read_array in H. destruct (fst (scan r)); try discriminate; apply (IHe _ _ _ H).
    + rewrite read_object in H. destruct (fst (scan r)); try discriminate; apply (IHm _ _ _ H).
    + cbn [parse_internal] in H. destruct (Qle_bool _ _); [injection H as <-; reflexivity|discriminate].
  - intros a s e H. rewrite read_more in H. destruct (read n s) as [[x s1]|e1] eqn:R; cbn [bind] in H; [|injection H as <-; apply (IHv _ _ R)].
    destruct (scan s1) as [[] s2]; try (injection H as <-; reflexivity); try discriminate. apply (IHe _ _ _ H).
  - intros o s e H. rewrite read_member in H. destruct (scan s) as [t s0]. destruct t; try (injection H as <-; reflexivity). destruct (scan s0) as [t1 s1]. destruct t1; try (injection H as <-; reflexivity).
    destruct (read n s1) as [[x s2]|e1] eqn:R; cbn [bind] in H; [|injection H as <-; apply (IHv _ _ R)].
    destruct (scan s2) as [t2 s3]. destruct t2; try (injection H as <-; reflexivity); try discriminate. apply (IHm _ _ _ H).
Qed.
Lemma fuel_more : forall n,
  (forall s p, read n s = Ok p -> read (S n) s = Ok p) /\ (forall a s p, read_elements n a s = Ok p -> read_elements (S n) a s = Ok p) /\
  (forall o s p, read_members n o s = Ok p -> read_members (S n) o s = Ok p).
Proof.
  induction n as [|n (IHv & IHe & IHm)].
  { split; [|split]; intros *; unfold read, read_elements, read_members; destruct (scan s); discriminate. }
  split; [|split].
  - intros s p H. unfold read in *. destruct (scan s) as [t r]. destruct t; try exact H.
    + rewrite read_array in *. destruct (fst (scan r)); try exact H; apply IHe, H.
    + rewrite read_object in *. destruct (fst (scan r)); try exact H; apply IHm, H.
  - intros a s p H. rewrite read_more in H. rewrite read_more. destruct (read n s) as [[x s1]|e1] eqn:R; cbn [bind] in H; [|discriminate].
    rewrite (IHv _ _ R). cbn [bind]. destruct (scan s1) as [[] s2]; try exact H. apply IHe, H.
  - intros o s p H. rewrite read_member in H. rewrite read_member. destruct (scan s) as [t s0]. destruct t; try exact H. destruct (scan s0) as [t1 s1]. destruct t1; try exact H.
    destruct (read n s1) as [[x s2]|e1] eqn:R; cbn [bind] in H; [|discriminate]. rewrite (IHv _ _ R). cbn [bind]. destruct (scan s2) as [t2 s3]. destruct t2; try exact H. apply IHm, H.
Qed.
Lemma fuel_le : forall n m s p, (n <= m)%nat -> read n s = Ok p -> read m s = Ok p.
Proof. intros n m s p L H. induction L as [|m L IH]; [exact H|]. apply fuel_more, IH. Qed.

(** * Documents *)
Lemma value_head : forall s v, value_text s v -> exists c r, s = c :: r /\ code c < 128.
Proof.
  intros s v V. destruct V as [| | |s v N|s t _|w _|s l _|w _|s l o _ _]; try (eexists _, _; split; [reflexivity|reflexivity]).
  apply (number_head s v N).
Qed.
Lemma skip_none : forall w s v rest, white w -> value_text s v -> skip_mark (w ++ s ++ rest) = w ++ s ++ rest.
Proof.
  intros w s v rest W V. assert (H : exists c r, w ++ s ++ rest = c :: r /\ code c < 128).
  { destruct W as [|c w C W]; [destruct (value_head s v V) as (c & r & -> & L); exists c, (r ++ rest); split; [reflexivity|exact L]|].
    exists c, (w ++ s ++ rest). split; [reflexivity|]. cbn in C. lia. }
  destruct H as (c & r & -> & L). destruct r as [|b [|d r]]; try reflexivity. cbn [skip_mark]. destruct (Z.eqb_spec (code c) 239); [lia|reflexivity].
Qed.
Lemma parse_read : forall s, parse s = let* (v, r) := read (2 * List.length s + 2) (skip_mark s) in match fst (scan r) with end_of_input => Ok v | _ => Err IOError end.
Proof. intros s. unfold parse, read. destruct (scan (skip_mark s)) as [t r]. reflexivity. Qed.
Lemma stop_tail : forall w tail, white w -> (tail = [] \/ exists r, tail = ascii_of_nat 0 :: r) -> stop (w ++ tail).
Proof. intros w tail W T. apply Grammar.stop_white; [exact W|]. destruct T as [->|(r & ->)]; [exact Logic.I|]. cbn. intuition discriminate. Qed.
Lemma scan_tail : forall w tail, white w -> (tail = [] \/ exists r, tail = ascii_of_nat 0 :: r) -> fst (scan (w ++ tail)) = end_of_input.
Proof. intros w tail W T. destruct T as [->|(r & ->)]; [rewrite app_nil_r, scan_end by exact W|rewrite scan_nul by exact W]; reflexivity. Qed.
Lemma mark_skipped : forall s, skip_mark (mark ++ s) = s.
Proof. reflexivity. Qed.
Lemma parse_exact : forall s j, parse s = Ok j <-> document s j.
Proof.
  intros s j. rewrite parse_read. split.
  - intros H. destruct (read _ (skip_mark s)) as [[v r]|] eqn:R; [|discriminate]. cbn [bind] in H. destruct (scan r) as [t r'] eqn:E. cbn [fst] in H. destruct t; try discriminate. injection H as ->.
    apply sound in R. destruct R as (w & t & ES & W & V).
    assert (T : exists w' tail, r = w' ++ tail /\ white w' /\ (tail = [] \/ exists x, tail = ascii_of_nat 0 :: x)).
    { apply scan_sound in E. destruct E as [E|(w' & W' & [(_ & [[-> ->]| ->])|(x & -> & [])])]; [discriminate|exists w', []; rewrite app_nil_r; auto|].
      exists w', (ascii_of_nat 0 :: r'). split; [reflexivity|]. split; [exact W'|]. right. exists r'. reflexivity. }
    destruct T as (w' & tail & -> & W' & T).
    assert (B : exists bom, In bom [[]; mark] /\ s = bom ++ skip_mark s).
    { unfold skip_mark. destruct s as [|a [|b [|c s]]]; try (exists []; split; [left; reflexivity|reflexivity]).
      destruct (_ && _) eqn:M; [|exists []; split; [left; reflexivity|reflexivity]]. apply andb_prop in M. destruct M as [M M3]. apply andb_prop in M. destruct M as [M1 M2].
      apply Z.eqb_eq in M1, M2, M3. exists mark. split; [right; left; reflexivity|]. apply char_code in M1, M2, M3. rewrite M1, M2, M3. reflexivity. }
    destruct B as (bom & B & ->). rewrite ES. apply document_intro; assumption.
  - intros [bom w t j' w' tail B W V W' T].
    assert (S : skip_mark (bom ++ w ++ t ++ w' ++ tail) = w ++ t ++ w' ++ tail) by (destruct B as [<-|[<-|[]]]; [apply (skip_none w t j'); assumption|apply mark_skipped]).
    rewrite S. destruct (proj1 accepts t j' V (2 * List.length (bom ++ w ++ t ++ w' ++ tail) + 2)%nat w (w' ++ tail)) as [_ ->]; [rewrite !app_length; lia|exact W|apply stop_tail; assumption|].
    cbn [bind]. rewrite (scan_tail w' tail W' T). reflexivity.
Qed.
Lemma parse_error_io : forall s e, parse s = Err e -> e = IOError.
Proof.
  intros s e H. rewrite parse_read in H. destruct (read _ (skip_mark s)) as [[v r]|e1] eqn:R; cbn [bind] in H; [|injection H as <-; apply io_only in R; exact R].
  destruct (fst (scan r)); try (injection H as <-; reflexivity). discriminate.
Qed.
