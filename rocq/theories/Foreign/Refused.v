(** Incomplete documents are not loaded. *)
From Coq Require Import List Bool ZArith QArith Ascii String Lia.
From Verif.Base Require Import Py.
From Verif.Uri Require Import Model.
From Verif.Uri Require Spec.
From Verif.Doc Require Import Model.
From Verif.Doc Require Import Spec Facts.
From Verif.Text Require Spec.
From Verif.Foreign Require Import Spec Read.
Import ListNotations.
Local Open Scope Z_scope.
Local Open Scope string_scope.

Lemma bind_ok : forall A B (x : res A) (f : A -> res B) b, bind x f = Ok b -> exists a, x = Ok a /\ f a = Ok b.
Proof. intros A B [a|e] f b H; [exists a; split; [reflexivity|exact H]|discriminate]. Qed.
Lemma mapM_in : forall A B (f : A -> res B) l bs x, mapM f l = Ok bs -> In x l -> exists b, f x = Ok b.
Proof.
  intros A B f l. induction l as [|a l IH]; intros bs x H I; [destruct I|]. cbn [mapM] in H. apply bind_ok in H. destruct H as (b & F & H). apply bind_ok in H. destruct H as (bs' & M & _).
  destruct I as [->|I]; [exists b; exact F|apply (IH bs' x M I)].
Qed.
Lemma section_in : forall A v k (p : json -> res A) as_ l o, section v k p = Ok as_ -> array_at v k l -> In o l -> is_object o = true /\ exists a, p o = Ok a.
Proof.
  intros A v k p as_ l o H M I. apply find_member in M. unfold section in H. rewrite M in H. destruct (mapM_in _ _ _ _ _ _ H I) as (a & F). destruct (is_object o); [split; [reflexivity|exists a; exact F]|discriminate].
Qed.
Lemma required_number : forall o k q, required (p_number o k) = Ok q -> exists j, member o k j /\ number j q.
Proof.
  intros o k q H. unfold p_number in H. destruct (find k o) as [j|] eqn:F; [|discriminate]. apply find_member in F. exists j. split; [exact F|]. apply number_of_number. destruct (number_of j); [injection H as <-; reflexivity|discriminate].
Qed.
Lemma required_string : forall o k s, required (p_string o k) = Ok s -> member o k (JStr s).
Proof. intros o k s H. unfold p_string in H. destruct (find k o) as [[| | | |t| |]|] eqn:F; try discriminate. injection H as <-. apply find_member, F. Qed.
Lemma numbers_ok : forall o k, snd (p_numbers o k) = true -> exists j qs, member o k j /\ list_of number j qs.
Proof.
  intros o k H. unfold p_numbers in H. destruct (find k o) as [[| | | | |l|]|] eqn:F; try discriminate. apply find_member in F. exists (JArr l).
  assert (exists qs, Forall2 number l qs) as (qs & FA).
  { clear F. induction l as [|j l IH]; [exists []; constructor|]. cbn [numbers_of] in H. destruct (number_of j) as [q|] eqn:N; [|discriminate]. destruct (numbers_of l) as [qs b] eqn:E. destruct (IH H) as (qs' & FA).
    exists (q :: qs'). constructor; [apply number_of_number, N|exact FA]. }
  exists qs. split; [exact F|]. exists l. split; [reflexivity|exact FA].
Qed.
Lemma type_in : forall s t, type_of s = Some t -> In (s, t) types.
Proof.
  intros s t H. unfold type_of in H.
  repeat (match type of H with (if String.eqb s ?x then _ else _) = _ => destruct (String.eqb_spec s x) as [->|]; [injection H as <-; cbn; tauto|] end). discriminate.
Qed.
Ltac step H := apply bind_ok in H; let a := fresh "a" in let E := fresh "E" in destruct H as (a & E & H).

Section Refused.
  Variables (expand : text -> text) (fs : files) (d : text) (decode : list Z -> option (Z * Z * Z * list Z)) (f32 : Q -> Q).
  Lemma is_object_false : forall o, (forall m, o <> JObj m) -> is_object o = false.
  Proof. intros o H. destruct o; try reflexivity. exfalso. apply (H l), eq_refl. Qed.
  Theorem refused : forall v m, incomplete v -> LoadFromString expand fs d decode f32 v <> Ok m.
  Proof.
    intros v m I H. unfold LoadFromString in H. destruct (is_object v) eqn:O; [|discriminate]. cbn [negb] in H.
    destruct (forallb (has_section v) ["scenes"; "nodes"; "accessors"; "buffers"; "bufferViews"]) eqn:S; [|discriminate]. cbn [negb] in H. rewrite forallb_forall in S.
    cbv zeta in H. step H. step H. step H. step H. step H. step H. step H. step H. step H. step H. step H. step H. step H. step H. step H. step H. clear H.
    destruct I as [N|k K N|k l o K M I N|k c l o K M I N|l o M I N|l o M I N|l o t c M I T K N|k c l o K M I N|l a' ss s c M I MS IS N|l o M I N].
    - rewrite (is_object_false v N) in O. discriminate.
    - specialize (S k K). unfold has_section in S. destruct (find k v) as [[| | | | |l|]|] eqn:F; try discriminate. apply (N l). apply find_member, F.
    - assert (B := is_object_false o N). cbn [In] in K. repeat (destruct K as [<-|K]; [match goal with E : section v ?k _ = _, M : array_at v ?k _ |- _ => destruct (section_in _ _ _ _ _ _ _ E M I) as [X _]; congruence end|]). destruct K.
    - cbn [In] in K. repeat (destruct K as [K|K]; [injection K as <- <-;
        match goal with E : section v ?k _ = _, M : array_at v ?k _ |- _ => destruct (section_in _ _ _ _ _ _ _ E M I) as (_ & x & P) end;
        unfold ParseAccessor, ParseBuffer, ParseBufferView in P; repeat (match type of P with bind _ _ = _ => step P end);
        match goal with R : required (p_number o ?c) = Ok ?q, N : lacks o ?c _ |- _ => destruct (required_number _ _ _ R) as (j & MJ & NJ); apply (N j q MJ NJ) end|]). destruct K.
    - match goal with E : section v "accessors" _ = _ |- _ => destruct (section_in _ _ _ _ _ _ _ E M I) as (_ & x & P) end. unfold ParseAccessor in P. repeat (match type of P with bind _ _ = _ => step P end).
      match goal with R : required (p_string o "type") = Ok ?s, R' : required (type_of ?s) = Ok ?t |- _ => apply (N (JStr s) t); [apply required_string, R|]; exists s; split; [reflexivity|]; apply type_in; unfold required in R'; destruct (type_of s); [injection R' as <-; reflexivity|discriminate] end.
    - match goal with E : section v "cameras" _ = _ |- _ => destruct (section_in _ _ _ _ _ _ _ E M I) as (_ & x & P) end. unfold ParseCamera in P. step P. step P. apply required_string in E15.
      apply (N (JStr a15) a15 E15). split; [reflexivity|]. cbn [In]. destruct (String.eqb_spec a15 "orthographic") as [->|]; [tauto|]. destruct (String.eqb_spec a15 "perspective") as [->|]; [tauto|]. discriminate.
    - match goal with E : section v "cameras" _ = _ |- _ => destruct (section_in _ _ _ _ _ _ _ E M I) as (_ & x & P) end. unfold ParseCamera in P. step P. step P. apply required_string in E15.
      apply find_member in E15. apply find_member in T. rewrite T in E15. injection E15 as <-.
      assert (L : forall p, find t o = Some p -> forall q, required (p_number p c) <> Ok q).
      { intros p F q R. destruct (required_number _ _ _ R) as (j & MJ & NJ). apply find_member in F. apply (N p F j q MJ NJ). }
      cbn [In] in K. repeat (destruct K as [K|K]; [injection K as <- <-; cbn [String.eqb Ascii.eqb Bool.eqb] in E16;
        match type of E16 with match ?f with _ => _ end = _ => destruct f as [[| | | | | |z]|] eqn:F; try discriminate end; step E16;
        unfold ParsePerspectiveCamera, ParseOrthographicCamera in *; repeat (match goal with P : bind (required _) _ = Ok _ |- _ => step P end);
        match goal with R : required (p_number ?z ?c) = Ok ?q, L : forall p, _ -> forall q, required (p_number p ?c) <> _ |- _ => exact (L z eq_refl q R) end|]). destruct K.
    - cbn [In] in K. repeat (destruct K as [K|K]; [injection K as <- <-;
        match goal with E : section v ?k _ = _, M : array_at v ?k _ |- _ => destruct (section_in _ _ _ _ _ _ _ E M I) as (_ & x & P) end;
        unfold ParseScene, ParseSkin in P;
        match type of P with context [p_numbers o ?c] => destruct (p_numbers o c) as [ns ok] eqn:PN; destruct ok; [|discriminate]; destruct (numbers_ok o c) as (j & qs & MJ & LJ); [rewrite PN; reflexivity|]; apply (N j qs MJ LJ) end|]). destruct K.
    - match goal with E : section v "animations" _ = _ |- _ => destruct (section_in _ _ _ _ _ _ _ E M I) as (_ & x & P) end. unfold ParseAnimation in P. step P. apply find_member in MS. rewrite MS in P. step P.
      destruct (mapM_in _ _ _ _ _ _ E16 IS) as (y & Y). unfold ParseAnimationSampler in Y. step Y. step Y. step Y.
      destruct N as [N|[K N]]; [apply (N _ _ (required_string _ _ _ E18) eq_refl)|]. cbn [In] in K.
      destruct K as [<-|[<-|[]]]; [destruct (required_number _ _ _ E17) as (j & MJ & NJ)|destruct (required_number _ _ _ E19) as (j & MJ & NJ)]; apply (N j _ MJ NJ).
    - match goal with E : section v "images" _ = _ |- _ => destruct (section_in _ _ _ _ _ _ _ E M I) as (_ & x & P) end. unfold ParseImage in P.
      destruct N as [[N1 N2]|[(j & N1) (j' & N2)]].
      + destruct (find "bufferView" o) as [j|] eqn:F; [apply (N2 j), find_member, F|]. destruct (find "uri" o) as [j|] eqn:F'; [apply (N1 j), find_member, F'|]. discriminate.
      + apply find_member in N1. apply find_member in N2. rewrite N1, N2 in P. discriminate.
  Qed.
End Refused.
