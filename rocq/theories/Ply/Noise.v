(** Lines of a PLY header that do not matter. *)
From Coq Require Import List ZArith NArith Bool String Ascii Reals Lia.
From Verif.Base Require Import Py Vec.
From Verif.Cloud Require Import Model.
From Verif.Ply Require Import Model Spec Proofs.
Import ListNotations.
Local Open Scope string_scope.
Local Open Scope list_scope.

(** * What may be inserted *)
Definition unlines (ls : list bytes) : bytes := flat_map (fun l => l ++ [newline]) ls.
Definition one_line (l : bytes) : Prop := Forall (fun c => c <> newline) l.
Definition blank (l : bytes) : Prop := Forall (fun c => In (N_of_ascii c) [32; 9; 11; 12; 13]%N) l.
(** A blank line, or one of these words, alone or followed by a space and anything. *)
Definition ignorable (l : bytes) : Prop :=
  blank l \/ exists w, In w ["comment"; "obj_info"; "ply"; "PLY"] /\ (l = text w \/ exists r, l = text w ++ text " " ++ r).
(** [b] is [a] with further such lines, each before some line of [a]. *)
Inductive with_noise : list bytes -> list bytes -> Prop :=
| noise_nil : with_noise [] []
| noise_keep : forall l a b, with_noise a b -> with_noise (l :: a) (l :: b)
| noise_add : forall l a b, a <> [] -> one_line l -> ignorable l -> with_noise a b -> with_noise a (l :: b).

(** * They are skipped *)
Lemma blank_token : forall l, blank l -> fst (token l) = [].
Proof.
  intros l H. unfold token. assert (S : skip_space l = []).
  { induction H as [|c l C H IH]; [reflexivity|]. cbn [skip_space]. assert (E : is_space c = true); [|rewrite E; exact IH].
    unfold is_space. destruct C as [<-|[<-|[<-|[<-|[<-|[]]]]]]; reflexivity. }
  rewrite S. reflexivity.
Qed.
Lemma ignorable_line : forall h l, ignorable l -> header_line h l = Ok (Some h).
Proof.
  intros h l [B|(w & W & H)].
  - unfold header_line. rewrite (surjective_pairing (token l)), (blank_token l B). reflexivity.
  - assert (T : exists r, token l = (text w, r)).
    { assert (Hw : text w <> [] /\ Forall (fun c => is_space c = false) (text w)).
      { destruct W as [<-|[<-|[<-|[<-|[]]]]]; (split; [discriminate|repeat constructor]). }
      destruct Hw as [N F]. destruct H as [-> | (r & ->)].
      - exists []. rewrite <- (app_nil_r (text w)) at 1. apply token_word; [exact N|exact F|left; reflexivity].
      - exists (text " " ++ r). apply token_word; [exact N|exact F|right]. exists " "%char, r. split; reflexivity. }
    destruct T as (r & T). unfold header_line. rewrite T. destruct W as [<-|[<-|[<-|[<-|[]]]]]; reflexivity.
Qed.
Lemma unlines_cons : forall l a data, unlines (l :: a) ++ data = l ++ newline :: (unlines a ++ data).
Proof. intros. unfold unlines. cbn [flat_map]. rewrite <- !app_assoc. reflexivity. Qed.
Lemma parse_noise : forall a b, with_noise a b -> Forall one_line a -> forall n h hf,
  parse_lines n h (unlines a) = Ok (hf, Stream [] true) ->
  forall data m, (List.length (unlines b ++ data) < m)%nat -> parse_lines m h (unlines b ++ data) = Ok (hf, Stream data true).
Proof.
  induction 1 as [|l a b W IH|l a b NE O I W IH]; intros F n h hf P data m L.
  - destruct n; cbn in P; discriminate.
  - inversion F as [|? ? Fl Fa]; subst. destruct n as [|n]; [cbn in P; discriminate|]. destruct m as [|m]; [lia|].
    rewrite <- (app_nil_r (unlines (l :: a))) in P. rewrite unlines_cons in *. cbn [parse_lines] in *.
    destruct (l ++ newline :: (unlines a ++ [])) as [|c0 l0] eqn:E1; [destruct l; discriminate|]. rewrite <- E1 in P.
    destruct (l ++ newline :: (unlines b ++ data)) as [|c1 l1] eqn:E2; [destruct l; discriminate|]. rewrite <- E2.
    rewrite getline_line in * by exact Fl. destruct (header_line h l) as [[h'|]|e] eqn:H; cbn [bind] in *.
    + rewrite app_nil_r in P. apply (IH Fa n h' hf P). rewrite <- E2 in L. rewrite app_length in L. cbn [List.length] in L. lia.
    + injection P as <- U. rewrite app_nil_r in U. destruct a as [|x a]; [|cbn in U; destruct x; discriminate]. inversion W; subst; [reflexivity|congruence].
    + discriminate.
  - destruct m as [|m]; [lia|]. rewrite unlines_cons in *. cbn [parse_lines].
    destruct (l ++ newline :: (unlines b ++ data)) as [|c1 l1] eqn:E2; [destruct l; discriminate|]. rewrite <- E2.
    rewrite getline_line by exact O. rewrite (ignorable_line h l I). cbn [bind]. apply (IH F n h hf P). rewrite <- E2 in L. rewrite app_length in L. cbn [List.length] in L. lia.
Qed.
Lemma header_noise : forall be els a b data, header_text be els (unlines a) -> Forall one_line a -> with_noise a b ->
  parse_header (unlines b ++ data) = parse_header (unlines a ++ data).
Proof.
  intros be els a b data H F W. rewrite (parse_header_ok be els _ data H).
  assert (P := parse_header_ok be els _ [] H). rewrite app_nil_r in P. unfold parse_header in *. eapply parse_noise; [exact W|exact F|exact P|lia].
Qed.
