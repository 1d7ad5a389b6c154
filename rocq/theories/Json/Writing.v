(** What the serializer writes is JSON, and what the text contains. *)
From Coq Require Import List Bool ZArith QArith Qabs Qround Ascii String Lia Sorting.Sorted.
From Verif.Base Require Import Py.
From Verif.Round Require Import Model Spec Rounding.
From Verif.Json Require Import Model Spec Strings Numbers Grammar Printing.
Import ListNotations.
Local Open Scope Z_scope.

Section Induction.
  Variable P : value -> Prop.
  Hypothesis Pnull : P JNull.
  Hypothesis Pbool : forall b, P (JBool b).
  Hypothesis Pint : forall z, P (JInt z).
  Hypothesis Pnum : forall q, P (JNum q).
  Hypothesis Pstr : forall s, P (JStr s).
  Hypothesis Parr : forall l, Forall P l -> P (JArr l).
  Hypothesis Pobj : forall o, Forall (fun m => P (snd m)) o -> P (JObj o).
  Fixpoint value_induction (v : value) : P v :=
    match v with
    | JNull => Pnull
    | JBool b => Pbool b
    | JInt z => Pint z
    | JNum q => Pnum q
    | JStr s => Pstr s
    | JArr l => Parr l ((fix go l : Forall P l :=
        match l with [] => Forall_nil _ | x :: l => Forall_cons x (value_induction x) (go l) end) l)
    | JObj o => Pobj o ((fix go o : Forall (fun m => P (snd m)) o :=
        match o with [] => Forall_nil _ | m :: o => Forall_cons m (value_induction (snd m)) (go o) end) o)
    end.
End Induction.

Lemma line_white : forall indent, white (line indent).
Proof.
  intros indent. unfold line. destruct (indent =? -1); [constructor|]. constructor; [cbn; auto|]. apply Forall_forall. intros c H. apply repeat_spec in H. subst c. cbn. auto.
Qed.
Lemma white_nil : white [].
Proof. constructor. Qed.

Definition ending (indent : Z) : text := if indent =? 0 then [char 10] else [].
Lemma joined_elements : forall g f w w' l x, white w -> white w' ->
  Forall (fun v : value => json strict (g v) (f v)) (x :: l) ->
  elements strict ((w ++ g x) ++ joined false (map (fun v => w ++ g v) l) ++ w') (f x :: map f l).
Proof.
  intros g f w w' l. induction l as [|y l IH]; intros x W W' H; inversion H; subst.
  - cbn [map joined]. cbn [app]. rewrite <- app_assoc. apply e_one; assumption.
  - cbn [map joined]. specialize (IH y W W' H3). rewrite <- !app_assoc in *. cbn [map].
    apply (e_more _ w (g x) (f x) []); [exact W|exact H2|apply white_nil|exact IH].
Qed.
Lemma joined_pairs : forall g (f : value -> value) w sp w' l x, white w -> white sp -> white w' ->
  Forall (fun m : text * value => json strict (g (snd m)) (f (snd m))) (x :: l) ->
  pairs strict ((w ++ serialize_str (fst x) ++ lit ":" ++ sp ++ g (snd x)) ++
         joined false (map (fun m => w ++ serialize_str (fst m) ++ lit ":" ++ sp ++ g (snd m)) l) ++ w')
        ((fst x, f (snd x)) :: map (fun m => (fst m, f (snd m))) l).
Proof.
  intros g f w sp w' l. induction l as [|y l IH]; intros x W S W' H; inversion H; subst.
  - cbn [map joined]. cbn [app]. unfold serialize_str. rewrite <- !app_assoc.
    apply (p_one _ w (flat_map escape (fst x)) (fst x) [] sp); try assumption; [apply escape_all|apply white_nil].
  - cbn [map joined]. specialize (IH y W S W' H3). unfold serialize_str at 1. rewrite <- !app_assoc in *. cbn [map].
    apply (p_more _ w (flat_map escape (fst x)) (fst x) [] sp (g (snd x)) (f (snd x)) []); try assumption; [apply escape_all|apply white_nil|apply white_nil].
Qed.

Lemma possible_arr : forall l, possible (JArr l) -> Forall possible l.
Proof. intros l H. cbn in H. induction l as [|x l IH]; [constructor|]. destruct H. constructor; [assumption|]. apply IH. assumption. Qed.
Lemma possible_obj : forall o, possible (JObj o) -> StronglySorted before o /\ Forall (fun m => possible (snd m)) o.
Proof. intros o [S H]. split; [exact S|]. clear S. induction o as [|x o IH]; [constructor|]. destruct H. constructor; [assumption|]. apply IH. assumption. Qed.

Lemma sorted_map : forall (f : value -> value) o, StronglySorted before o -> StronglySorted before (map (fun m => (fst m, f (snd m))) o).
Proof.
  intros f o S. induction S as [|m o S IH F]; [constructor|]. cbn [map]. constructor; [exact IH|].
  apply Forall_forall. intros y Y. apply in_map_iff in Y. destruct Y as (z & <- & Z). rewrite Forall_forall in F. specialize (F z Z). exact F.
Qed.

Theorem written : forall v, possible v -> forall indent, -1 <= indent ->
  exists s, serialize_at indent v = s ++ ending indent /\ json strict s (reread v).
Proof.
  induction v as [|b|z|q|t|l IH|o IH] using value_induction; intros P indent I; cbn [serialize_at reread].
  - eexists. split; [reflexivity|constructor].
  - eexists. split; [reflexivity|]. destruct b; constructor.
  - eexists. split; [reflexivity|]. apply j_number, s_int; [apply print_int_ok|exact P].
  - eexists. split; [reflexivity|]. apply print_double_ok, P.
  - eexists. split; [reflexivity|]. apply j_str, escape_all.
  - eexists. split; [reflexivity|]. apply possible_arr in P. set (inner := if indent =? -1 then -1 else indent + 1).
    assert (J : -1 <= inner /\ ending inner = []). { unfold inner, ending. destruct (Z.eqb_spec indent (-1)) as [->|N]; [split; [lia|reflexivity]|]. split; [lia|]. destruct (Z.eqb_spec (indent + 1) 0); [lia|reflexivity]. }
    destruct J as [J1 J2]. destruct l as [|x l]; [apply (j_arr0 _ []), white_nil|].
    cbn [map joined]. 
    match goal with |- json strict (lit "[" ++ (?n ++ ?a ++ ?b) ++ ?c ++ lit "]") _ => replace (lit "[" ++ (n ++ a ++ b) ++ c ++ lit "]") with (lit "[" ++ (a ++ b ++ c) ++ lit "]") by (rewrite <- !app_assoc; reflexivity) end.
    apply j_arr. apply joined_elements; [apply line_white|apply line_white|].
    apply Forall_forall. intros y Y. rewrite Forall_forall in IH, P. destruct (IH y Y (P y Y) inner J1) as (s & -> & H). rewrite J2, app_nil_r. exact H.
  - eexists. split; [reflexivity|]. apply possible_obj in P. destruct P as [S P]. set (inner := if indent =? -1 then -1 else indent + 1).
    assert (J : -1 <= inner /\ ending inner = []). { unfold inner, ending. destruct (Z.eqb_spec indent (-1)) as [->|N]; [split; [lia|reflexivity]|]. split; [lia|]. destruct (Z.eqb_spec (indent + 1) 0); [lia|reflexivity]. }
    destruct J as [J1 J2]. destruct o as [|x o]; [apply (j_obj0 _ []), white_nil|].
    set (sp := if indent =? -1 then [] else lit " "). assert (WS : white sp) by (unfold sp; destruct (indent =? -1); repeat constructor).
    apply (sorted_map reread) in S. apply object_sorted in S.
    cbn [map joined] in S |- *.
    match goal with |- json strict (lit "{" ++ (?n ++ ?a ++ ?b) ++ ?c ++ lit "}") _ => replace (lit "{" ++ (n ++ a ++ b) ++ c ++ lit "}") with (lit "{" ++ (a ++ b ++ c) ++ lit "}") by (rewrite <- !app_assoc; reflexivity) end.
    eapply j_obj; [|exact S]. apply joined_pairs; [apply line_white|exact WS|apply line_white|].
    apply Forall_forall. intros y Y. rewrite Forall_forall in IH, P. destruct (IH y Y (P y Y) inner J1) as (s & -> & H). rewrite J2, app_nil_r. exact H.
Qed.
