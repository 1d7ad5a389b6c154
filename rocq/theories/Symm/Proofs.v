From Coq Require Import List Bool String Permutation.
From Verif.Base Require Import Py PyFacts Xml.
From Verif.Symm Require Import Model Spec.
Import ListNotations.
Local Open Scope string_scope.

Lemma st_eqb_eq : forall a b, st_eqb a b = true <-> a = b.
Proof. intros [] []; simpl; split; intro; congruence. Qed.

Lemma st_dec : forall a b : symmetry_type, {a = b} + {a <> b}.
Proof. decide equality. Defined.

Fixpoint remove1 (x : symmetry_type) (l : list symmetry_type) : option (list symmetry_type) :=
  match l with
  | [] => None
  | y :: l => if st_dec x y then Some l else option_map (cons y) (remove1 x l)
  end.
Lemma remove1_perm : forall x l l', remove1 x l = Some l' -> Permutation l (x :: l').
Proof.
  induction l as [|y l IH]; simpl; intros l' H; [discriminate|].
  destruct (st_dec x y) as [->|N]; [injection H as ->; reflexivity|].
  destruct (remove1 x l) as [m|]; [|discriminate]. injection H as <-.
  rewrite (IH m eq_refl). apply perm_swap.
Qed.
Lemma remove1_none : forall x l, remove1 x l = None -> ~ In x l.
Proof.
  induction l as [|y l IH]; simpl; intros H; [tauto|].
  destruct (st_dec x y) as [->|N]; [discriminate|]. destruct (remove1 x l); [discriminate|].
  intros [E|I]; [congruence|]. apply IH; auto.
Qed.
Fixpoint permb (a b : list symmetry_type) : bool :=
  match a with
  | [] => match b with [] => true | _ => false end
  | x :: a => match remove1 x b with Some b' => permb a b' | None => false end
  end.
Lemma permb_ok : forall a b, permb a b = true <-> Permutation a b.
Proof.
  induction a as [|x a IH]; intros b; simpl.
  - destruct b; split; intro H; try discriminate; [constructor|reflexivity|apply Permutation_nil in H; discriminate].
  - destruct (remove1 x b) as [b'|] eqn:E.
    + apply remove1_perm in E. rewrite IH. split; intro H.
      * rewrite E. constructor. exact H.
      * rewrite E in H. apply Permutation_cons_inv in H. exact H.
    + apply remove1_none in E. split; [discriminate|]. intro H. exfalso. apply E. apply (Permutation_in _ H). left; reflexivity.
Qed.

Definition rules : list (list symmetry_type) :=
  [[none; none; none]; [twoFold; none; none]; [fourFold; none; none]; [twoFold; twoFold; fourFold];
   [fourFold; fourFold; fourFold]; [twoFold; twoFold; twoFold]; [cylindrical; none; none];
   [cylindrical; twoFold; twoFold]; [spherical; spherical; spherical]].
Lemma rules_ok : forall r, rule r <-> In r rules.
Proof.
  intro r. split.
  - intros []; simpl; tauto.
  - simpl. intros H. repeat (destruct H as [<-|H]; [constructor|]). destruct H.
Qed.

Lemma documented_b : forall x y z, documented x y z <-> existsb (fun r => permb r [x; y; z]) rules = true.
Proof.
  intros. unfold documented. rewrite existsb_exists. split; intros (r & A & B); exists r; rewrite permb_ok, ?rules_ok in *; auto.
Qed.

Lemma valid_documented : forall x y z, is_valid (Some x) (Some y) (Some z) = true <-> documented x y z.
Proof.
  intros x y z. rewrite documented_b. destruct x, y, z; vm_compute; split; intro; congruence.
Qed.

Lemma mk_ok : forall x y z, documented x y z -> mk_symmetry (Some x) (Some y) (Some z) = Ok (Symmetry x y z).
Proof. intros x y z H. apply valid_documented in H. unfold mk_symmetry. rewrite H. reflexivity. Qed.

Lemma mk_inv : forall x y z s, mk_symmetry x y z = Ok s ->
  x = Some (x_symmetry s) /\ y = Some (y_symmetry s) /\ z = Some (z_symmetry s) /\
  documented (x_symmetry s) (y_symmetry s) (z_symmetry s).
Proof.
  intros x y z s H. unfold mk_symmetry in H. destruct (is_valid x y z) eqn:V; [|discriminate].
  destruct x as [x|], y as [y|], z as [z|]; try discriminate. injection H as <-. simpl. rewrite <- valid_documented. auto.
Qed.

Lemma mk_err : forall x y z e, mk_symmetry x y z = Err e -> e = ValueError.
Proof.
  intros x y z e. unfold mk_symmetry. destruct (is_valid x y z); [|congruence].
  destruct x, y, z; congruence.
Qed.

Lemma named_text : forall t s, named t s <-> s = type_to_text t.
Proof. intros t s. split; [intros []; reflexivity|intros ->; destruct t; constructor]. Qed.

Lemma lookup_named : forall s t, sget s text_to_type = Some t <-> named t s.
Proof.
  intros s t. unfold text_to_type. unfold dget.
  split.
  - intro H. repeat (match goal with H : context [String.eqb s ?k] |- _ => destruct (String.eqb_spec s k); [injection H as <-; subst; constructor|] end).
    discriminate.
  - intros []; reflexivity.
Qed.

(** Final values of the loop over the children. *)
Definition final (t : string) (cs : list xml) (d : option symmetry_type) : option symmetry_type :=
  fold_left (fun v e => if String.eqb (tag e) t then lookup_text (text e) else v) cs d.

Lemma parse_final : forall cs x y z,
  fold_left parse_child cs (x, y, z) = (final "x" cs x, final "y" cs y, final "z" cs z).
Proof.
  induction cs as [|e cs IH]; intros; [reflexivity|]. unfold final in *; cbn [fold_left].
  unfold parse_child at 2. destruct (String.eqb_spec (tag e) "x") as [E|E].
  - rewrite E, IH. reflexivity.
  - destruct (String.eqb_spec (tag e) "y") as [F|F]; [rewrite F, IH; reflexivity|].
    destruct (String.eqb_spec (tag e) "z") as [G|G]; rewrite IH; reflexivity.
Qed.

Lemma final_none : forall t cs d, (forall e, In e cs -> tag e <> t) -> final t cs d = d.
Proof.
  induction cs as [|e cs IH]; intros d H; [reflexivity|]. unfold final in *. cbn [fold_left].
  destruct (String.eqb_spec (tag e) t) as [E|E]; [exfalso; apply (H e); simpl; auto|]. apply IH. intros e' He. apply H. right; exact He.
Qed.

Lemma final_cases : forall t cs d,
  (final t cs d = d /\ forall e, In e cs -> tag e <> t) \/
  (exists a e b, cs = (a ++ e :: b)%list /\ tag e = t /\ final t cs d = lookup_text (text e) /\ forall e', In e' b -> tag e' <> t).
Proof.
  intros t cs d. induction cs as [|e cs IH] using rev_ind; [left; split; [reflexivity|intros ? []]|].
  unfold final. rewrite fold_left_app. cbn [fold_left]. destruct (String.eqb_spec (tag e) t) as [E|E].
  - right. exists cs, e, []. split; [reflexivity|]. split; [exact E|]. split; [reflexivity|]. intros ? [].
  - destruct IH as [[F N]|(a & e0 & b & -> & T & F & N)].
    + left. split; [exact F|]. intros e' H. apply in_app_or in H. destruct H as [H|[<-|[]]]; auto.
    + right. exists a, e0, (b ++ [e])%list. rewrite <- app_assoc. repeat split; auto.
      intros e' H. apply in_app_or in H. destruct H as [H|[<-|[]]]; auto.
Qed.

Lemma final_last : forall t cs ty, final t cs None = Some ty <-> exists s, last_child t s cs /\ named ty s.
Proof.
  intros t cs ty. split.
  - intro H. destruct (final_cases t cs None) as [[F N]|(a & e & b & E & T & F & N)]; [congruence|].
    rewrite H in F. unfold lookup_text in F. destruct (text e) as [s|] eqn:S; [|discriminate].
    symmetry in F. apply lookup_named in F. exists s. split; [|exact F]. exists a, e, b. auto.
  - intros (s & (a & e & b & -> & T & S & N) & NM). unfold final. rewrite fold_left_app. cbn [fold_left].
    rewrite T, String.eqb_refl, S. cbn [lookup_text]. apply lookup_named in NM. rewrite NM. apply final_none. exact N.
Qed.

Lemma describes_final : forall base x y z,
  describes base x y z <->
  final "x" (children base) None = Some x /\ final "y" (children base) None = Some y /\ final "z" (children base) None = Some z.
Proof.
  intros. rewrite !final_last. unfold describes. split.
  - intros (sx & sy & sz & A & B & C & D & E & F). split; [exists sx; auto|split; [exists sy; auto|exists sz; auto]].
  - intros ((sx & A & D) & (sy & B & E) & (sz & C & F)). exists sx, sy, sz. auto 10.
Qed.

Lemma from_xml_some : forall base s, tag base = "symmetry" ->
  (from_xml base = Ok (Some s) <->
   describes base (x_symmetry s) (y_symmetry s) (z_symmetry s) /\ documented (x_symmetry s) (y_symmetry s) (z_symmetry s)).
Proof.
  intros base s T. unfold from_xml. rewrite T, String.eqb_refl. cbn [negb]. rewrite parse_final, describes_final.
  set (x := final "x" _ _). set (y := final "y" _ _). set (z := final "z" _ _). split.
  - intro H. destruct (mk_symmetry x y z) as [s'|e] eqn:E.
    + injection H as ->. apply mk_inv in E. tauto.
    + apply mk_err in E. subst e. discriminate.
  - intros [(-> & -> & ->) D]. rewrite (mk_ok _ _ _ D). destruct s; reflexivity.
Qed.

Lemma from_xml_total : forall base, tag base = "symmetry" -> exists r, from_xml base = Ok r.
Proof.
  intros base T. unfold from_xml. rewrite T, String.eqb_refl. cbn [negb]. rewrite parse_final.
  destruct (mk_symmetry _ _ _) as [s|e] eqn:E; [eexists; reflexivity|]. apply mk_err in E. subst. eexists; reflexivity.
Qed.

Lemma from_strings_ok : forall l s, from_strings l = Ok s <->
  documented (x_symmetry s) (y_symmetry s) (z_symmetry s) /\
  exists a b c, l = [a; b; c] /\ named (x_symmetry s) a /\ named (y_symmetry s) b /\ named (z_symmetry s) c.
Proof.
  intros l s. unfold from_strings. split.
  - intro H. destruct l as [|a [|b [|c [|d l]]]]; try discriminate. cbn [List.length Nat.eqb negb flat_map] in H.
    destruct (sget a text_to_type) as [ta|] eqn:A; destruct (sget b text_to_type) as [tb|] eqn:B;
      destruct (sget c text_to_type) as [tc|] eqn:C; cbn [app] in H; try discriminate.
    apply lookup_named in A. apply lookup_named in B. apply lookup_named in C. apply mk_inv in H.
    destruct H as (E1 & E2 & E3 & D). injection E1 as E1. injection E2 as E2. injection E3 as E3. subst ta tb tc.
    split; [exact D|]. exists a, b, c. auto.
  - intros (D & a & b & c & -> & A & B & C). apply lookup_named in A. apply lookup_named in B. apply lookup_named in C.
    cbn [List.length Nat.eqb negb flat_map]. rewrite A, B, C. cbn [app]. rewrite (mk_ok _ _ _ D). destruct s; reflexivity.
Qed.

Lemma from_strings_err : forall l e, from_strings l = Err e -> e = ValueError.
Proof.
  intros l e. unfold from_strings. destruct (negb _); [congruence|].
  destruct (flat_map _ l) as [|a [|b [|c r]]]; try congruence. apply mk_err.
Qed.

Lemma ne_diverges : forall depth a b, sym_ne depth a b = Err RecursionError.
Proof. induction depth; intros; simpl; auto. Qed.

Lemma eqb_eq : forall a b, sym_eqb a b = true <-> a = b.
Proof.
  intros [x y z] [x' y' z']. unfold sym_eqb; cbn [x_symmetry y_symmetry z_symmetry]. rewrite !andb_true_iff, !st_eqb_eq. split.
  - intros [[-> ->] ->]. reflexivity.
  - intro H; injection H; auto.
Qed.
