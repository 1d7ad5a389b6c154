(** C25, C26: symmetry descriptions. *)
From Coq Require Import List Bool String Permutation.
From Verif.Base Require Import Py PyFacts Xml.
From Verif.Symm Require Import Model Spec Proofs.
Import ListNotations.
Local Open Scope string_scope.

(** Construction succeeds exactly for the documented triples, with the given
    values, and otherwise raises ValueError. *)
Theorem C25_accepted : forall x y z,
  (documented x y z -> mk_symmetry (Some x) (Some y) (Some z) = Ok (Symmetry x y z)) /\
  (~ documented x y z -> mk_symmetry (Some x) (Some y) (Some z) = Err ValueError).
Proof.
  intros x y z. split; [apply mk_ok|]. intro N.
  destruct (mk_symmetry (Some x) (Some y) (Some z)) as [s|e] eqn:E; [|apply mk_err in E; congruence].
  apply mk_inv in E. destruct E as (E1 & E2 & E3 & D). injection E1 as E1. injection E2 as E2. injection E3 as E3. subst x y z. contradiction.
Qed.

Theorem C25_axes_interchangeable : forall x y z x' y' z', Permutation [x; y; z] [x'; y'; z'] ->
  (is_valid (Some x) (Some y) (Some z) = is_valid (Some x') (Some y') (Some z')).
Proof.
  intros x y z x' y' z' P. apply eq_true_iff_eq. rewrite !valid_documented. unfold documented.
  split; intros (r & A & B); exists r; (split; [exact A|]); rewrite B; [exact P|symmetry; exact P].
Qed.

Theorem C25_roundtrip : forall x y z s, mk_symmetry x y z = Ok s ->
  from_xml (to_xml s) = Ok (Some s) /\
  from_strings [type_to_text (x_symmetry s); type_to_text (y_symmetry s); type_to_text (z_symmetry s)] = Ok s /\
  sym_eqb s s = true.
Proof.
  intros x y z s H. apply mk_inv in H. destruct H as (_ & _ & _ & D).
  split; [|split; [|apply eqb_eq; reflexivity]].
  - unfold from_xml, to_xml, leaf. cbn [tag children negb]. destruct s as [a b c].
    cbn [x_symmetry y_symmetry z_symmetry] in *. 
    assert (L : forall t, sget (type_to_text t) text_to_type = Some t) by (intro t; apply lookup_named, named_text; reflexivity).
    cbn -[sget text_to_type mk_symmetry]. rewrite !L, (mk_ok _ _ _ D). reflexivity.
  - apply from_strings_ok. split; [exact D|]. do 3 eexists. split; [reflexivity|]. rewrite !named_text. auto.
Qed.

Theorem C25_from_strings : forall l,
  (forall s, from_strings l = Ok s <-> documented (x_symmetry s) (y_symmetry s) (z_symmetry s) /\
     exists a b c, l = [a; b; c] /\ named (x_symmetry s) a /\ named (y_symmetry s) b /\ named (z_symmetry s) c) /\
  (forall e, from_strings l = Err e -> e = ValueError).
Proof. intro l. split; [apply from_strings_ok|apply from_strings_err]. Qed.

Theorem C25_equality : forall a b, sym_eqb a b = true <-> a = b.
Proof. exact eqb_eq. Qed.

Example C25_example :
  mk_symmetry (Some twoFold) (Some cylindrical) (Some twoFold) = Ok (Symmetry twoFold cylindrical twoFold) /\
  mk_symmetry (Some twoFold) (Some twoFold) (Some none) = Err ValueError /\
  from_strings ["fourFold"; "twoFold"; "twoFold"] = Ok (Symmetry fourFold twoFold twoFold) /\
  from_strings ["fourFold"; "twofold"; "twoFold"] = Err ValueError.
Proof. repeat split. Qed.

(** Reading XML: a symmetry comes back exactly when the XML describes an accepted
    one, and then it is that one; in every other case with the right tag the
    result is None and nothing is raised. *)
Theorem C26_from_xml : forall base,
  (tag base <> "symmetry" -> from_xml base = Err RuntimeError) /\
  (tag base = "symmetry" ->
    (forall s, from_xml base = Ok (Some s) <->
       describes base (x_symmetry s) (y_symmetry s) (z_symmetry s) /\
       documented (x_symmetry s) (y_symmetry s) (z_symmetry s)) /\
    ((forall x y z, describes base x y z -> ~ documented x y z) -> from_xml base = Ok None)).
Proof.
  intro base. split.
  - intro N. unfold from_xml. destruct (String.eqb_spec (tag base) "symmetry"); [contradiction|reflexivity].
  - intro T. split; [intro s; apply from_xml_some, T|]. intro N.
    destruct (from_xml_total base T) as [[s|] E]; [|exact E]. apply (from_xml_some base s T) in E.
    exfalso. apply (N _ _ _ (proj1 E)). apply E.
Qed.

(** The object then gets "no symmetry". *)
Theorem C26_silent_default : forall base,
  tag base = "symmetry" -> (forall x y z, describes base x y z -> ~ documented x y z) ->
  (let* s := from_xml base in object_symmetry s) = Ok (Symmetry none none none).
Proof. intros base T N. rewrite (proj2 (proj2 (C26_from_xml base) T) N). reflexivity. Qed.

(** The documented RuntimeError is not raised. *)
Theorem C26_raises_refuted : exists base, tag base = "symmetry" /\
  (forall x y z, ~ describes base x y z) /\ from_xml base = Ok None.
Proof.
  exists (Elem "symmetry" None [leaf "x" "none"; leaf "y" "sixFold"; leaf "z" "none"]).
  split; [reflexivity|]. split; [|reflexivity]. intros x y z D. apply describes_final in D. destruct D as (_ & D & _). discriminate D.
Qed.

(** Whatever the stack limit, != ends in RecursionError, for equal and for
    different symmetries. *)
Theorem C26_ne_never_returns : forall depth a b, sym_ne depth a b = Err RecursionError.
Proof. exact ne_diverges. Qed.

Example C26_example :
  from_xml (Elem "symmetry" None [leaf "z" "none"; leaf "x" "bad"; leaf "y" "none"; leaf "x" "twoFold"])
    = Ok (Some (Symmetry twoFold none none)) /\
  from_xml (Elem "symmetry" None [leaf "x" "twoFold"; leaf "y" "twoFold"; leaf "z" "none"]) = Ok None /\
  from_xml (Elem "symmetry" None []) = Ok None /\
  sym_ne 1000 (Symmetry none none none) (Symmetry twoFold none none) = Err RecursionError.
Proof. repeat split. Qed.

Print Assumptions C25_accepted.
Print Assumptions C25_axes_interchangeable.
Print Assumptions C25_roundtrip.
Print Assumptions C25_from_strings.
Print Assumptions C25_equality.
Print Assumptions C26_from_xml.
Print Assumptions C26_silent_default.
Print Assumptions C26_raises_refuted.
Print Assumptions C26_ne_never_returns.
