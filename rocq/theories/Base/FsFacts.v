(** Facts about the file system model. *)
From Coq Require Import List Bool String Ascii.
From Verif.Base Require Import Py PyFacts Fs.
Import ListNotations.
Local Open Scope string_scope.
Local Open Scope list_scope.

Lemma loc_eqb_spec : forall a b, loc_eqb a b = true <-> a = b.
Proof.
  induction a as [|x a IH]; intros [|y b]; cbn [loc_eqb]; try (split; congruence).
  rewrite andb_true_iff, String.eqb_eq, IH. split; [intros (-> & ->); reflexivity|intro E; injection E; auto].
Qed.
Lemma loc_eqb_refl : forall a, loc_eqb a a = true.
Proof. intro a. apply loc_eqb_spec. reflexivity. Qed.

Lemma above_spec : forall a b, above a b = true <-> exists c, b = a ++ c.
Proof.
  induction a as [|x a IH]; intros b; cbn [above app]; [split; [eauto|reflexivity]|]. destruct b as [|y b]; [split; [discriminate|intros (c & C); discriminate C]|].
  rewrite andb_true_iff, String.eqb_eq, IH. split; [intros (-> & c & ->); eauto|intros (c & E); injection E as -> ->; eauto].
Qed.
Lemma above_app : forall a c, above a (a ++ c) = true.
Proof. intros. apply above_spec. eauto. Qed.
Lemma above_refl : forall a, above a a = true.
Proof. intro a. apply above_spec. exists []. rewrite app_nil_r. reflexivity. Qed.

Lemma walk_names : forall l at_, Forall (fun x => x <> "." /\ x <> "..") l -> walk at_ l = at_ ++ l.
Proof.
  induction l as [|x l IH]; intros at_ N; [symmetry; apply app_nil_r|]. inversion N as [|? ? (A & B) N']; subst. cbn [walk].
  apply String.eqb_neq in A, B. rewrite A, B, IH by exact N'. rewrite <- app_assoc. reflexivity.
Qed.

Section Facts.
  Context {A : Type}.

  (** The file system after a successful write. *)
  Definition put (s : fs A) (l : list string) (b : A) : fs A := Fs (dset loc_eqb l b (files s)) (dirs s) (cwd s).

  Lemma get_put_same : forall s l b, dget loc_eqb l (files (put s l b)) = Some b.
  Proof. intros. apply dget_dset_same, loc_eqb_spec. Qed.
  Lemma get_put_other : forall s l l' b, l <> l' -> dget loc_eqb l' (files (put s l b)) = dget loc_eqb l' (files s).
  Proof. intros. apply dget_dset_other; [exact loc_eqb_spec|assumption]. Qed.

  Lemma write_at_ok : forall s l (b : A), l <> [] -> isdir_at s (removelast l) = true -> isdir_at s l = false -> write_at s l b = (put s l b, Ok tt).
  Proof. intros s l b N D F. unfold write_at. destruct l; [contradiction|]. rewrite D, F. reflexivity. Qed.

  Lemma get_filter : forall (f : list (list string * A)) t l, dget loc_eqb l (filter (fun f => negb (above t (fst f))) f) = if above t l then None else dget loc_eqb l f.
  Proof.
    induction f as [|[l' b] f IH]; intros t l; cbn [filter dget fst]; [destruct (above t l); reflexivity|].
    destruct (above t l') eqn:E; cbn [negb dget]; rewrite IH.
    - destruct (loc_eqb l l') eqn:Q; [|reflexivity]. apply loc_eqb_spec in Q. subst l'. rewrite E. reflexivity.
    - destruct (loc_eqb l l') eqn:Q; [|reflexivity]. apply loc_eqb_spec in Q. subst l'. rewrite E. reflexivity.
  Qed.
  Lemma dir_filter : forall (d : list (list string)) t l, existsb (loc_eqb l) (filter (fun d => negb (above t d)) d) = negb (above t l) && existsb (loc_eqb l) d.
  Proof.
    induction d as [|l' d IH]; intros t l; cbn [filter existsb]; [rewrite andb_false_r; reflexivity|].
    destruct (loc_eqb l l') eqn:Q.
    - apply loc_eqb_spec in Q. subst l'. destruct (above t l) eqn:E; cbn [negb existsb andb orb]; [rewrite IH, E; reflexivity|rewrite loc_eqb_refl; reflexivity].
    - destruct (above t l'); cbn [negb existsb]; rewrite IH, ?Q; reflexivity.
  Qed.
  Lemma isdir_cons : forall (s : fs A) t l, t <> [] -> isdir_at (Fs (files s) (t :: dirs s) (cwd s)) l = loc_eqb l t || isdir_at s l.
  Proof. intros s t [|x l] N; cbn [isdir_at dirs existsb]; [rewrite orb_true_r; reflexivity|reflexivity]. Qed.
End Facts.

(** * Names *)
Lemma only_dots_false : forall r, only_dots r = false <-> exists c, In c (list_ascii_of_string r) /\ c <> "."%char.
Proof.
  induction r as [|x r IH]; cbn [only_dots list_ascii_of_string].
  - split; [discriminate|]. intros (c & [] & _).
  - destruct (Ascii.eqb_spec x "."%char) as [->|N]; cbn [andb].
    + rewrite IH. split; intros (c & I & D); [exists c; split; [right; exact I|exact D]|]. destruct I as [<-|I]; [congruence|]. exists c. auto.
    + split; [|reflexivity]. intros _. exists x. split; [left; reflexivity|exact N].
Qed.
Lemma last_dot_app : forall s r e, last_dot s = Some (r, e) -> s = (r ++ e)%string.
Proof.
  induction s as [|c s IH]; intros r e E; cbn [last_dot] in E; [discriminate E|]. destruct (last_dot s) as [[r' e']|].
  - injection E as <- <-. rewrite (IH r' e' eq_refl). reflexivity.
  - destruct (Ascii.eqb c "."%char); [|discriminate E]. injection E as <- <-. reflexivity.
Qed.
Lemma splitext_glb_iff : forall f root, splitext f = (root, ".glb"%string) <->
  f = (root ++ ".glb")%string /\ exists c, In c (list_ascii_of_string root) /\ c <> "."%char.
Proof.
  intros f root. rewrite <- only_dots_false. split.
  - unfold splitext. destruct (last_dot f) as [[r e]|] eqn:L; [|intro E; discriminate E]. destruct (only_dots r) eqn:O; intro E; [discriminate E|].
    injection E as <- ->. split; [apply last_dot_app, L|exact O].
  - intros (-> & O). assert (L : forall i, last_dot (i ++ ".glb") = Some (i, ".glb"%string)).
    { induction i as [|c i IH]; [reflexivity|]. cbn [last_dot append]. rewrite IH. reflexivity. }
    unfold splitext. rewrite L, O. reflexivity.
Qed.
