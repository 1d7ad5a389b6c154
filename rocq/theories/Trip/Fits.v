(** The model that was built can be saved and loaded. *)
From Coq Require Import List Bool ZArith QArith Ascii String Sorted Lia DecimalString.
From Verif.Base Require Import Py.
From Verif.Mesh Require Model.
From Verif.Gltf Require Model Spec Proofs.
From Verif.Uri Require Import Model.
From Verif.Uri Require Spec Paths.
From Verif.Doc Require Import Model Facts.
From Verif.Doc Require Import Spec.
From Verif.Text Require Import Spec.
From Verif.Text Require Files.
From Verif.Trip Require Import Model Spec Floats Building Adding.
Import ListNotations.
Local Open Scope Z_scope.

(** * The names of pictures *)
Lemma digits_plain : forall u, Forall (fun c => 48 <= Uri.Model.code c < 58) (list_ascii_of_string (NilEmpty.string_of_uint u)).
Proof. induction u; cbn [NilEmpty.string_of_uint list_ascii_of_string]; constructor; try assumption; cbv; split; congruence. Qed.
Lemma nil_zero_plain : forall u, Forall (fun c => 48 <= Uri.Model.code c < 58) (list_ascii_of_string (NilZero.string_of_uint u)) /\ NilZero.string_of_uint u <> ""%string.
Proof.
  intros u. destruct u; cbn [NilZero.string_of_uint]; (split; [|discriminate]); try (apply (digits_plain (Decimal.Nil)) || constructor; [cbv; split; congruence|]; apply digits_plain); try apply digits_plain.
  constructor; [cbv; split; congruence|constructor].
Qed.
Lemma list_append : forall a b, list_ascii_of_string (a ++ b) = (list_ascii_of_string a ++ list_ascii_of_string b)%list.
Proof. induction a as [|c a IH]; intros b; [reflexivity|]. cbn [String.append list_ascii_of_string app]. rewrite IH. reflexivity. Qed.
Lemma picture_shape : forall k, exists ds, picture_name k = (ds ++ lit ".png")%list /\ ds <> [] /\ Forall (fun c => 48 <= Uri.Model.code c < 58) ds.
Proof.
  intros k. unfold picture_name, Gltf.Model.png. rewrite list_append. eexists. split; [reflexivity|]. destruct (nil_zero_plain (Nat.to_uint (Z.to_nat (Z.of_nat k)))) as [P N].
  split; [|exact P]. destruct (NilZero.string_of_uint _); [contradiction|discriminate].
Qed.
Lemma digit_not_data : forall c r, 48 <= Uri.Model.code c < 58 -> IsDataURI (c :: r) = false.
Proof.
  intros c r C. unfold IsDataURI, headers. unfold after. cbn [lit list_ascii_of_string existsb fst].
  destruct (Ascii.eqb_spec "d" c) as [<-|N]; [cbv in C; destruct C; congruence|reflexivity].
Qed.
Lemma picture_plain : forall k, picture_name k <> [] /\ Forall Uri.Spec.plain (picture_name k) /\ IsDataURI (picture_name k) = false.
Proof.
  intros k. destruct (picture_shape k) as (ds & E & N & D). rewrite E. split; [destruct ds; discriminate|]. split.
  - apply Forall_app. split; [eapply Forall_impl; [|exact D]; intros c C; cbv beta in C; unfold Uri.Spec.plain; cbv zeta; left; lia|].
    cbn [lit list_ascii_of_string]. repeat (apply Forall_cons; [unfold Uri.Spec.plain; cbv zeta; match goal with |- context [Uri.Model.code ?c] => let v := eval vm_compute in (Uri.Model.code c) in change (Uri.Model.code c) with v end; lia|]). constructor.
  - destruct ds as [|c ds]; [contradiction|]. inversion D; subst. apply digit_not_data. assumption.
Qed.

(** * The parts *)
Lemma size_ok : forall z, 0 <= z <= 2 ^ 53 -> Doc.Spec.size z.
Proof. intros z H. exact H. Qed.
Ltac ints := unfold int, Doc.Spec.size; lia.
Lemma no_extensions_ok : extensions_ok [].
Proof. split; constructor. Qed.
Lemma built_ok : forall a n x g, building a n x g -> 0 < n -> 0 < data_size g <= 2 ^ 53 -> model_ok g.
Proof.
  intros a n x g B N D. destruct B as [[BA1 BA2] (BN1 & BN2 & BN3) BX BB B_A B_V B_M B_N B_T B_I B_S B_MA B_R]. destruct B_R as (R1 & R2 & R3 & R4 & R5 & R6 & R7 & R8 & R9 & R10).
  destruct BB as [(_ & _ & C)|(data & ns & B1 & B2 & B3 & B4)]; [lia|]. unfold data_size in D. rewrite B1 in D. cbn [bu_data] in D.
  constructor.
  - eexists. split; [exact B1|]. unfold buffer_ok. cbn [bu_data bu_extras]. split; [intros ->; cbn in D; lia|]. split; [unfold Mesh.Model.size in D; unfold Doc.Spec.size; lia|left; reflexivity].
  - split; [intros C; rewrite C in BA1; cbn in BA1; lia|]. eapply Forall_impl; [|exact B_A]. intros ac (vi & co & m & ty & lo & hi & -> & V & CO & M & TY & _).
    unfold accessor_ok. cbn [ac_view ac_offset ac_component ac_count ac_type ac_extras]. split; [ints|]. split; [lia|]. split; [cbn in CO; lia|]. split; [ints|]. split; [cbn in TY |- *; tauto|left; reflexivity].
  - split; [intros C; rewrite C in BA2; cbn in BA2; lia|]. eapply Forall_impl; [|exact B_V]. intros v (o & m & st & ta & -> & O & M & ST & TA).
    unfold view_ok. cbn [vi_buffer vi_length vi_offset vi_stride vi_extras]. split; [ints|]. split; [ints|]. split; [ints|].
    split; [|left; reflexivity]. destruct ST as [<-|[<-|[]]]; [left; lia|right; split; [lia|reflexivity]].
  - split; [intros C; rewrite C in BN3; cbn in BN3; lia|]. eapply Forall_impl; [|exact B_N]. intros no (z & -> & Z). unfold node_ok. cbn [no_camera no_skin no_mesh no_children no_extensions no_extras].
    split; [ints|]. split; [ints|]. split; [ints|]. split; [constructor|]. split; [apply no_extensions_ok|left; reflexivity].
  - rewrite B2. split; [discriminate|]. constructor; [|constructor]. unfold scene_ok. cbn [sc_nodes sc_extensions sc_extras]. split; [intros ->; cbn in B4; lia|]. split; [exact B3|]. split; [apply no_extensions_ok|left; reflexivity].
  - rewrite R1. constructor.
  - eapply Forall_impl; [|exact B_MA]. tauto.
  - eapply Forall_impl; [|exact B_M]. intros e (p & -> & l & mt & i & -> & A & MT & I). unfold mesh_ok. cbn [me_primitives me_extras]. split; [|left; reflexivity]. constructor; [|constructor].
    unfold primitive_ok. cbn [pr_attributes pr_material pr_indices pr_mode pr_targets pr_extras]. destruct A as (nn & pp & AN & AP & [->|(u & AU & ->)]).
    + split; [discriminate|]. split; [repeat constructor|]. split; [repeat (apply Forall_cons; [assumption|]); constructor|]. split; [ints|]. split; [ints|]. split; [ints|]. split; [constructor|left; reflexivity].
    + split; [discriminate|]. split; [repeat constructor|]. split; [repeat (apply Forall_cons; [assumption|]); constructor|]. split; [ints|]. split; [ints|]. split; [ints|]. split; [constructor|left; reflexivity].
  - eapply Forall_impl; [|exact B_T]. intros te (k & -> & K). unfold texture_ok. cbn [te_sampler te_source te_extensions te_extras]. split; [ints|]. split; [ints|]. split; [apply no_extensions_ok|left; reflexivity].
  - apply Forall_forall. intros i I. destruct (In_nth_error _ _ I) as (k & K). destruct (B_I _ _ K) as (pic & _ & _ & ->). left. reflexivity.
  - rewrite R2. constructor.
  - eapply Forall_impl; [|exact B_S]. intros s <-. unfold sampler_ok. cbn. split; [ints|]. split; [ints|]. split; [ints|]. split; [ints|left; reflexivity].
  - rewrite R3. constructor.
  - rewrite R5. split; [apply no_extensions_ok|reflexivity].
  - destruct R10 as [-> | ->]; ints.
  - rewrite R8. split; [apply no_extensions_ok|left; reflexivity].
  - rewrite R9. left. reflexivity.
Qed.

Lemma empty_utf8 : utf8_string "".
Proof. apply Files.ascii_utf8. reflexivity. Qed.
Lemma built_of : forall a n x g, building a n x g -> of_model finite15 utf8_string g.
Proof.
  intros a n x g B. destruct B as [[BA1 BA2] (BN1 & BN2 & BN3) BX BB B_A B_V B_M B_N B_T B_I B_S B_MA B_R]. destruct B_R as (R1 & R2 & R3 & R4 & R5 & R6 & R7 & R8 & R9 & R10).
  assert (U := empty_utf8). assert (UA : forall s, forallb (fun c => Json.Model.code c <? 128) (list_ascii_of_string s) = true -> utf8_string s) by exact Files.ascii_utf8.
  constructor.
  - eapply Forall_impl; [|exact B_A]. intros ac (vi & co & m & ty & lo & hi & -> & V & CO & M & TY & F). split; [exact F|exact Logic.I].
  - rewrite R1. constructor.
  - destruct BB as [(-> & _ & C)|(data & ns & -> & B2 & B3 & B4)]; constructor; [|constructor]. split; [exact U|exact Logic.I].
  - eapply Forall_impl; [|exact B_V]. intros v (o & m & st & ta & -> & O & M & ST & TA). split; [exact U|exact Logic.I].
  - eapply Forall_impl; [|exact B_MA]. intros mt [_ O]. exact O.
  - eapply Forall_impl; [|exact B_M]. intros e (p & -> & l & mt & i & -> & A & MT & I). cbn [me_name me_primitives me_weights me_extras]. split; [exact U|]. split; [|split; [constructor|exact Logic.I]].
    constructor; [|constructor]. split; [|split; [constructor|exact Logic.I]]. cbn [pr_attributes]. destruct A as (nn & pp & AN & AP & [->|(u & AU & ->)]); unfold of_ints; repeat (apply Forall_cons; [apply UA; reflexivity|]); constructor.
  - eapply Forall_impl; [|exact B_N]. intros no (z & -> & Z). split; [exact U|]. split; [constructor|]. split; [constructor|exact Logic.I].
  - eapply Forall_impl; [|exact B_T]. intros te (k & -> & K). split; [constructor|exact Logic.I].
  - apply Forall_forall. intros i I. destruct (In_nth_error _ _ I) as (k & K). destruct (B_I _ _ K) as (pic & _ & _ & ->). cbn [im_name im_uri im_extras]. split; [exact U|]. split; [|exact Logic.I].
    apply UA. apply Files.plain_ascii. exact (proj1 (proj2 (picture_plain k))).
  - rewrite R2. constructor.
  - eapply Forall_impl; [|exact B_S]. intros s <-. exact Logic.I.
  - rewrite R3. constructor.
  - destruct BB as [(_ & -> & C)|(data & ns & _ & -> & B3 & B4)]; constructor; [|constructor]. split; [exact U|]. split; [constructor|exact Logic.I].
  - rewrite R4. constructor.
  - rewrite R5. constructor.
  - rewrite R6, R7. constructor.
  - rewrite R8. split; [apply UA; reflexivity|]. split; [apply UA; reflexivity|]. split; [constructor|exact Logic.I].
  - rewrite R9. exact Logic.I.
Qed.
