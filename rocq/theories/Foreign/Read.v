(** The parser gives what the document means. *)
From Coq Require Import List Bool ZArith QArith Ascii String Lia.
From Verif.Base Require Import Py.
From Verif.Round Require Import Model Spec Rounding.
From Verif.Uri Require Import Model.
From Verif.Uri Require Spec Paths Props.
From Verif.Doc Require Import Model.
From Verif.Doc Require Import Spec Facts.
From Verif.Text Require Import Writing.
From Verif.Text Require Spec.
From Verif.Foreign Require Import Spec.
Import ListNotations.
Local Open Scope Z_scope.
Local Open Scope string_scope.

(** * Members *)
Lemma lookup_get : forall k l, Text.Spec.lookup k l = get k l.
Proof.
  intros k l. induction l as [|[x v] l IH]; [reflexivity|]. cbn [Text.Spec.lookup get]. destruct (string_dec k x) as [->|N]; [rewrite String.eqb_refl; reflexivity|].
  destruct (String.eqb_spec x k) as [->|]; [contradiction|exact IH].
Qed.
Lemma find_member : forall o k j, member o k j <-> find k o = Some j.
Proof.
  intros o k j. split.
  - intros (l & -> & H). cbn [find]. rewrite <- lookup_get. exact H.
  - intros H. destruct o as [| | | | | |l]; try discriminate. exists l. split; [reflexivity|]. rewrite lookup_get. exact H.
Qed.
Lemma find_none : forall o k, no_member o k -> find k o = None /\ is_object o = true.
Proof. intros o k (l & -> & H). cbn [find]. rewrite <- lookup_get. split; [exact H|reflexivity]. Qed.
Lemma member_object : forall o k j, member o k j -> is_object o = true.
Proof. intros o k j (l & -> & _). reflexivity. Qed.
Lemma opt_object : forall A o k (R : json -> A -> Prop) d a, opt o k R d a -> is_object o = true.
Proof. intros A o k R d a [[N _]|(j & M & _)]; [apply (find_none o k N)|apply (member_object o k j M)]. Qed.
Lemma req_object : forall A o k (R : json -> A -> Prop) a, req o k R a -> is_object o = true.
Proof. intros A o k R a (j & M & _). apply (member_object o k j M). Qed.

(** * Numbers *)
Lemma trunc_eq : forall q z, (q == inject_Z z)%Q -> trunc q = z.
Proof. intros [n p] z H. unfold Qeq in H. cbn in H. unfold trunc. cbn [Qnum Qden]. rewrite Z.mul_1_r in H. rewrite H. apply Z.quot_mul. lia. Qed.
Lemma whole_number : forall j z, whole j z -> Z.abs z <= 2 ^ 53 -> exists q, number_of j = Some q /\ trunc q = z.
Proof.
  intros j z [->|(q & -> & E)] A.
  - exists (to_double z). split; [reflexivity|]. rewrite to_double_int by exact A. apply trunc_int.
  - exists q. split; [reflexivity|apply trunc_eq, E].
Qed.
Lemma whole_int : forall j z, whole j z -> int z -> exists q, number_of j = Some q /\ to_int q = Ok z.
Proof.
  intros j z W I. destruct (whole_number j z W (int_abs z I)) as (q & N & T). exists q. split; [exact N|]. unfold to_int. rewrite T, int_in by exact I. reflexivity.
Qed.
Lemma whole_size : forall j z, whole j z -> size z -> exists q, number_of j = Some q /\ to_size q = Ok z.
Proof.
  intros j z W S. unfold size in S. destruct (whole_number j z W) as (q & N & T); [lia|]. exists q. split; [exact N|]. unfold to_size. rewrite T.
  destruct (Z.leb_spec 0 z); [|lia]. destruct (Z.ltb_spec z 18446744073709551616); [reflexivity|lia].
Qed.
Lemma whole_get : forall j z, whole j z -> int z -> number_of j <> None /\ get_int j = Ok z.
Proof.
  intros j z W I. destruct (whole_int j z W I) as (q & N & T). split; [congruence|]. destruct W as [->|(r & -> & E)]; cbn [get_int].
  - rewrite wrap_int by exact I. reflexivity.
  - cbn [number_of] in N. injection N as <-. exact T.
Qed.
Lemma index_int : forall j z, index j z -> whole j z /\ int z.
Proof. intros j z [W B]. split; [exact W|unfold int; lia]. Qed.
Lemma number_number : forall j q, number j q -> number_of j = Some q.
Proof.
  intros j q [->|(z & -> & R & C)]; [reflexivity|]. cbn [number_of]. f_equal. unfold to_double. rewrite <- C. apply Qred_complete.
  eapply rounds_unique; [reflexivity|apply round_ok|exact R].
Qed.
Lemma number_of_number : forall j q, number_of j = Some q -> number j q.
Proof.
  intros [| |z|r| | |] q H; try discriminate; cbn [number_of] in H; injection H as <-; [right|left; reflexivity]. exists z. split; [reflexivity|]. unfold to_double. split; [|apply Qred_complete, Qred_correct].
  apply rounds_to_eq. apply Qred_correct.
Qed.

Section Fields.
  Variables (o : json) (k : string).
  Lemma p_int_opt : forall (R : json -> Z -> Prop) d z, (forall j z, R j z -> whole j z /\ int z) -> opt o k R d z -> p_int o k d = Ok z.
  Proof.
    intros R d z H [[N ->]|(j & M & J)]; unfold p_int, p_number.
    - rewrite (proj1 (find_none o k N)). reflexivity.
    - apply find_member in M. rewrite M. destruct (H j z J) as [W I]. destruct (whole_int j z W I) as (q & -> & T). exact T.
  Qed.
  Lemma p_size_opt : forall (R : json -> Z -> Prop) d z, (forall j z, R j z -> whole j z /\ size z) -> opt o k R d z -> p_size o k d = Ok z.
  Proof.
    intros R d z H [[N ->]|(j & M & J)]; unfold p_size, p_number.
    - rewrite (proj1 (find_none o k N)). reflexivity.
    - apply find_member in M. rewrite M. destruct (H j z J) as [W I]. destruct (whole_size j z W I) as (q & -> & T). exact T.
  Qed.
  Lemma p_int_req : forall (R : json -> Z -> Prop) z, (forall j z, R j z -> whole j z /\ int z) -> req o k R z -> exists q, p_number o k = Some q /\ to_int q = Ok z.
  Proof.
    intros R z H (j & M & J). apply find_member in M. unfold p_number. rewrite M. destruct (H j z J) as [W I]. apply (whole_int j z W I).
  Qed.
  Lemma p_size_req : forall (R : json -> Z -> Prop) z, (forall j z, R j z -> whole j z /\ size z) -> req o k R z -> exists q, p_number o k = Some q /\ to_size q = Ok z.
  Proof.
    intros R z H (j & M & J). apply find_member in M. unfold p_number. rewrite M. destruct (H j z J) as [W I]. apply (whole_size j z W I).
  Qed.
  Lemma p_string_req : forall s, req o k chars s -> p_string o k = Some s.
  Proof. intros s (j & M & ->). apply find_member in M. unfold p_string. rewrite M. reflexivity. Qed.
  Lemma p_string_opt : forall d s, opt o k chars d s -> or_default d (p_string o k) = s.
  Proof.
    intros d s [[N ->]|R]; [|rewrite (p_string_req s R); reflexivity]. unfold p_string. rewrite (proj1 (find_none o k N)). reflexivity.
  Qed.
  Lemma p_bool_opt : forall d b, opt o k flag d b -> or_default d (p_bool o k) = b.
  Proof.
    intros d b [[N ->]|(j & M & ->)]; unfold p_bool; [rewrite (proj1 (find_none o k N)); reflexivity|]. apply find_member in M. rewrite M. reflexivity.
  Qed.
  Lemma numbers_list : forall js l, Forall2 number js l -> numbers_of js = (l, true).
  Proof. intros js l F. induction F as [|j q js l N F IH]; [reflexivity|]. cbn [numbers_of]. rewrite (number_number j q N), IH. reflexivity. Qed.
  Lemma p_numbers_req : forall l, req o k (list_of number) l -> p_numbers o k = (l, true).
  Proof. intros l (j & M & js & -> & F). apply find_member in M. unfold p_numbers. rewrite M. apply numbers_list, F. Qed.
  Lemma p_numbers_opt : forall l, opt o k (list_of number) [] l -> fst (p_numbers o k) = l.
  Proof.
    intros l [[N ->]|R]; [|rewrite (p_numbers_req l R); reflexivity]. unfold p_numbers. rewrite (proj1 (find_none o k N)). reflexivity.
  Qed.
  Lemma p_indices_req : forall l, req o k (list_of index) l -> exists qs, p_numbers o k = (qs, true) /\ mapM to_int qs = Ok l.
  Proof.
    intros l (j & M & js & -> & F). apply find_member in M. unfold p_numbers. rewrite M. clear M. induction F as [|j z js l J F IH].
    - exists []. split; reflexivity.
    - destruct IH as (qs & N & T). destruct (index_int j z J) as [W I]. destruct (whole_int j z W I) as (q & NQ & TQ). exists (q :: qs). cbn [numbers_of]. rewrite NQ, N. split; [reflexivity|].
      cbn [mapM]. rewrite TQ. cbn [bind]. rewrite T. reflexivity.
  Qed.
  Lemma p_children_opt : forall l, opt o k (list_of index) [] l -> match find k o with Some (JArr l) => mapM p_child l | _ => Ok [] end = Ok l.
  Proof.
    intros l [[N ->]|(j & M & js & -> & F)]; [rewrite (proj1 (find_none o k N)); reflexivity|]. apply find_member in M. rewrite M. clear M. induction F as [|j z js l J F IH]; [reflexivity|].
    cbn [mapM]. destruct (index_int j z J) as [W I]. destruct (whole_get j z W I) as [N G]. unfold p_child at 1. destruct (number_of j); [|contradiction]. rewrite G. cbn [bind]. rewrite IH. reflexivity.
  Qed.
  Lemma ints_map : forall l m, Forall2 (fun a b => fst a = fst b /\ index (snd a) (snd b)) l m -> ints_of l = Ok m /\ target_of l = Ok m.
  Proof.
    intros l m F. induction F as [|[a j] [b z] l m [E J] F [IH1 IH2]]; [split; reflexivity|]. cbn [fst snd] in *. subst b. cbn [ints_of target_of].
    destruct (index_int j z J) as [W I]. destruct (whole_get j z W I) as [N G]. destruct (number_of j); [|contradiction]. rewrite G. cbn [bind]. rewrite IH1, IH2. split; reflexivity.
  Qed.
  Lemma p_string_int_req : forall m, req o k (map_of index) m -> p_string_int o k = Ok m.
  Proof. intros m (j & M & l & -> & F). apply find_member in M. unfold p_string_int. rewrite M. apply (ints_map l m F). Qed.
  Lemma section_req : forall A (R : json -> A -> Prop) p l, (forall j a, R j a -> is_object j = true /\ p j = Ok a) -> req o k (list_of R) l -> section o k p = Ok l.
  Proof.
    intros A R p l H (j & M & js & -> & F). apply find_member in M. unfold section. rewrite M. clear M. induction F as [|j a js l J F IH]; [reflexivity|]. cbn [mapM].
    destruct (H j a J) as [O P]. rewrite O, P. cbn [bind]. rewrite IH. reflexivity.
  Qed.
  Lemma section_opt : forall A (R : json -> A -> Prop) p l, (forall j a, R j a -> is_object j = true /\ p j = Ok a) -> opt o k (list_of R) [] l -> section o k p = Ok l.
  Proof.
    intros A R p l H [[N ->]|Q]; [unfold section; rewrite (proj1 (find_none o k N)); reflexivity|apply (section_req A R p l H Q)].
  Qed.
  Lemma parsed_list : forall A (R : json -> A -> Prop) p js l, (forall j a, R j a -> is_object j = true /\ p j = Ok a) -> Forall2 R js l -> parsed p js = Ok l /\ mapM p js = Ok l.
  Proof.
    intros A R p js l H F. induction F as [|j a js l J F [IH1 IH2]]; [split; reflexivity|]. cbn [parsed mapM]. destruct (H j a J) as [_ ->]. cbn [bind]. rewrite IH1, IH2. split; reflexivity.
  Qed.
  Lemma strings_opt : forall l, opt o k (list_of chars) [] l -> strings o k = Ok l.
  Proof.
    intros l [[N ->]|(j & M & js & -> & F)]; unfold strings; [rewrite (proj1 (find_none o k N)); reflexivity|]. apply find_member in M. rewrite M. clear M. induction F as [|j s js l -> F IH]; [reflexivity|].
    cbn [mapM get_string bind]. rewrite IH. reflexivity.
  Qed.
End Fields.
Lemma p_targets_opt : forall o l, opt o "targets" (list_of (map_of index)) [] l -> p_targets o = Ok l.
Proof.
  intros o l [[N ->]|(j & M & js & -> & F)]; unfold p_targets; [rewrite (proj1 (find_none o _ N)); reflexivity|]. apply find_member in M. rewrite M. clear M. induction F as [|j m js l (x & -> & X) F IH]; [reflexivity|].
  cbn [mapM p_target]. rewrite (proj2 (ints_map x m X)). cbn [bind]. rewrite IH. reflexivity.
Qed.

(** * Extras and extensions *)
Lemma keeps_value : forall j v, keeps j v -> as_value j = v /\ is_null v = false.
Proof.
  induction j as [|b|z|q|t|l IH|l IH] using json_induction; intros v K; inversion K; subst; cbn [as_value]; try (split; reflexivity).
  - rewrite wrap_int by assumption. split; reflexivity.
  - rewrite Forall_forall in IH. match goal with H : Forall2 keeps l _ |- _ => rename H into F end. rename vs into ws.
    assert (E : filter (fun v => negb (is_null v)) (map as_value l) = ws).
    { clear K H0. induction F as [|j w l ws J F IHF]; [reflexivity|]. destruct (IH j (or_introl eq_refl) w J) as [E N]. cbn [map filter]. rewrite E, N. cbn [negb]. f_equal. apply IHF. intros x X. apply IH. right. exact X. }
    rewrite E. destruct ws; [inversion F; subst; contradiction|split; reflexivity].
  - rewrite Forall_forall in IH. match goal with H : Forall2 _ l m |- _ => rename H into F end.
    assert (E : filter (fun kv => negb (is_null (snd kv))) (map (fun kv => (fst kv, as_value (snd kv))) l) = m).
    { clear K H0. induction F as [|[a j] [b w] l m [E0 J] F IHF]; [reflexivity|]. cbn [fst snd] in *. subst b. destruct (IH (a, j) (or_introl eq_refl) w J) as [E N]. cbn [snd] in E. cbn [map filter fst snd]. rewrite E, N. cbn [negb]. f_equal. apply IHF. intros x X. apply IH. right. exact X. }
    rewrite E. destruct m; [inversion F; subst; contradiction|split; reflexivity].
Qed.
Lemma any_value : forall j v, any j v -> as_value j = v.
Proof. intros j v [K|[[-> | [-> | ->]] ->]]; [apply (keeps_value j v K)| | |]; reflexivity. Qed.
Lemma extras_of : forall o v, extras o v -> p_extras o = v.
Proof.
  intros o v [[N ->]|(j & M & A)]; unfold p_extras; [rewrite (proj1 (find_none o _ N)); reflexivity|]. apply find_member in M. rewrite M. apply any_value, A.
Qed.
Lemma extensions_of : forall o m, has_extensions o m -> p_extensions o = m.
Proof.
  intros o m [[N ->]|(j & M & l & -> & F)]; unfold p_extensions; [rewrite (proj1 (find_none o _ N)); reflexivity|]. apply find_member in M. rewrite M. clear M.
  induction F as [|[a j] [b v] l m [E ((x & X) & A)] F IH]; [reflexivity|]. cbn [fst snd] in *. subst b j. cbn [filter snd is_object map fst]. rewrite (any_value _ _ A), IH. reflexivity.
Qed.
