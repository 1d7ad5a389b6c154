(** Maps, JSON values and numbers. *)
From Coq Require Import List Bool ZArith QArith Qreduction Ascii String Sorted Lia Lqa.
From Verif.Base Require Import Py.
From Verif.Round Require Import Model Spec Rounding.
From Verif.Doc Require Import Model Spec.
Import ListNotations.
Local Open Scope Z_scope.

(** ** Strings in order *)
Lemma ascii_compare_trans : forall a b c, Ascii.compare a b = Lt -> Ascii.compare b c = Lt -> Ascii.compare a c = Lt.
Proof. intros a b c. unfold Ascii.compare. rewrite !N.compare_lt_iff. apply N.lt_trans. Qed.
Lemma ascii_compare_eq : forall a b, Ascii.compare a b = Eq -> a = b.
Proof.
  intros a b. unfold Ascii.compare. rewrite N.compare_eq_iff. intros H.
  rewrite <- (ascii_N_embedding a), <- (ascii_N_embedding b), H. reflexivity.
Qed.
Lemma compare_refl : forall s, String.compare s s = Eq.
Proof. induction s as [|a s IH]; [reflexivity|]. cbn. unfold Ascii.compare. rewrite N.compare_refl. exact IH. Qed.
Lemma compare_trans : forall a b c, String.compare a b = Lt -> String.compare b c = Lt -> String.compare a c = Lt.
Proof.
  induction a as [|x a IH]; intros [|y b] [|z c] H K; cbn in *; try discriminate; try reflexivity.
  destruct (Ascii.compare x y) eqn:XY; try discriminate; destruct (Ascii.compare y z) eqn:YZ; try discriminate.
  - apply ascii_compare_eq in XY. apply ascii_compare_eq in YZ. subst.
    assert (R : Ascii.compare z z = Eq) by (unfold Ascii.compare; apply N.compare_refl). rewrite R. exact (IH b c H K).
  - apply ascii_compare_eq in XY. subst. rewrite YZ. reflexivity.
  - apply ascii_compare_eq in YZ. subst. rewrite XY. reflexivity.
  - rewrite (ascii_compare_trans _ _ _ XY YZ). reflexivity.
Qed.
Lemma compare_gt : forall a b, String.compare a b = Lt -> String.compare b a = Gt.
Proof. intros a b H. rewrite String.compare_antisym, H. reflexivity. Qed.
Lemma compare_lt_neq : forall a b, String.compare a b = Lt -> String.eqb a b = false.
Proof. intros a b H. destruct (String.eqb_spec a b) as [->|]; [rewrite compare_refl in H; discriminate|reflexivity]. Qed.

(** ** Maps *)
Lemma get_put : forall A k k' (v : A) m, get k (put k' v m) = if String.eqb k' k then Some v else get k m.
Proof.
  induction m as [|[x w] m IH]; cbn [put get]; [reflexivity|].
  destruct (String.compare k' x) eqn:C; cbn [get].
  - apply String.compare_eq_iff in C. subst x. destruct (String.eqb k' k); reflexivity.
  - reflexivity.
  - rewrite IH. destruct (String.eqb_spec x k) as [->|]; [|reflexivity].
    destruct (String.eqb_spec k' k) as [->|]; [|reflexivity]. rewrite compare_refl in C. discriminate.
Qed.
Lemma put_last : forall A k (v : A) (m : list (string * A)), Forall (fun a => String.compare (fst a) k = Lt) m -> put k v m = (m ++ [(k, v)])%list.
Proof.
  induction m as [|[x w] m IH]; intros F; [reflexivity|]. inversion F as [|? ? H F']; subst. cbn [put fst] in *.
  rewrite (compare_gt _ _ H), (IH F'). reflexivity.
Qed.
Lemma ordered_map : forall A B (g : string -> A -> B) m, ordered m -> ordered (map (fun kv => (fst kv, g (fst kv) (snd kv))) m).
Proof.
  intros A B g m H. induction H as [|a m S IH F]; [constructor|]. cbn [map]. constructor; [exact IH|].
  rewrite Forall_map. exact F.
Qed.
Lemma ordered_put : forall A k (v : A) m, ordered m -> ordered (put k v m).
Proof.
  intros A k v m H. induction H as [|[x w] m S IH F]; [repeat constructor|]. cbn [put].
  destruct (String.compare k x) eqn:C.
  - apply String.compare_eq_iff in C. subst x. constructor; [exact S|exact F].
  - constructor; [constructor; [exact S|exact F]|]. constructor; [exact C|].
    eapply Forall_impl; [|exact F]. intros [y u] L. exact (compare_trans _ _ _ C L).
  - constructor; [exact IH|]. assert (L : String.compare x k = Lt) by (rewrite String.compare_antisym, C; reflexivity).
    clear IH S. induction F as [|[y u] m L' F' IHF]; cbn [put]; [repeat constructor; exact L|].
    destruct (String.compare k y); repeat constructor; try exact L; try exact L'; try exact F'. exact IHF.
Qed.
Lemma put_map : forall A B (g : A -> B) k v m,
  map (fun kv => (fst kv, g (snd kv))) (put k v m) = put k (g v) (map (fun kv => (fst kv, g (snd kv))) m).
Proof.
  induction m as [|[x w] m IH]; [reflexivity|]. cbn [put map fst snd]. destruct (String.compare k x); cbn [map fst snd]; rewrite ?IH; reflexivity.
Qed.
Lemma get_map : forall A B (g : A -> B) k m, get k (map (fun kv => (fst kv, g (snd kv))) m) = option_map g (get k m).
Proof. induction m as [|[x w] m IH]; [reflexivity|]. cbn [map get fst snd]. rewrite IH. destruct (String.eqb x k); reflexivity. Qed.
Lemma get_in : forall A k (v : A) m, ordered m -> In (k, v) m -> get k m = Some v.
Proof.
  intros A k v m H. induction H as [|[x w] m S IH F]; intros I; [contradiction|]. cbn [get]. destruct I as [I|I].
  - injection I as -> ->. rewrite String.eqb_refl. reflexivity.
  - rewrite Forall_forall in F. specialize (F _ I). cbn in F. rewrite (compare_lt_neq _ _ F). exact (IH I).
Qed.
Lemma in_get : forall A k (v : A) m, get k m = Some v -> In (k, v) m.
Proof.
  induction m as [|[x w] m IH]; cbn [get]; intros H; [discriminate|]. destruct (String.eqb_spec x k) as [->|].
  - injection H as ->. left. reflexivity.
  - right. exact (IH H).
Qed.
(** A map is determined by its members. *)
Lemma get_cons_lt : forall A k (a : string * A) (m : list (string * A)), Forall (fun b => String.compare (fst a) (fst b) = Lt) m ->
  String.compare k (fst a) = Lt -> get k m = None.
Proof.
  intros A k a m F L. induction F as [|[x w] m H F IH]; [reflexivity|]. cbn [get fst] in *.
  assert (C := compare_trans _ _ _ L H). destruct (String.eqb_spec x k) as [->|]; [rewrite compare_refl in C; discriminate|exact IH].
Qed.
Lemma get_head_none : forall A (a : string * A) (m : list (string * A)), Forall (fun b => String.compare (fst a) (fst b) = Lt) m -> get (fst a) m = None.
Proof.
  intros A a m F. induction F as [|[x w] m H F IH]; [reflexivity|]. cbn [get fst] in *.
  destruct (String.eqb_spec x (fst a)) as [E|]; [rewrite E, compare_refl in H; discriminate|exact IH].
Qed.
Lemma ordered_ext : forall A (m m' : list (string * A)), ordered m -> ordered m' -> (forall k, get k m = get k m') -> m = m'.
Proof.
  intros A m m' H. revert m'. induction H as [|[x w] m S IH F]; intros m' H' E.
  - destruct m' as [|[y u] m']; [reflexivity|]. specialize (E y). cbn in E. rewrite String.eqb_refl in E. discriminate.
  - destruct m' as [|[y u] m']; [specialize (E x); cbn in E; rewrite String.eqb_refl in E; discriminate|].
    inversion H' as [|? ? S' F']; subst.
    assert (XY : x = y).
    { destruct (String.compare x y) eqn:C.
      - apply String.compare_eq_iff, C.
      - specialize (E x). cbn [get] in E. rewrite String.eqb_refl in E. rewrite (String.eqb_sym y x), (compare_lt_neq _ _ C) in E.
        rewrite (get_cons_lt A x (y, u) m' F' C) in E. discriminate.
      - assert (C' : String.compare y x = Lt) by (rewrite String.compare_antisym, C; reflexivity).
        specialize (E y). cbn [get] in E. rewrite String.eqb_refl in E. rewrite (String.eqb_sym x y), (compare_lt_neq _ _ C') in E.
        rewrite (get_cons_lt A y (x, w) m F C') in E. discriminate. }
    subst y. assert (W : w = u) by (specialize (E x); cbn [get] in E; rewrite String.eqb_refl in E; congruence). subst u.
    f_equal. apply (IH _ S'). intros k. specialize (E k). cbn [get] in E. destruct (String.eqb_spec x k) as [X|]; [|exact E].
    rewrite <- X. exact (eq_trans (get_head_none A (x, w) m F) (eq_sym (get_head_none A (x, w) m' F'))).
Qed.
Lemma ordered_filter : forall A p (m : list (string * A)), ordered m -> ordered (filter p m).
Proof.
  intros A p m H. induction H as [|a m S IH F]; [constructor|]. cbn [filter]. destruct (p a); [|exact IH]. constructor; [exact IH|].
  apply Forall_forall. intros b I. apply filter_In in I. rewrite Forall_forall in F. apply F, I.
Qed.

(** ** Objects *)
Definition object_of (l : list (string * json)) : json := match l with [] => JNull | _ => JObj l end.
Lemma find_set : forall k k' v o, find k (set k' v o) = if String.eqb k' k then Some v else find k o.
Proof. intros k k' v o. destruct o; cbn; try reflexivity. apply get_put. Qed.
Lemma find_if : forall k (c : bool) a b, find k (if c then a else b) = if c then find k a else find k b.
Proof. intros k [] a b; reflexivity. Qed.
Lemma fold_set : forall A (g : A -> json) (m : list (string * A)), ordered m ->
  fold_left (fun o kv => set (fst kv) (g (snd kv)) o) m JNull = object_of (map (fun kv => (fst kv, g (snd kv))) m).
Proof.
  intros A g m H.
  assert (K : forall m done, ordered (done ++ m) ->
    fold_left (fun o kv => set (fst kv) (g (snd kv)) o) m (object_of (map (fun kv => (fst kv, g (snd kv))) done)) =
    object_of (map (fun kv => (fst kv, g (snd kv))) (done ++ m))).
  { clear. induction m as [|[k v] m IH]; intros done H; [rewrite app_nil_r; reflexivity|]. cbn [fold_left].
    replace (done ++ (k, v) :: m)%list with ((done ++ [(k, v)]) ++ m)%list in * by (rewrite <- app_assoc; reflexivity).
    rewrite <- (IH _ H). f_equal. cbn [fst snd]. rewrite map_app. cbn [map fst snd].
    assert (F : Forall (fun a => String.compare (fst a) k = Lt) done).
    { rewrite <- app_assoc in H. clear -H. induction done as [|a done IH]; [constructor|]. inversion H as [|? ? S F]; subst. constructor; [|exact (IH S)].
      rewrite Forall_app in F. destruct F as [_ F]. inversion F; subst. assumption. }
    destruct done as [|a done]; [reflexivity|].
    change (set k (g v) (object_of (map (fun kv => (fst kv, g (snd kv))) (a :: done)))) with
      (JObj (put k (g v) (map (fun kv => (fst kv, g (snd kv))) (a :: done)))).
    rewrite put_last by (rewrite Forall_map; exact F). reflexivity. }
  exact (K m [] H).
Qed.
Lemma fold_push : forall l done, fold_left (fun o x => match x with Some j => push j o | None => o end) (map Some l) (array_of done) = array_of (done ++ l).
Proof.
  induction l as [|j l IH]; intros done; cbn [map fold_left]; [rewrite app_nil_r; reflexivity|].
  replace (done ++ j :: l)%list with ((done ++ [j]) ++ l)%list by (rewrite <- app_assoc; reflexivity). rewrite <- IH. f_equal.
  destruct done; reflexivity.
Qed.

(** Induction over values. *)
Section ValueInd.
  Variable P : value -> Prop.
  Hypothesis HNull : P VNull.
  Hypothesis HNumber : forall q, P (VNumber q).
  Hypothesis HInt : forall z, P (VInt z).
  Hypothesis HBool : forall b, P (VBool b).
  Hypothesis HString : forall s, P (VString s).
  Hypothesis HArray : forall l, Forall P l -> P (VArray l).
  Hypothesis HBinary : forall l, P (VBinary l).
  Hypothesis HObject : forall l, Forall (fun kv => P (snd kv)) l -> P (VObject l).
  Fixpoint value_ind2 (v : value) : P v :=
    match v with
    | VNull => HNull
    | VNumber q => HNumber q
    | VInt z => HInt z
    | VBool b => HBool b
    | VString s => HString s
    | VArray l => HArray l ((fix go l := match l return Forall P l with [] => Forall_nil _ | x :: l => Forall_cons _ (value_ind2 x) (go l) end) l)
    | VBinary l => HBinary l
    | VObject l => HObject l ((fix go l := match l return Forall (fun kv => P (snd kv)) l with
                                           | [] => Forall_nil _ | x :: l => Forall_cons _ (value_ind2 (snd x)) (go l) end) l)
    end.
End ValueInd.

Lemma fold_and : forall A (P : A -> Prop) l, fold_right (fun x R => P x /\ R) True l <-> Forall P l.
Proof.
  induction l as [|a l IH]; [split; [constructor|intros; exact I]|]. cbn. rewrite IH. split; [intros [? ?]; constructor; assumption|].
  intros H. inversion H; subst. split; assumption.
Qed.

(** ** Numbers *)
Lemma wrap_int : forall z, int z -> wrap32 z = z.
Proof. intros z H. unfold int in H. unfold wrap32. rewrite Z.mod_small; lia. Qed.
Lemma Qred_int : forall z, Qred (inject_Z z) = inject_Z z.
Proof.
  intros z. unfold Qred, inject_Z. generalize (Z.ggcd_gcd z 1) (Z.ggcd_correct_divisors z 1). destruct (Z.ggcd z 1) as [g [a b]]. cbn [fst snd].
  intros G [A B]. rewrite Z.gcd_1_r in G. subst g. rewrite !Z.mul_1_l in *. subst a b. reflexivity.
Qed.
Lemma to_double_int : forall z, Z.abs z <= 2 ^ 53 -> to_double z = inject_Z z.
Proof.
  intros z H. unfold to_double. rewrite (Qred_complete _ (inject_Z z)); [apply Qred_int|]. apply round_fixed, double_int, H.
Qed.
Lemma trunc_int : forall z, trunc (inject_Z z) = z.
Proof. intros z. unfold trunc. cbn. apply Z.quot_1_r. Qed.
Lemma int_in : forall z, int z -> in_int z = true.
Proof. intros z H. unfold int in H. unfold in_int. apply andb_true_iff. split; [apply Z.leb_le|apply Z.ltb_lt]; lia. Qed.
Lemma int_abs : forall z, int z -> Z.abs z <= 2 ^ 53.
Proof. intros z H. unfold int in H. change (2 ^ 53) with 9007199254740992. lia. Qed.
Lemma to_int_int : forall z, int z -> to_int (to_double z) = Ok z.
Proof. intros z H. rewrite to_double_int by apply int_abs, H. unfold to_int. rewrite trunc_int, int_in by exact H. reflexivity. Qed.
Lemma to_size_size : forall z, size z -> to_size (to_double z) = Ok z.
Proof.
  intros z H. unfold size in H. rewrite to_double_int by lia. unfold to_size. rewrite trunc_int.
  change (2 ^ 53) with 9007199254740992 in H. cbv zeta.
  destruct (Z.leb_spec 0 z); [|lia]. destruct (Z.ltb_spec z 18446744073709551616); [reflexivity|lia].
Qed.

(** ** The text *)
Section F.
  Variable f : Q -> Q.
  Notation T := (through_text f).
  Lemma find_text : forall k o, find k (T o) = option_map T (find k o).
  Proof. intros k o. destruct o; try reflexivity. cbn. apply get_map. Qed.

  (** Values through JSON and text. *)
  Lemma value_text : forall v, solid v -> exists j, to_json v = Some j /\ as_value (T j) = after_value f v /\
    is_null (after_value f v) = false /\ (an_object v -> is_object j = true).
  Proof.
    induction v as [| | | | |l IH| |l IH] using value_ind2; intros S; cbn [solid] in S; try contradiction.
    - exists (JNum q). repeat split; intros [].
    - exists (JInt z). repeat split; try intros []. cbn. rewrite wrap_int by exact S. reflexivity.
    - exists (JBool b). repeat split; intros [].
    - exists (JStr s). repeat split; intros [].
    - destruct S as [N S]. rewrite fold_and in S.
      assert (X : exists js, map to_json l = map Some js /\ map as_value (map T js) = map (after_value f) l /\
        Forall (fun v => is_null v = false) (map (after_value f) l)).
      { clear N. induction l as [|v l IHl]; [exists []; repeat constructor|]. inversion IH as [|? ? I IH']; subst. inversion S as [|? ? S1 S2]; subst.
        destruct (IHl IH' S2) as (js & A & B & C). destruct (I S1) as (j & A1 & B1 & C1 & _). exists (j :: js). cbn [map].
        rewrite A, B, A1, B1. repeat split. constructor; assumption. }
      destruct X as (js & A & B & C). exists (array_of js). cbn [to_json]. rewrite A. split; [f_equal; exact (fold_push js [])|].
      assert (NJ : js <> []) by (intros ->; destruct l; [contradiction|discriminate A]).
      destruct js as [|j js]; [contradiction|]. cbn [array_of through_text as_value after_value is_null].
      rewrite B. split; [|split; [reflexivity|intros []]].
      assert (FL : forall vs, Forall (fun v => is_null v = false) vs -> filter (fun v => negb (is_null v)) vs = vs).
      { clear. induction vs as [|v vs IH]; intros H; [reflexivity|]. inversion H; subst. cbn [filter]. rewrite H2. cbn. f_equal. apply IH. assumption. }
      rewrite FL by exact C. destruct l; [contradiction|reflexivity].
    - destruct S as (N & O & S). rewrite (fold_and _ (fun kx => solid (snd kx))) in S.
      set (g := fun v => match to_json v with Some j => j | None => JNull end).
      assert (X : Forall (fun kv => to_json (snd kv) = Some (g (snd kv)) /\ as_value (T (g (snd kv))) = after_value f (snd kv) /\
        is_null (after_value f (snd kv)) = false) l).
      { rewrite Forall_forall in *. intros kv I. destruct (IH kv I (S kv I)) as (j & A & B & C & _). unfold g. rewrite A. repeat split; assumption. }
      exists (object_of (map (fun kv => (fst kv, g (snd kv))) l)). cbn [to_json]. split; [|split; [|split]].
      + f_equal. rewrite <- (fold_set value g l O). clear -X. generalize JNull. induction l as [|[k v] l IHl]; intros o; [reflexivity|].
        inversion X as [|? ? (A & _) X']; subst. cbn [map fold_left fst snd] in *. rewrite A. apply IHl, X'.
      + destruct l as [|kv l]; [contradiction|]. set (L := kv :: l) in *. replace (object_of (map (fun kv => (fst kv, g (snd kv))) L)) with (JObj (map (fun kv => (fst kv, g (snd kv))) L)) by reflexivity.
        cbn [through_text as_value after_value].
        assert (E : map (fun kv => (fst kv, as_value (snd kv))) (map (fun kv => (fst kv, T (snd kv))) (map (fun kv => (fst kv, g (snd kv))) L)) =
          map (fun kv => (fst kv, after_value f (snd kv))) L).
        { rewrite !map_map. apply map_ext_in. intros kx I. rewrite Forall_forall in X. destruct (X kx I) as (_ & B & _). cbn [fst snd]. rewrite B. reflexivity. }
        rewrite E.
        assert (FL : filter (fun kv => negb (is_null (snd kv))) (map (fun kv => (fst kv, after_value f (snd kv))) L) = map (fun kv => (fst kv, after_value f (snd kv))) L).
        { clear -X. induction X as [|kx L (_ & _ & C) X IH]; [reflexivity|]. cbn [map filter fst snd]. rewrite C. cbn. f_equal. exact IH. }
        rewrite FL. reflexivity.
      + reflexivity.
      + intros _. destruct l; [contradiction|reflexivity].
  Qed.

  Definition extras_json (e : value) : option json := if is_null e then None else to_json e.
  Lemma find_extras : forall k e o, find k (s_extras e o) =
    if String.eqb "extras" k then match extras_json e with Some j => Some j | None => find k o end else find k o.
  Proof.
    intros k e o. unfold s_extras, extras_json, s_value. destruct (is_null e).
    - destruct (String.eqb "extras" k); reflexivity.
    - destruct (to_json e) as [j|]; [apply find_set|]. destruct (String.eqb "extras" k); reflexivity.
  Qed.
  Lemma extras_text : forall e, extras_ok e ->
    match option_map T (extras_json e) with Some j => as_value j | None => VNull end = after_value f e.
  Proof.
    intros e [->|S]; [reflexivity|]. destruct (value_text e S) as (j & A & B & C & _). unfold extras_json.
    destruct (is_null e) eqn:N; [destruct e; cbn in *; try contradiction; discriminate|]. rewrite A. exact B.
  Qed.

  Definition extensions_json (m : extension_map) : option json :=
    match m with [] => None | _ => Some (fold_left (fun e kv => s_value (fst kv) (snd kv) e) m JNull) end.
  Lemma find_extensions : forall k m o, find k (s_extensions m o) =
    if String.eqb "extensions" k then match extensions_json m with Some j => Some j | None => find k o end else find k o.
  Proof.
    intros k m o. unfold s_extensions, extensions_json. destruct m; [destruct (String.eqb "extensions" k); reflexivity|]. apply find_set.
  Qed.
  Definition json_of (v : value) : json := match to_json v with Some j => j | None => JNull end.
  Lemma extensions_object : forall m, extensions_ok m ->
    fold_left (fun e kv => s_value (fst kv) (snd kv) e) m JNull = object_of (map (fun kv => (fst kv, json_of (snd kv))) m).
  Proof.
    intros m [O F]. rewrite <- (fold_set value json_of m O). clear O. generalize JNull. induction F as [|[k v] m [S _] F IH]; intros o; [reflexivity|].
    cbn [fold_left fst snd] in *. destruct (value_text v S) as (j & A & _). unfold s_value, json_of. rewrite A. apply IH.
  Qed.
  Definition objects_of (j : json) : extension_map :=
    match j with JObj l => map (fun kv => (fst kv, as_value (snd kv))) (filter (fun kv => is_object (snd kv)) l) | _ => [] end.
  Lemma objects_text : forall m, extensions_ok m -> objects_of (T (object_of (map (fun kv => (fst kv, json_of (snd kv))) m))) = after_map f m.
  Proof.
    intros m [O F]. destruct m as [|a m]; [reflexivity|]. set (L := a :: m) in *.
    change (object_of (map (fun kv => (fst kv, json_of (snd kv))) L)) with (JObj (map (fun kv => (fst kv, json_of (snd kv))) L)).
    cbn [through_text objects_of]. unfold after_map. clear O. induction F as [|[k v] l [S OB] F IH]; [reflexivity|].
    destruct (value_text v S) as (j & A & B & _ & D). specialize (D OB).
    assert (J : json_of v = j) by (unfold json_of; rewrite A; reflexivity).
    assert (K : is_object (T j) = true) by (destruct j; try discriminate D; reflexivity).
    cbn [map filter fst snd] in *. rewrite J, K. cbn [map fst snd]. rewrite B. f_equal. exact IH.
  Qed.
  Lemma extensions_text : forall m, extensions_ok m ->
    match option_map T (extensions_json m) with Some j => objects_of j | None => [] end = after_map f m.
  Proof.
    intros m H. unfold extensions_json. destruct m as [|a m]; [reflexivity|]. rewrite extensions_object by exact H. cbn [option_map]. apply objects_text, H.
  Qed.
End F.
