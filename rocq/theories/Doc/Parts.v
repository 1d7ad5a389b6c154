(** Each part of a model through the document and back. *)
From Coq Require Import List Bool ZArith QArith Qreduction Ascii String Sorted Lia Lqa.
From Verif.Base Require Import Py.
From Verif.Doc Require Import Model Spec Facts.
Import ListNotations.
Local Open Scope Z_scope.

Definition orelse {A} (a b : option A) : option A := match a with Some x => Some x | None => b end.
Lemma orelse_none : forall A (a : option A), orelse a None = a.
Proof. intros A [a|]; reflexivity. Qed.
Definition numbers_json (l : list json) : option json := match l with [] => None | _ => Some (JArr l) end.
Definition name_json (s : string) : option json := if String.eqb s "" then None else Some (JStr s).
Definition index_json (z : Z) : option json := if z =? -1 then None else Some (JInt z).
Definition index_json' (z : Z) : option json := if -1 <? z then Some (JInt z) else None.
Definition section_json {A} (s : A -> json) (l : list A) : option json := numbers_json (map s l).

Lemma find_extras' : forall k e o, find k (s_extras e o) = if String.eqb "extras" k then orelse (extras_json e) (find k o) else find k o.
Proof. exact find_extras. Qed.
Lemma find_extensions' : forall k m o, find k (s_extensions m o) = if String.eqb "extensions" k then orelse (extensions_json m) (find k o) else find k o.
Proof. exact find_extensions. Qed.
Lemma find_numbers : forall k k' l o, find k (s_numbers k' l o) = if String.eqb k' k then orelse (numbers_json l) (find k o) else find k o.
Proof. intros k k' [|a l] o; unfold s_numbers; [destruct (String.eqb k' k); reflexivity|apply find_set]. Qed.
Lemma find_name : forall k k' s o, find k (s_name k' s o) = if String.eqb k' k then orelse (name_json s) (find k o) else find k o.
Proof. intros k k' s o. unfold s_name, name_json. destruct (String.eqb s ""); [destruct (String.eqb k' k); reflexivity|apply find_set]. Qed.
Lemma find_index : forall k k' z o, find k (s_index k' z o) = if String.eqb k' k then orelse (index_json z) (find k o) else find k o.
Proof. intros k k' z o. unfold s_index, index_json. destruct (z =? -1); [destruct (String.eqb k' k); reflexivity|apply find_set]. Qed.
Lemma find_index' : forall k k' z o, find k (if -1 <? z then set k' (JInt z) o else o) = if String.eqb k' k then orelse (index_json' z) (find k o) else find k o.
Proof. intros k k' z o. unfold index_json'. destruct (-1 <? z); [apply find_set|destruct (String.eqb k' k); reflexivity]. Qed.
Lemma find_section : forall A k k' (s : A -> json) l o, find k (s_section k' s l o) = if String.eqb k' k then orelse (section_json s l) (find k o) else find k o.
Proof. intros A k k' s [|a l] o; unfold s_section; [destruct (String.eqb k' k); reflexivity|apply find_set]. Qed.
Lemma find_when : forall k k' (c : bool) v o, find k (if c then set k' v o else o) = if String.eqb k' k then orelse (if c then Some v else None) (find k o) else find k o.
Proof. intros k k' [] v o; [apply find_set|destruct (String.eqb k' k); reflexivity]. Qed.
Lemma find_unless : forall k k' (c : bool) v o, find k (if c then o else set k' v o) = if String.eqb k' k then orelse (if c then None else Some v) (find k o) else find k o.
Proof. intros k k' [] v o; [destruct (String.eqb k' k); reflexivity|apply find_set]. Qed.
Lemma find_null : forall k, find k JNull = None.
Proof. reflexivity. Qed.

Ltac keys := repeat match goal with |- context [String.eqb ?a ?b] =>
  let r := eval vm_compute in (String.eqb a b) in match r with true => idtac | false => idtac end; change (String.eqb a b) with r; cbv iota end.
Ltac look := repeat (first [rewrite find_null | rewrite find_extras' | rewrite find_extensions' | rewrite find_numbers | rewrite find_name
  | rewrite find_index | rewrite find_index' | rewrite find_section | rewrite find_when | rewrite find_unless | rewrite find_set]; keys); rewrite ?orelse_none; reflexivity.

(** Something is an object. *)
Lemma object_set : forall k v o, is_object (set k v o) = true.
Proof. intros k v []; reflexivity. Qed.
Lemma object_value : forall k v o, is_object o = true -> is_object (s_value k v o) = true.
Proof. intros k v o H. unfold s_value. destruct (to_json v); [apply object_set|exact H]. Qed.
Lemma object_extras : forall v o, is_object o = true -> is_object (s_extras v o) = true.
Proof. intros v o H. unfold s_extras. destruct (is_null v); [exact H|apply object_value, H]. Qed.
Lemma object_extensions : forall v o, is_object o = true -> is_object (s_extensions v o) = true.
Proof. intros v o H. unfold s_extensions. destruct v; [exact H|apply object_set]. Qed.
Lemma object_numbers : forall k v o, is_object o = true -> is_object (s_numbers k v o) = true.
Proof. intros k v o H. unfold s_numbers. destruct v; [exact H|apply object_set]. Qed.
Lemma object_name : forall k v o, is_object o = true -> is_object (s_name k v o) = true.
Proof. intros k v o H. unfold s_name. destruct (String.eqb v ""); [exact H|apply object_set]. Qed.
Lemma object_index : forall k v o, is_object o = true -> is_object (s_index k v o) = true.
Proof. intros k v o H. unfold s_index. destruct (v =? -1); [exact H|apply object_set]. Qed.
Lemma object_if : forall (c : bool) a b, is_object a = true -> is_object b = true -> is_object (if c then a else b) = true.
Proof. intros [] a b H K; assumption. Qed.
Ltac object := repeat first [apply object_set | apply object_extras | apply object_extensions | apply object_numbers | apply object_name | apply object_index | apply object_if].

Section F.
  Variable f f32 : Q -> Q.
  Notation T := (through_text f).

  Lemma object_text : forall o, is_object (T o) = is_object o.
  Proof. intros []; reflexivity. Qed.
  Lemma p_name_of : forall k o s, find k o = name_json s -> or_default ""%string (p_string (T o) k) = s.
  Proof.
    intros k o s H. unfold p_string. rewrite find_text, H. unfold name_json. destruct (String.eqb_spec s "") as [->|]; reflexivity.
  Qed.
  Lemma p_string_of : forall k o s, find k o = Some (JStr s) -> p_string (T o) k = Some s.
  Proof. intros k o s H. unfold p_string. rewrite find_text, H. reflexivity. Qed.
  Lemma p_string_none : forall k o, find k o = None -> p_string (T o) k = None.
  Proof. intros k o H. unfold p_string. rewrite find_text, H. reflexivity. Qed.
  Lemma p_bool_none : forall k o, find k o = None -> p_bool (T o) k = None.
  Proof. intros k o H. unfold p_bool. rewrite find_text, H. reflexivity. Qed.
  Lemma p_extras_of : forall o e, extras_ok e -> find "extras" o = extras_json e -> p_extras (T o) = after_value f e.
  Proof. intros o e K H. unfold p_extras. rewrite find_text, H. apply extras_text, K. Qed.
  Lemma p_extras_none : forall o, find "extras" o = None -> p_extras (T o) = VNull.
  Proof. intros o H. unfold p_extras. rewrite find_text, H. reflexivity. Qed.
  Lemma p_extensions_of : forall o m, extensions_ok m -> find "extensions" o = extensions_json m -> p_extensions (T o) = after_map f m.
  Proof.
    intros o m K H. unfold p_extensions. rewrite find_text, H, <- (extensions_text f m K).
    destruct (option_map T (extensions_json m)) as [[]|]; reflexivity.
  Qed.
  Lemma p_extensions_none : forall o, find "extensions" o = None -> p_extensions (T o) = [].
  Proof. intros o H. unfold p_extensions. rewrite find_text, H. reflexivity. Qed.
  Lemma p_number_int : forall k o z, find k o = Some (JInt z) -> p_number (T o) k = Some (to_double z).
  Proof. intros k o z H. unfold p_number. rewrite find_text, H. reflexivity. Qed.
  Lemma p_number_of : forall k o q, find k o = Some (JNum q) -> p_number (T o) k = Some (f q).
  Proof. intros k o q H. unfold p_number. rewrite find_text, H. reflexivity. Qed.
  Lemma p_number_none : forall k o, find k o = None -> p_number (T o) k = None.
  Proof. intros k o H. unfold p_number. rewrite find_text, H. reflexivity. Qed.
  Lemma p_int_of : forall z k o d, int z -> find k o = Some (JInt z) -> p_int (T o) k d = Ok z.
  Proof. intros z k o d K H. unfold p_int. rewrite (p_number_int k o z H). apply to_int_int, K. Qed.
  Lemma p_index_of : forall z k o, int z -> find k o = index_json z -> p_int (T o) k (-1) = Ok z.
  Proof.
    intros z k o K H. unfold index_json in H. destruct (Z.eqb_spec z (-1)) as [->|].
    - unfold p_int. rewrite p_number_none by exact H. reflexivity.
    - apply p_int_of; assumption.
  Qed.
  Lemma p_index_of' : forall z k o, int z -> find k o = index_json' z -> p_int (T o) k (-1) = Ok (Z.max (-1) z).
  Proof.
    intros z k o K H. unfold index_json' in H. destruct (Z.ltb_spec (-1) z) as [L|L].
    - rewrite Z.max_r by lia. apply p_int_of; assumption.
    - rewrite Z.max_l by lia. unfold p_int. rewrite p_number_none by exact H. reflexivity.
  Qed.
  Lemma numbers_text : forall l, numbers_of (map T (doubles l)) = (map f l, true).
  Proof. induction l as [|q l IH]; [reflexivity|]. cbn [doubles map numbers_of number_of through_text] in *. unfold doubles in IH. rewrite IH. reflexivity. Qed.
  Lemma ints_text : forall l, numbers_of (map T (ints l)) = (map to_double l, true).
  Proof. induction l as [|q l IH]; [reflexivity|]. cbn [ints map numbers_of number_of through_text] in *. unfold ints in IH. rewrite IH. reflexivity. Qed.
  Lemma p_numbers_of : forall l k o, find k o = numbers_json (doubles l) -> p_numbers (T o) k = (map f l, match l with [] => false | _ => true end).
  Proof.
    intros [|q l] k o H; unfold p_numbers; rewrite find_text, H; [reflexivity|].
    change (numbers_of (map T (doubles (q :: l))) = (map f (q :: l), true)). apply numbers_text.
  Qed.
  Lemma p_ints_of : forall l k o, find k o = numbers_json (ints l) -> p_numbers (T o) k = (map to_double l, match l with [] => false | _ => true end).
  Proof.
    intros [|q l] k o H; unfold p_numbers; rewrite find_text, H; [reflexivity|].
    change (numbers_of (map T (ints (q :: l))) = (map to_double (q :: l), true)). apply ints_text.
  Qed.
  Lemma to_ints : forall l, Forall int l -> mapM to_int (map to_double l) = Ok l.
  Proof. induction 1 as [|z l H F IH]; [reflexivity|]. cbn. rewrite to_int_int by exact H. cbn. rewrite IH. reflexivity. Qed.

  (** Lists of parts. *)
  Lemma mapM_parts : forall A B (p : json -> res B) (s : A -> json) (after : A -> B) (ok : A -> Prop),
    (forall x, ok x -> p (T (s x)) = Ok (after x)) -> forall l, Forall ok l -> mapM p (map T (map s l)) = Ok (map after l).
  Proof. intros A B p s after ok H l F. induction F as [|x l K F IH]; [reflexivity|]. cbn. rewrite H by exact K. cbn. rewrite IH. reflexivity. Qed.
  Lemma parsed_parts : forall A B (p : json -> res B) (s : A -> json) (after : A -> B) (ok : A -> Prop),
    (forall x, ok x -> p (T (s x)) = Ok (after x)) -> forall l, Forall ok l -> parsed p (map T (map s l)) = Ok (map after l).
  Proof. intros A B p s after ok H l F. induction F as [|x l K F IH]; [reflexivity|]. cbn. rewrite H by exact K. cbn. rewrite IH. reflexivity. Qed.
  Lemma array_of_case : forall A B (p : list json -> res (list B)) (s : A -> json) l k o (r : list B),
    find k o = Some (array_of (map s l)) -> p (map T (map s l)) = Ok r -> (l = [] -> r = []) ->
    (match find k (T o) with Some (JArr l) => p l | _ => Ok [] end) = Ok r.
  Proof.
    intros A B p s l k o r H P N. rewrite find_text, H. destruct l as [|x l]; [rewrite N by reflexivity; reflexivity|]. exact P.
  Qed.
  Lemma section_case : forall A B (p : list json -> res (list B)) (s : A -> json) l k o (r : list B),
    find k o = section_json s l -> p (map T (map s l)) = Ok r -> (l = [] -> r = []) ->
    (match find k (T o) with Some (JArr l) => p l | _ => Ok [] end) = Ok r.
  Proof.
    intros A B p s l k o r H P N. rewrite find_text, H. destruct l as [|x l]; [rewrite N by reflexivity; reflexivity|]. exact P.
  Qed.

  (** ** The parts *)
  Lemma type_of_name : forall t, In t [SCALAR; VEC2; VEC3; VEC4; MAT2; MAT3; MAT4] -> type_of (type_name t) = Some t.
  Proof. intros t H. cbn in H. repeat (destruct H as [<-|H]; [reflexivity|]). destruct H. Qed.

  Lemma accessor_text : forall a, accessor_ok a -> ParseAccessor (T (s_accessor a)) = Ok (after_accessor f a).
  Proof.
    intros a (V & O & C & N & TY & E). unfold ParseAccessor, s_accessor, after_accessor. cbv zeta.
    rewrite (p_number_int _ _ (ac_view a)) by look. rewrite p_bool_none by look. rewrite (p_number_int _ _ (ac_component a)) by look.
    rewrite (p_number_int _ _ (ac_count a)) by look. rewrite (p_string_of _ _ (type_name (ac_type a))) by look. cbn [required bind].
    rewrite type_of_name by exact TY. cbn [required bind]. rewrite to_size_size by exact N. cbn [bind]. rewrite to_int_int by exact V. cbn [bind].
    unfold p_size at 1.
    assert (K : forall o, find "byteOffset" o = (if ac_offset a =? 0 then None else Some (JInt (ac_offset a))) ->
      (match p_number (T o) "byteOffset" with Some q => to_size q | None => Ok 0 end) = Ok (ac_offset a)).
    { intros o H. destruct (Z.eqb_spec (ac_offset a) 0) as [Z|Z].
      - rewrite p_number_none by exact H. rewrite Z. reflexivity.
      - rewrite (p_number_int _ _ _ H). apply to_size_size. unfold size. lia. }
    rewrite K by (rewrite wrap_int by (unfold int; lia); look). cbn [bind]. rewrite to_int_int by (unfold int; lia). cbn [bind].
    destruct (Z.leb_spec 5120 (ac_component a)); [|lia]. destruct (Z.leb_spec (ac_component a) 5130); [|lia]. cbn [andb].
    rewrite p_string_none by look. rewrite (p_extras_of _ (ac_extras a)) by (exact E || look).
    rewrite (p_numbers_of (ac_min a)) by look. rewrite (p_numbers_of (ac_max a)) by look. reflexivity.
  Qed.
  Lemma accessor_object : forall a, is_object (T (s_accessor a)) = true.
  Proof. intros a. rewrite object_text. unfold s_accessor. cbv zeta. object. Qed.

  Lemma channel_text : forall c, channel_ok c -> ParseAnimationChannel (T (s_channel c)) = Ok (after_channel f c).
  Proof.
    intros c (S & N & E). unfold ParseAnimationChannel, s_channel, after_channel. cbv zeta.
    rewrite (p_number_int _ _ (ch_sampler c)) by look. cbn [required bind].
    rewrite find_text. match goal with |- context [find "target" ?o] => replace (find "target" o) with
      (Some (JObj [("node"%string, JInt (ch_node c)); ("path"%string, JStr (ch_path c))])) by (symmetry; look) end.
    cbn [option_map through_text map fst snd p_number p_string find get number_of String.eqb Ascii.eqb Bool.eqb required bind].
    change (p_number _ "node") with (Some (to_double (ch_node c))). change (p_string _ "path") with (Some (ch_path c)). cbn [required bind].
    rewrite to_int_int by exact S. cbn [bind]. rewrite to_int_int by exact N. cbn [bind].
    rewrite (p_extras_of _ (ch_extras c)) by (exact E || look). reflexivity.
  Qed.
  Lemma asampler_text : forall s, asampler_ok s -> ParseAnimationSampler (T (s_asampler s)) = Ok (after_asampler f s).
  Proof.
    intros s (I & O & E). unfold ParseAnimationSampler, s_asampler, after_asampler. cbv zeta.
    rewrite (p_number_int _ _ (as_input s)) by look. rewrite (p_string_of _ _ (as_interpolation s)) by look.
    rewrite (p_number_int _ _ (as_output s)) by look. cbn [required bind].
    rewrite !to_int_int by assumption. cbn [bind]. rewrite (p_extras_of _ (as_extras s)) by (exact E || look). reflexivity.
  Qed.
  Lemma map_nil : forall A B (g : A -> B) l, l = [] -> map g l = [].
  Proof. intros A B g l ->. reflexivity. Qed.
  Lemma some_name : forall s, or_default ""%string (Some s) = s.
  Proof. reflexivity. Qed.
  Lemma animation_text : forall a, animation_ok a -> ParseAnimation (T (s_animation a)) = Ok (after_animation f a).
  Proof.
    intros a (C & S & E). unfold ParseAnimation, s_animation, after_animation. cbv zeta.
    rewrite (array_of_case _ _ (parsed ParseAnimationChannel) s_channel (an_channels a) _ _ (map (after_channel f) (an_channels a))); [|look|exact (parsed_parts _ _ _ _ _ _ channel_text _ C)|apply map_nil]. cbn [bind].
    rewrite (array_of_case _ _ (mapM ParseAnimationSampler) s_asampler (an_samplers a) _ _ (map (after_asampler f) (an_samplers a))); [|look|exact (mapM_parts _ _ _ _ _ _ asampler_text _ S)|apply map_nil]. cbn [bind].
    rewrite (p_string_of _ _ (an_name a)) by look. rewrite (p_extras_of _ (an_extras a)) by (exact E || look). reflexivity.
  Qed.
  Lemma animation_object : forall a, is_object (T (s_animation a)) = true.
  Proof. intros a. rewrite object_text. unfold s_animation. cbv zeta. object. Qed.

  Lemma view_text : forall v, view_ok v -> ParseBufferView (T (s_view v)) = Ok (after_view v).
  Proof.
    intros v (B & L & O & ST & E). unfold ParseBufferView, s_view, after_view. cbv zeta.
    rewrite (p_number_int _ _ (vi_buffer v)) by look. rewrite (p_number_int _ _ (vi_length v)) by look. cbn [required bind].
    assert (K : forall o, find "byteStride" o = (if 4 <=? vi_stride v then Some (JInt (vi_stride v)) else None) ->
      p_size (T o) "byteStride" 0 = Ok (if vi_stride v <? 4 then 0 else vi_stride v)).
    { intros o H. unfold p_size. rewrite Z.leb_antisym in H. destruct (Z.ltb_spec (vi_stride v) 4) as [S|S]; cbn [negb] in H.
      - rewrite p_number_none by exact H. reflexivity.
      - rewrite (p_number_int _ _ _ H). apply to_size_size. unfold size. unfold stride_ok in ST. change (2 ^ 53) with 9007199254740992. lia. }
    rewrite K by look. cbn [bind].
    assert (G : ((252 <? (if vi_stride v <? 4 then 0 else vi_stride v)) || negb ((if vi_stride v <? 4 then 0 else vi_stride v) mod 4 =? 0)) = false).
    { destruct (Z.ltb_spec (vi_stride v) 4) as [S|S]; [reflexivity|]. destruct ST as [?|[ST M]]; [lia|].
      rewrite M. destruct (Z.ltb_spec 252 (vi_stride v)); [lia|reflexivity]. }
    rewrite G.
    assert (KT : forall o, find "target" o = (if (vi_target v =? 34962) || (vi_target v =? 34963) then Some (JInt (vi_target v)) else None) ->
      p_int (T o) "target" 0 = Ok (if (vi_target v =? 34962) || (vi_target v =? 34963) then vi_target v else 0)).
    { intros o H. destruct ((vi_target v =? 34962) || (vi_target v =? 34963)) eqn:T1.
      - apply p_int_of; [|exact H]. unfold int. apply orb_true_iff in T1. rewrite !Z.eqb_eq in T1. lia.
      - unfold p_int. rewrite p_number_none by exact H. reflexivity. }
    rewrite KT by look. cbn [bind]. rewrite to_int_int by exact B. cbn [bind].
    assert (KO : forall o, find "byteOffset" o = (if 0 <? vi_offset v then Some (JInt (vi_offset v)) else None) ->
      p_size (T o) "byteOffset" 0 = Ok (vi_offset v)).
    { intros o H. unfold p_size. destruct (Z.ltb_spec 0 (vi_offset v)) as [S|S].
      - rewrite (p_number_int _ _ _ H). apply to_size_size, O.
      - rewrite p_number_none by exact H. unfold size in O. f_equal. lia. }
    rewrite KO by look. cbn [bind]. rewrite to_size_size by exact L. cbn [bind].
    rewrite (p_name_of _ _ (vi_name v)) by look. do 2 f_equal.
    destruct ((vi_target v =? 34962) || (vi_target v =? 34963)) eqn:T1; [rewrite T1; reflexivity|reflexivity].
  Qed.
  Lemma view_object : forall v, is_object (T (s_view v)) = true.
  Proof. intros v. rewrite object_text. unfold s_view. cbv zeta. object. Qed.

  Lemma s_ints_object : forall m, ordered m -> s_ints m = object_of (map (fun kz => (fst kz, JInt (snd kz))) m).
  Proof. intros m O. exact (fold_set Z JInt m O). Qed.
  Lemma ints_of_text : forall m, Forall (fun kz => int (snd kz)) m ->
    ints_of (map (fun kv => (fst kv, T (snd kv))) (map (fun kz => (fst kz, JInt (snd kz))) m)) = Ok m /\
    target_of (map (fun kv => (fst kv, T (snd kv))) (map (fun kz => (fst kz, JInt (snd kz))) m)) = Ok m.
  Proof.
    induction 1 as [|[k z] m H F [IH1 IH2]]; [split; reflexivity|]. cbn [map fst snd through_text ints_of target_of number_of get_int bind] in *.
    rewrite wrap_int by exact H. cbn [bind]. rewrite IH1, IH2. split; reflexivity.
  Qed.
  Lemma targets_text : forall ts, Forall (fun t => ordered t /\ Forall (fun kz => int (snd kz)) t) ts -> mapM p_target (map T (map s_ints ts)) = Ok ts.
  Proof.
    intros ts H. rewrite (mapM_parts _ _ p_target s_ints (fun t => t) (fun t => ordered t /\ Forall (fun kz => int (snd kz)) t)); [rewrite map_id; reflexivity| |exact H].
    clear ts H. intros t [O F]. rewrite s_ints_object by exact O. destruct t as [|a t]; [reflexivity|].
    exact (proj2 (ints_of_text _ F)).
  Qed.
  Lemma find_targets : forall k ts o, find k (match ts with [] => o | t :: l => set "targets" (array_of (map s_ints (t :: l))) o end) =
    if String.eqb "targets" k then orelse (section_json s_ints ts) (find k o) else find k o.
  Proof. intros k [|t l] o; [destruct (String.eqb "targets" k); reflexivity|apply find_set]. Qed.
  Ltac look' := repeat (first [rewrite find_targets | rewrite find_null | rewrite find_extras' | rewrite find_extensions' | rewrite find_numbers | rewrite find_name
    | rewrite find_index | rewrite find_index' | rewrite find_when | rewrite find_unless | rewrite find_set]; keys); rewrite ?orelse_none; reflexivity.
  Lemma primitive_text : forall p, primitive_ok p -> ParsePrimitive (T (s_primitive p)) = Ok (after_primitive f p).
  Proof.
    intros p (N & O & A & M & I & MO & TS & E). unfold ParsePrimitive, s_primitive, after_primitive. cbv zeta.
    rewrite (p_index_of' (pr_material p)) by (exact M || look'). cbn [bind]. rewrite (p_int_of (pr_mode p)) by (exact MO || look'). cbn [bind].
    rewrite (p_index_of' (pr_indices p)) by (exact I || look'). cbn [bind].
    assert (K : forall o, find "attributes" o = Some (s_ints (pr_attributes p)) -> p_string_int (T o) "attributes" = Ok (pr_attributes p)).
    { intros o H. unfold p_string_int. rewrite find_text, H, s_ints_object by exact O. destruct (pr_attributes p) as [|a l]; [contradiction|].
      exact (proj1 (ints_of_text _ A)). }
    rewrite K by look'. cbn [bind]. unfold p_targets.
    rewrite (section_case _ _ (mapM p_target) s_ints (pr_targets p) _ _ (pr_targets p)); [|look'|exact (targets_text _ TS)|intros K0; exact K0]. cbn [bind].
    rewrite (p_extras_of _ (pr_extras p)) by (exact E || look'). reflexivity.
  Qed.
  Lemma mesh_text : forall m, mesh_ok m -> ParseMesh (T (s_mesh m)) = Ok (after_mesh f m).
  Proof.
    intros m (P & E). unfold ParseMesh, s_mesh, after_mesh. cbv zeta.
    rewrite (array_of_case _ _ (parsed ParsePrimitive) s_primitive (me_primitives m) _ _ (map (after_primitive f) (me_primitives m))); [|look|exact (parsed_parts _ _ _ _ _ _ primitive_text _ P)|apply map_nil]. cbn [bind].
    unfold p_targets. rewrite find_text. match goal with |- context [find "targets" ?o] => replace (find "targets" o) with (@None json) by (symmetry; look) end.
    cbn [option_map bind]. rewrite (p_name_of _ _ (me_name m)) by look. rewrite (p_numbers_of (me_weights m)) by look.
    rewrite p_extensions_none by look. rewrite (p_extras_of _ (me_extras m)) by (exact E || look). reflexivity.
  Qed.
  Lemma mesh_object : forall m, is_object (T (s_mesh m)) = true.
  Proof. intros v. rewrite object_text. unfold s_mesh. cbv zeta. object. Qed.

  Lemma light_text : forall l, ParseLight (T (s_light l)) = after_light f l.
  Proof.
    intros l. unfold ParseLight, s_light, after_light. rewrite (p_string_of "name" _ (li_name l)) by look.
    rewrite (p_string_of "type" _ (li_type l)) by look. rewrite (p_numbers_of (li_color l)) by look. reflexivity.
  Qed.

  Lemma node_text : forall n, node_ok n -> ParseNode (T (s_node n)) = Ok (after_node f n).
  Proof.
    intros n (C & S & M & CH & X & E). unfold ParseNode, s_node, after_node. cbv zeta.
    rewrite (p_index_of (no_skin n)) by (exact S || look). cbn [bind]. rewrite (p_numbers_of (no_matrix n)) by look. cbv iota beta.
    rewrite (p_index_of (no_camera n)) by (exact C || look). cbn [bind]. rewrite (p_index_of (no_mesh n)) by (exact M || look). cbn [bind].
    rewrite (section_case _ _ (mapM p_child) JInt (no_children n) _ _ (no_children n)); [|look| |intros K; exact K].
    2: { rewrite (mapM_parts _ _ p_child JInt (fun z => z) int); [rewrite map_id; reflexivity| |exact CH]. intros z Z. cbn. rewrite wrap_int by exact Z. reflexivity. }
    cbn [bind]. rewrite (p_string_of _ _ (no_name n)) by look. rewrite (p_numbers_of (no_rotation n)) by look.
    rewrite (p_numbers_of (no_scale n)) by look. rewrite (p_numbers_of (no_translation n)) by look.
    rewrite (p_extensions_of _ (no_extensions n)) by (exact X || look). rewrite (p_extras_of _ (no_extras n)) by (exact E || look).
    destruct (no_matrix n); reflexivity.
  Qed.
  Lemma node_object : forall n, is_object (T (s_node n)) = true.
  Proof. intros v. rewrite object_text. unfold s_node. cbv zeta. apply object_numbers, object_set. Qed.

  Lemma sampler_text : forall s, sampler_ok s -> ParseSampler (T (s_sampler s)) = Ok (after_sampler f s).
  Proof.
    intros s (A & B & C & D & E). unfold ParseSampler, s_sampler, after_sampler. cbv zeta.
    rewrite (p_int_of (sa_min s)) by (exact A || look). cbn [bind]. rewrite (p_int_of (sa_mag s)) by (exact B || look). cbn [bind].
    rewrite (p_int_of (sa_s s)) by (exact C || look). cbn [bind]. rewrite (p_int_of (sa_t s)) by (exact D || look). cbn [bind].
    rewrite p_string_none by look. rewrite (p_extras_of _ (sa_extras s)) by (exact E || look). reflexivity.
  Qed.
  Lemma sampler_object : forall s, is_object (T (s_sampler s)) = true.
  Proof. intros v. rewrite object_text. unfold s_sampler. cbv zeta. object. Qed.

  Lemma orthographic_text : forall c, extras_ok (or_extras c) -> ParseOrthographicCamera f32 (T (s_orthographic c)) = Ok (after_orthographic f f32 c).
  Proof.
    intros c E. unfold ParseOrthographicCamera, s_orthographic, after_orthographic. cbv zeta.
    rewrite (p_number_of _ _ (or_x c)) by look. rewrite (p_number_of _ _ (or_y c)) by look. rewrite (p_number_of _ _ (or_far c)) by look.
    rewrite (p_number_of _ _ (or_near c)) by look. cbn [required bind]. rewrite p_extensions_none by look.
    rewrite (p_extras_of _ (or_extras c)) by (exact E || look). reflexivity.
  Qed.
  Lemma perspective_text : forall c, (0 < pe_yfov c)%Q -> extras_ok (pe_extras c) ->
    ParsePerspectiveCamera f32 (T (s_perspective c)) = Ok (after_perspective f f32 c).
  Proof.
    intros c Y E. unfold ParsePerspectiveCamera, s_perspective, after_perspective. cbv zeta.
    assert (P : positive (pe_yfov c) = true).
    { unfold positive. destruct (Qle_bool (pe_yfov c) 0) eqn:L; [|reflexivity]. apply Qle_bool_iff in L. exfalso. apply (Qlt_not_le _ _ Y L). }
    rewrite P. rewrite (p_number_of "yfov" _ (pe_yfov c)) by look. rewrite (p_number_of "znear" _ (pe_near c)) by look. cbn [required bind].
    rewrite (p_number_of "zfar" _ (pe_far c)) by look. rewrite p_extensions_none by look. rewrite (p_extras_of _ (pe_extras c)) by (exact E || look).
    assert (K : forall o, find "aspectRatio" o = (if positive (pe_aspect c) then Some (JNum (pe_aspect c)) else None) ->
      or_default 0%Q (p_number (T o) "aspectRatio") = (if Qle_bool (pe_aspect c) 0 then 0 else f (pe_aspect c))%Q).
    { intros o H. unfold positive in H. destruct (Qle_bool (pe_aspect c) 0); cbn [negb] in H.
      - rewrite p_number_none by exact H. reflexivity.
      - rewrite (p_number_of _ _ _ H). reflexivity. }
    rewrite K by look. reflexivity.
  Qed.
  Lemma is_object_members : forall o, is_object o = true -> exists l, o = JObj l.
  Proof. intros [] H; try discriminate. eexists. reflexivity. Qed.
  Lemma camera_text : forall c, camera_ok c -> ParseCamera f32 (T (s_camera c)) = Ok (after_camera f f32 c).
  Proof.
    intros c [(TY & E)|(TY & Y & E)]; unfold ParseCamera, s_camera, after_camera; cbv zeta; rewrite TY; keys.
    - rewrite (p_string_of _ _ "orthographic") by look. cbn [required bind]. keys. rewrite find_text.
      match goal with |- context [find "orthographic" ?o] => replace (find "orthographic" o) with (Some (s_orthographic (ca_orthographic c))) by (symmetry; look) end.
      assert (P := orthographic_text _ E). cbn [option_map].
      destruct (is_object_members (T (s_orthographic (ca_orthographic c)))) as [l L]; [rewrite object_text; unfold s_orthographic; cbv zeta; object|].
      rewrite L in *. rewrite P. cbn [bind]. rewrite p_extensions_none by look. rewrite p_extras_none by look.
      rewrite (p_name_of _ _ (if String.eqb (ca_name c) "" then "" else "orthographic")) by (unfold name_json; destruct (String.eqb (ca_name c) ""); look).
      reflexivity.
    - rewrite (p_string_of _ _ "perspective") by look. cbn [required bind]. keys. rewrite find_text.
      match goal with |- context [find "perspective" ?o] => replace (find "perspective" o) with (Some (s_perspective (ca_perspective c))) by (symmetry; look) end.
      assert (P := perspective_text _ Y E). cbn [option_map].
      destruct (is_object_members (T (s_perspective (ca_perspective c)))) as [l L]; [rewrite object_text; unfold s_perspective; cbv zeta; object|].
      rewrite L in *. rewrite P. cbn [bind]. rewrite p_extensions_none by look. rewrite p_extras_none by look.
      rewrite (p_name_of _ _ (if String.eqb (ca_name c) "" then "" else "perspective")) by (unfold name_json; destruct (String.eqb (ca_name c) ""); look).
      reflexivity.
  Qed.
  Lemma camera_object : forall c, is_object (T (s_camera c)) = true.
  Proof. intros v. rewrite object_text. unfold s_camera. cbv zeta. object. Qed.

  Lemma scene_text : forall s, scene_ok s -> ParseScene (T (s_scene s)) = Ok (after_scene f s).
  Proof.
    intros s (N & I & X & E). unfold ParseScene, s_scene, after_scene. rewrite (p_ints_of (sc_nodes s)) by look.
    destruct (sc_nodes s) as [|z l] eqn:L; [contradiction|]. cbv iota beta. cbn [negb]. rewrite <- L in *. rewrite to_ints by exact I. cbn [bind].
    rewrite (p_name_of _ _ (sc_name s)) by look. rewrite (p_extensions_of _ (sc_extensions s)) by (exact X || look).
    rewrite (p_extras_of _ (sc_extras s)) by (exact E || look). reflexivity.
  Qed.
  Lemma scene_object : forall s, sc_nodes s <> [] -> is_object (T (s_scene s)) = true.
  Proof. intros s N. rewrite object_text. unfold s_scene. apply object_extensions, object_extras, object_name. destruct (sc_nodes s); [contradiction|reflexivity]. Qed.

  Lemma skin_text : forall s, skin_ok s -> ParseSkin (T (s_skin s)) = Ok s.
  Proof.
    intros s (N & J & SK & M). unfold ParseSkin, s_skin. cbv zeta. rewrite (p_ints_of (sk_joints s)) by look.
    destruct (sk_joints s) as [|z l] eqn:L; [contradiction|]. cbv iota beta. cbn [negb]. rewrite <- L in *.
    rewrite (p_int_of (sk_skeleton s)) by (exact SK || look). cbn [bind]. rewrite to_ints by exact J. cbn [bind].
    rewrite (p_index_of (sk_matrices s)) by (exact M || look). cbn [bind]. rewrite (p_name_of _ _ (sk_name s)) by look. destruct s. reflexivity.
  Qed.
  Lemma skin_object : forall s, is_object (T (s_skin s)) = true.
  Proof. intros v. rewrite object_text. unfold s_skin. cbv zeta. object. Qed.

  Lemma texture_text : forall t, texture_ok t -> ParseTexture (T (s_texture t)) = Ok (after_texture f t).
  Proof.
    intros t (S & I & X & E). unfold ParseTexture, s_texture, after_texture. cbv zeta.
    rewrite (p_index_of' (te_sampler t)) by (exact S || look). cbn [bind]. rewrite (p_int_of (te_source t)) by (exact I || look). cbn [bind].
    rewrite (p_extensions_of _ (te_extensions t)) by (exact X || look). rewrite (p_extras_of _ (te_extras t)) by (exact E || look). reflexivity.
  Qed.
  Lemma texture_object : forall t, is_object (T (s_texture t)) = true.
  Proof. intros v. rewrite object_text. unfold s_texture. cbv zeta. object. Qed.
End F.
