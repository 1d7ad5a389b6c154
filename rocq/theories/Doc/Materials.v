(** Parameters, materials, the asset and the lights. *)
From Coq Require Import List Bool ZArith QArith Qreduction Ascii String Sorted Lia Lqa.
From Verif.Base Require Import Py.
From Verif.Doc Require Import Model Spec Facts Parts.
Import ListNotations.
Local Open Scope Z_scope.

Section F.
  Variable f f32 : Q -> Q.
  Notation T := (through_text f).

  (** The "index" of a texture is an int. *)
  Definition entry_json (kq : string * Q) : string * json :=
    (fst kq, if String.eqb (fst kq) "index" then JInt (trunc (snd kq)) else JNum (snd kq)).
  Lemma entries_set : forall (m : list (string * Q)) (r : res Z) o, (forall q, In ("index"%string, q) m -> r = Ok (trunc q)) ->
    foldM (fun o kv => if String.eqb (fst kv) "index" then let* i := r in Ok (set (fst kv) (JInt i) o)
                       else Ok (set (fst kv) (JNum (snd kv)) o)) o m =
    Ok (fold_left (fun o kv => set (fst kv) (snd kv) o) (map entry_json m) o).
  Proof.
    induction m as [|[k q] m IH]; intros r o H; [reflexivity|]. cbn [foldM map fold_left fst snd entry_json].
    destruct (String.eqb_spec k "index") as [->|N].
    - assert (E : r = Ok (trunc q)) by (apply H; left; reflexivity). subst r. apply (IH (Ok (trunc q)) (set "index" (JInt (trunc q)) o)).
      intros x X. apply H. right. exact X.
    - apply (IH r (set k (JNum q) o)). intros x X. apply H. right. exact X.
  Qed.
  Lemma doubles_entries : forall m, (forall q, In ("index"%string, q) m -> int (trunc q)) ->
    doubles_of (map (fun kv => (fst kv, T (snd kv))) (map entry_json m)) = map (after_entry f) m.
  Proof.
    induction m as [|[k q] m IH]; intros H; [reflexivity|]. cbn [map fst snd entry_json]. unfold after_entry at 1. cbn [fst snd].
    destruct (String.eqb_spec k "index") as [->|N]; cbn [through_text doubles_of number_of].
    - rewrite to_double_int by (apply int_abs, H; left; reflexivity). f_equal. apply IH. intros r R. apply H. right. exact R.
    - f_equal. apply IH. intros r R. apply H. right. exact R.
  Qed.
  Lemma fold_set_id : forall (m : list (string * json)), ordered m -> fold_left (fun o kv => set (fst kv) (snd kv) o) m JNull = object_of m.
  Proof.
    intros m O. rewrite (fold_set json (fun j => j) m O). f_equal. rewrite <- (map_id m) at 2. apply map_ext. intros []; reflexivity.
  Qed.
  Lemma parameter_text : forall p, parameter_ok p -> exists j, s_parameter p = Ok j /\ p_parameter (T j) = Some (after_parameter f p).
  Proof.
    intros p H. destruct H as [b h s q qs js n|b h s j js n O I|b h s n S|b q|b n].
    - exists (JArr (doubles (q :: qs))). split; [reflexivity|]. cbn [through_text p_parameter]. rewrite numbers_text. reflexivity.
    - exists (object_of (map entry_json (j :: js))). split.
      + unfold s_parameter. cbn [number_array json_double_value]. rewrite entries_set.
        * f_equal. apply fold_set_id. exact (ordered_map _ _ (fun k q => if String.eqb k "index" then JInt (trunc q) else JNum q) _ O).
        * intros q Q. unfold TextureIndex. cbn [json_double_value]. rewrite (get_in _ _ _ _ O Q). unfold to_int. rewrite int_in by (apply I, Q). reflexivity.
      + change (object_of (map entry_json (j :: js))) with (JObj (map entry_json (j :: js))). cbn [through_text p_parameter].
        rewrite doubles_entries by exact I. reflexivity.
    - exists (JStr s). unfold s_parameter, after_parameter. cbn [number_array json_double_value string_value].
      destruct (String.eqb_spec s "") as [->|_]; [contradiction|]. split; reflexivity.
    - exists (JNum q). split; reflexivity.
    - exists (JBool b). split; reflexivity.
  Qed.

  Definition parameter_json (p : parameter) : json := match s_parameter p with Ok j => j | Err _ => JNull end.
  Lemma parameter_json_text : forall p, parameter_ok p -> p_parameter (T (parameter_json p)) = Some (after_parameter f p).
  Proof. intros p H. destruct (parameter_text p H) as (j & A & B). unfold parameter_json. rewrite A. exact B. Qed.
  Lemma parameters_set : forall m o, Forall (fun kp => parameter_ok (snd kp)) m ->
    s_parameters m o = Ok (fold_left (fun o kp => set (fst kp) (parameter_json (snd kp)) o) m o).
  Proof.
    intros m o F. revert o. induction F as [|[k p] m H F IH]; intros o; [reflexivity|]. unfold s_parameters in *. cbn [foldM fold_left fst snd] in *.
    destruct (parameter_text p H) as (j & A & _). unfold parameter_json at 2. rewrite A. cbn [bind]. apply IH.
  Qed.
  Lemma find_fold : forall A (g : A -> json) k (m : list (string * A)) o, ordered m ->
    find k (fold_left (fun o kp => set (fst kp) (g (snd kp)) o) m o) = orelse (option_map g (get k m)) (find k o).
  Proof.
    intros A g k m o O. revert o. induction O as [|[x w] m S IH F]; intros o; [reflexivity|]. cbn [fold_left get fst snd]. rewrite IH, find_set.
    destruct (String.eqb_spec x k) as [X|]; [|reflexivity]. assert (N := get_head_none A (x, w) m F). cbn [fst] in N. rewrite X in N. rewrite N. reflexivity.
  Qed.
  Lemma parameters_text : forall m, Forall (fun kp => parameter_ok (snd kp)) m ->
    parameters (map (fun kv => (fst kv, T (snd kv))) (map (fun kp => (fst kp, parameter_json (snd kp))) m)) = after_parameters f m.
  Proof.
    induction 1 as [|[k p] m H F IH]; [reflexivity|]. cbn [map fst snd parameters] in *. rewrite parameter_json_text by exact H.
    unfold after_parameters in *. cbn [map fst snd]. rewrite IH. reflexivity.
  Qed.

  (** The members of an object in order. *)
  Definition in_order (o : json) : Prop := match o with JObj l => ordered l | _ => True end.
  Lemma order_set : forall k v o, in_order o -> in_order (set k v o).
  Proof. intros k v o H. destruct o; cbn in *; try (repeat constructor; fail). apply ordered_put, H. Qed.
  Lemma order_fold : forall A (g : A -> json) m o, in_order o -> in_order (fold_left (fun o kp => set (fst kp) (g (snd kp)) o) (m : list (string * A)) o).
  Proof. induction m as [|a m IH]; intros o H; [exact H|]. cbn [fold_left]. apply IH, order_set, H. Qed.
  Lemma order_value : forall k v o, in_order o -> in_order (s_value k v o).
  Proof. intros k v o H. unfold s_value. destruct (to_json v); [apply order_set|]; exact H. Qed.
  Lemma order_extras : forall e o, in_order o -> in_order (s_extras e o).
  Proof. intros e o H. unfold s_extras. destruct (is_null e); [exact H|apply order_value, H]. Qed.
  Lemma order_extensions : forall e o, in_order o -> in_order (s_extensions e o).
  Proof. intros e o H. unfold s_extensions. destruct e; [exact H|apply order_set, H]. Qed.
  Lemma order_name : forall k v o, in_order o -> in_order (s_name k v o).
  Proof. intros k v o H. unfold s_name. destruct (String.eqb v ""); [exact H|apply order_set, H]. Qed.
  Lemma order_text : forall o, in_order o -> in_order (T o).
  Proof. intros [] H; try exact H. cbn in *. exact (ordered_map _ _ (fun _ => T) _ H). Qed.

  Lemma ordered_parameters : forall l, ordered l -> ordered (parameters l) /\
    (forall k, get k (parameters l) = match get k l with Some j => p_parameter j | None => None end).
  Proof.
    intros l H. induction H as [|[x j] l S [IH1 IH2] F]; [split; [constructor|reflexivity]|].
    assert (N := get_head_none json (x, j) l F). cbn [fst] in N.
    assert (FP : Forall (fun b => String.compare x (fst b) = Lt) (parameters l)).
    { cbn [fst] in F. clear -F. induction F as [|[y i] l L F IH]; [constructor|]. cbn [parameters]. destruct (p_parameter i); [constructor; [exact L|exact IH]|exact IH]. }
    cbn [parameters get]. destruct (p_parameter j) as [p|] eqn:P.
    - split; [constructor; [exact IH1|exact FP]|]. intros k. cbn [get]. rewrite IH2. destruct (String.eqb x k); [rewrite P|]; reflexivity.
    - split; [exact IH1|]. intros k. rewrite IH2. destruct (String.eqb_spec x k) as [<-|]; [rewrite N, P; reflexivity|reflexivity].
  Qed.
  Lemma get_filter : forall A (p : string -> bool) k (l : list (string * A)), get k (filter (fun kv => p (fst kv)) l) = if p k then get k l else None.
  Proof.
    induction l as [|[x w] l IH]; cbn [filter get fst]; [destruct (p k); reflexivity|]. destruct (p x) eqn:P; cbn [get]; rewrite IH.
    - destruct (String.eqb_spec x k) as [<-|]; [rewrite P; reflexivity|reflexivity].
    - destruct (String.eqb_spec x k) as [<-|]; [rewrite P; reflexivity|reflexivity].
  Qed.
  Lemma get_after : forall k m, get k (after_parameters f m) = option_map (after_parameter f) (get k m).
  Proof. intros k m. apply get_map. Qed.

  Lemma object_fold : forall A (g : A -> json) m o, is_object o = true \/ m <> [] ->
    is_object (fold_left (fun o kp => set (fst kp) (g (snd kp)) o) (m : list (string * A)) o) = true.
  Proof.
    induction m as [|a m IH]; intros o [H|H]; try exact H; try contradiction; cbn [fold_left]; apply IH; left; apply object_set.
  Qed.
  Lemma extras_has : forall e, extras_ok e -> e <> VNull -> forall o, is_object (s_extras e o) = true.
  Proof.
    intros e [->|S] N o; [contradiction|]. destruct (value_text f e S) as (j & A & _). unfold s_extras, s_value. rewrite A.
    destruct e; try contradiction; apply object_set.
  Qed.

  Lemma own_extras : forall e k o, find k (if has_size e then s_value "extras" e o else o) =
    if String.eqb "extras" k then orelse (if has_size e then to_json e else None) (find k o) else find k o.
  Proof.
    intros e k o. destruct (has_size e); [|destruct (String.eqb "extras" k); reflexivity]. unfold s_value. destruct (to_json e).
    - apply find_set.
    - destruct (String.eqb "extras" k); reflexivity.
  Qed.

  Lemma material_text : forall m, material_ok m -> exists j, s_material m = Ok j /\ is_object (T j) = true /\ ParseMaterial (T j) = after_material f m.
  Proof.
    intros m (SOME & [VO VF] & [AO AF] & OWN & X & E).
    set (e0 := if has_size (ma_extras m) then s_value "extras" (ma_extras m) JNull else JNull).
    set (pbr := fold_left (fun o kp => set (fst kp) (parameter_json (snd kp)) o) (ma_values m) JNull).
    set (o1 := match ma_values m with [] => s_extensions (ma_extensions m) e0 | _ => set "pbrMetallicRoughness" pbr (s_extensions (ma_extensions m) e0) end).
    set (o2 := fold_left (fun o kp => set (fst kp) (parameter_json (snd kp)) o) (ma_additional m) o1).
    set (j := s_extras (ma_extras m) (s_name "name" (ma_name m) o2)).
    assert (SJ : s_material m = Ok j).
    { unfold s_material. fold e0. cbv zeta.
      replace (match ma_values m with [] => Ok (s_extensions (ma_extensions m) e0) | _ :: _ =>
        let* p := s_parameters (ma_values m) JNull in Ok (set "pbrMetallicRoughness" p (s_extensions (ma_extensions m) e0)) end) with (Ok o1).
      2: { subst o1. destruct (ma_values m) as [|a l]; [reflexivity|]. rewrite parameters_set by assumption. reflexivity. }
      cbn [bind]. rewrite parameters_set by assumption. reflexivity. }
    exists j. split; [exact SJ|].
    assert (F1 : forall k, find k o1 = if String.eqb "pbrMetallicRoughness" k then (match ma_values m with [] => None | _ => Some pbr end)
      else if String.eqb "extensions" k then extensions_json (ma_extensions m)
      else if String.eqb "extras" k then (if has_size (ma_extras m) then to_json (ma_extras m) else None) else None).
    { intros k. subst o1.
      assert (G : find k (s_extensions (ma_extensions m) e0) = if String.eqb "extensions" k then extensions_json (ma_extensions m)
        else if String.eqb "extras" k then (if has_size (ma_extras m) then to_json (ma_extras m) else None) else None).
      { subst e0. rewrite find_extensions', own_extras, find_null. rewrite orelse_none.
        destruct (String.eqb_spec "extensions" k) as [<-|]; [keys; apply orelse_none|reflexivity]. }
      destruct (ma_values m).
      - rewrite G. destruct (String.eqb_spec "pbrMetallicRoughness" k) as [<-|]; [keys|]; reflexivity.
      - rewrite find_set, G. reflexivity. }
    assert (F2 : forall k, find k o2 = orelse (option_map parameter_json (get k (ma_additional m))) (find k o1)) by (intros k; apply find_fold, AO).
    assert (FJ : forall k, find k j = orelse (if String.eqb "extras" k then extras_json (ma_extras m) else None)
      (orelse (if String.eqb "name" k then name_json (ma_name m) else None) (find k o2))).
    { intros k. subst j. rewrite find_extras', find_name. destruct (String.eqb_spec "extras" k) as [<-|]; keys; [reflexivity|]. destruct (String.eqb "name" k); reflexivity. }
    assert (OJ : in_order j).
    { subst j. apply order_extras, order_name, order_fold. subst o1.
      assert (O0 : in_order (s_extensions (ma_extensions m) e0)) by (apply order_extensions; subst e0; destruct (has_size _); [apply order_value|]; exact I).
      destruct (ma_values m); [exact O0|apply order_set, O0]. }
    assert (IJ : is_object j = true).
    { destruct SOME as [N|[N|[N|[N|N]]]]; subst j.
      - apply object_extras. unfold s_name. destruct (String.eqb_spec (ma_name m) ""); [contradiction|apply object_set].
      - apply object_extras, object_name, object_fold. left. subst o1. destruct (ma_values m); [contradiction|apply object_set].
      - apply object_extras, object_name, object_fold. right. exact N.
      - apply object_extras, object_name, object_fold. left. subst o1.
        assert (O0 : is_object (s_extensions (ma_extensions m) e0) = true) by (unfold s_extensions; destruct (ma_extensions m); [contradiction|apply object_set]).
        destruct (ma_values m); [exact O0|apply object_set].
      - apply extras_has; assumption. }
    split; [rewrite object_text; exact IJ|]. unfold ParseMaterial, after_material.
    assert (GX : find "extensions" j = extensions_json (ma_extensions m)).
    { rewrite FJ, F2, F1, (OWN "extensions"%string) by (left; reflexivity). reflexivity. }
    assert (GE : find "extras" j = extras_json (ma_extras m)).
    { rewrite FJ, F2, F1, (OWN "extras"%string) by (left; reflexivity). cbn [String.eqb]. keys. cbn [option_map orelse].
      unfold extras_json. destruct E as [->|S]; [reflexivity|]. destruct (value_text f _ S) as (v & A & _). rewrite A. destruct (ma_extras m); try contradiction; reflexivity. }
    assert (GN : find "name" j = name_json (ma_name m)).
    { rewrite FJ, F2, F1. keys. unfold name_json. destruct (String.eqb_spec (ma_name m) "") as [N|]; [|reflexivity].
      rewrite (OWN "name"%string) by (right; split; [reflexivity|exact N]). reflexivity. }
    assert (GP : find "pbrMetallicRoughness" j = match ma_values m with [] => None | _ => Some pbr end).
    { rewrite FJ, F2, F1, (OWN "pbrMetallicRoughness"%string) by (left; reflexivity). keys. cbn [option_map orelse]. reflexivity. }
    rewrite (p_name_of f _ _ (ma_name m) GN), (p_extensions_of f _ _ X GX), (p_extras_of f _ _ E GE). f_equal.
    - assert (PB : pbr = object_of (map (fun kp => (fst kp, parameter_json (snd kp))) (ma_values m))) by exact (fold_set parameter parameter_json _ VO).
      rewrite find_text, GP, PB, <- (parameters_text _ VF). destruct (ma_values m) as [|a l]; reflexivity.
    - apply (ordered_ext parameter).
      + destruct (is_object_members _ IJ) as [l L]. rewrite L in *. cbn [through_text members]. apply ordered_parameters, ordered_filter.
        exact (ordered_map _ _ (fun _ => T) _ OJ).
      + assert (OA : ordered (after_parameters f (ma_additional m))) by exact (ordered_map _ _ (fun _ => after_parameter f) _ AO).
        cbv zeta. destruct (String.eqb (ma_name m) ""); [exact OA|apply ordered_put, OA].
      + intros k. assert (GM : forall o, get k (members o) = find k o) by (intros []; reflexivity).
        assert (OT : ordered (members (T j))) by (assert (O' := order_text _ OJ); destruct (T j); try constructor; exact O').
        rewrite (proj2 (ordered_parameters _ (ordered_filter _ _ _ OT)) k).
        rewrite (get_filter json (fun k => negb (own_key k))), GM, find_text.
        assert (RHS : get k (let l := after_parameters f (ma_additional m) in if String.eqb (ma_name m) "" then l else put "name" (a_string (ma_name m)) l) =
          orelse (if String.eqb "name" k then option_map a_string (if String.eqb (ma_name m) "" then None else Some (ma_name m)) else None)
            (option_map (after_parameter f) (get k (ma_additional m)))).
        { cbv zeta. destruct (String.eqb (ma_name m) "").
          - rewrite get_after. destruct (String.eqb "name" k); reflexivity.
          - rewrite get_put, get_after. destruct (String.eqb "name" k); reflexivity. }
        etransitivity; [|symmetry; exact RHS]. clear RHS. destruct (own_key k) eqn:K; cbn [negb].
        * rewrite (OWN k) by (left; exact K). unfold own_key in K. apply orb_true_iff in K. destruct K as [K|K]; [apply orb_true_iff in K; destruct K as [K|K]|];
            apply String.eqb_eq in K; subst k; reflexivity.
        * unfold own_key in K. apply orb_false_iff in K. destruct K as [K1 K3]. apply orb_false_iff in K1. destruct K1 as [K1 K2].
          rewrite FJ, F2, F1, (String.eqb_sym "extras" k), (String.eqb_sym "extensions" k), (String.eqb_sym "pbrMetallicRoughness" k), K1, K2, K3. cbn [orelse].
          rewrite orelse_none. destruct (String.eqb_spec "name" k) as [<-|].
          -- unfold name_json. destruct (String.eqb_spec (ma_name m) "") as [N|]; [|reflexivity].
             rewrite (OWN "name"%string) by (right; split; [reflexivity|exact N]). reflexivity.
          -- cbn [orelse]. destruct (get k (ma_additional m)) as [p|] eqn:G; [|reflexivity]. cbn [option_map orelse].
             apply parameter_json_text. apply in_get in G. rewrite Forall_forall in AF. exact (AF _ G).
  Qed.

  (** The asset. *)
  Lemma asset_text : forall a v, asset_ok a -> find "asset" v = Some (s_asset a) ->
    (match find "asset" (T v) with Some (JObj l) => ParseAsset new_asset (JObj l) | _ => new_asset end) = after_asset f a.
  Proof.
    intros a v (X & E) H. rewrite find_text, H. cbn [option_map].
    assert (P : ParseAsset new_asset (T (s_asset a)) = after_asset f a).
    { unfold ParseAsset, after_asset, s_asset. cbv zeta.
      assert (ES : forall o k, find k (if has_keys (at_extras a) then s_value "extras" (at_extras a) o else o) =
        if String.eqb "extras" k then orelse (if has_keys (at_extras a) then to_json (at_extras a) else None) (find k o) else find k o).
      { intros o k. destruct (has_keys (at_extras a)); [|destruct (String.eqb "extras" k); reflexivity]. unfold s_value. destruct (to_json (at_extras a)).
        - apply find_set.
        - destruct (String.eqb "extras" k); reflexivity. }
      assert (NM : forall k d s o, find k o = name_json s -> or_default d (p_string (T o) k) = if String.eqb s "" then d else s).
      { intros k d s o K. unfold p_string. rewrite find_text, K. unfold name_json. destruct (String.eqb s ""); reflexivity. }
      set (o := s_extensions _ _).
      assert (F : forall k, find k o = if String.eqb "extensions" k then extensions_json (at_extensions a)
        else if String.eqb "extras" k then (if has_keys (at_extras a) then to_json (at_extras a) else None)
        else if String.eqb "version" k then name_json (at_version a) else if String.eqb "generator" k then name_json (at_generator a) else None).
      { intros k. subst o. rewrite find_extensions', ES, !find_name, find_null.
        destruct (String.eqb_spec "extensions" k) as [<-|]; [keys; apply orelse_none|].
        destruct (String.eqb_spec "extras" k) as [<-|]; [keys; apply orelse_none|].
        destruct (String.eqb_spec "version" k) as [<-|]; [keys; apply orelse_none|].
        destruct (String.eqb "generator" k); [apply orelse_none|reflexivity]. }
      rewrite (NM "version"%string _ (at_version a)) by apply F. rewrite (NM "generator"%string _ (at_generator a)) by apply F.
      rewrite p_string_none by apply F.
      assert (FX : find "extensions" o = extensions_json (at_extensions a)) by apply F.
      assert (FE : find "extras" o = if has_keys (at_extras a) then to_json (at_extras a) else None) by exact (F "extras"%string).
      f_equal.
      - rewrite find_text, FX, <- (extensions_text f _ X). destruct (option_map T (extensions_json (at_extensions a))) as [[]|] eqn:J; try reflexivity.
        unfold p_extensions. rewrite find_text, FX, J. reflexivity.
      - rewrite find_text, FE. destruct E as [->|S]; [reflexivity|]. destruct (value_text f _ S) as (j & A & B & _).
        destruct (at_extras a) as [| | | | | | |l]; try reflexivity. destruct l as [|kv l]; [destruct S; contradiction|]. cbn [has_keys]. rewrite A. cbn [option_map].
        exact B. }
    destruct (T (s_asset a)) eqn:J; try exact P; (rewrite <- P, <- J; clear -J; unfold ParseAsset; rewrite J; reflexivity).
  Qed.

  (** Lights are written after the extensions. *)
  Lemma light_value_text : forall l, as_value (T (s_light l)) = light_value f l.
  Proof.
    intros l. unfold s_light, light_value. destruct (li_color l) as [|q qs]; [reflexivity|].
    transitivity (match filter (fun kv => negb (is_null (snd kv))) [("color"%string, as_value (T (JArr (map JNum (q :: qs))))); ("name"%string, VString (li_name l)); ("type"%string, VString (li_type l))] with [] => VNull | vs => VObject vs end).
    { reflexivity. }
    assert (K : as_value (T (JArr (map JNum (q :: qs)))) = VArray (map (fun q => VNumber (f q)) (q :: qs))).
    { cbn [through_text as_value]. rewrite !map_map. cbn [through_text as_value].
      assert (N : forall l, filter (fun v => negb (is_null v)) (map (fun x => VNumber (f x)) l) = map (fun x => VNumber (f x)) l).
      { clear. induction l as [|x l IH]; [reflexivity|]. cbn. f_equal. exact IH. }
      rewrite N. reflexivity. }
    rewrite K. reflexivity.
  Qed.
End F.
