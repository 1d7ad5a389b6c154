(** Documents that are written and cannot be read. *)
From Coq Require Import List Bool ZArith QArith Qreduction Ascii String Sorted Lia Lqa.
From Verif.Base Require Import Py.
From Verif.Uri Require Import Model.
From Verif.Doc Require Import Model Spec Facts Parts Materials Whole.
Import ListNotations.
Local Open Scope Z_scope.

Lemma bind_ok : forall A B (x : res A) (g : A -> res B) b, bind x g = Ok b -> exists a, x = Ok a /\ g a = Ok b.
Proof. intros A B [a|e] g b H; [exists a; split; [reflexivity|exact H]|discriminate]. Qed.
Lemma mapM_in : forall A B (p : A -> res B) l r x, mapM p l = Ok r -> In x l -> exists b, p x = Ok b.
Proof.
  induction l as [|a l IH]; intros r x H I; [destruct I|]. cbn [mapM] in H. apply bind_ok in H. destruct H as (b & P & H).
  apply bind_ok in H. destruct H as (bs & M & _). destruct I as [<-|I]; [exists b; exact P|exact (IH bs x M I)].
Qed.
Lemma mapM_length : forall A B (p : A -> res B) l r, mapM p l = Ok r -> List.length r = List.length l.
Proof.
  induction l as [|a l IH]; intros r H; cbn [mapM] in H; [injection H as <-; reflexivity|]. apply bind_ok in H. destruct H as (b & P & H).
  apply bind_ok in H. destruct H as (bs & M & H). injection H as <-. cbn. rewrite (IH bs M). reflexivity.
Qed.
Lemma mapM_out : forall A B (p : A -> res B) l r x b, mapM p l = Ok r -> In x l -> p x = Ok b -> In b r.
Proof.
  induction l as [|a l IH]; intros r x b H I P; [destruct I|]. cbn [mapM] in H. apply bind_ok in H. destruct H as (c & PA & H).
  apply bind_ok in H. destruct H as (bs & M & H). injection H as <-. destruct I as [<-|I]; [left; congruence|right; exact (IH bs x b M I P)].
Qed.
Lemma mapM_all : forall A B (p : A -> res B) l r b, mapM p l = Ok r -> In b r -> exists x, In x l /\ p x = Ok b.
Proof.
  induction l as [|a l IH]; intros r b H I; cbn [mapM] in H; [injection H as <-; destruct I|]. apply bind_ok in H. destruct H as (c & PA & H).
  apply bind_ok in H. destruct H as (bs & M & H). injection H as <-. destruct I as [<-|I]; [exists a; split; [left; reflexivity|exact PA]|].
  destruct (IH bs b M I) as (x & X & P). exists x. split; [right; exact X|exact P].
Qed.

Section F.
  Variable f f32 : Q -> Q.
  Notation T := (through_text f).

  Lemma section_in : forall A B (p : json -> res B) (s : A -> json) l k o r x,
    find k o = section_json s l \/ find k o = Some (array_of (map s l)) -> section (T o) k p = Ok r -> In x l -> is_object (s x) = true /\ exists b, p (T (s x)) = Ok b.
  Proof.
    intros A B p s l k o r x F H I. unfold section in H. rewrite find_text in H.
    assert (FF : find k o = Some (JArr (map s l))) by (destruct F as [F|F]; rewrite F; destruct l; [destruct I|reflexivity|destruct I|reflexivity]).
    rewrite FF in H. cbn [option_map through_text] in H.
    destruct (mapM_in _ _ _ _ _ (T (s x)) H) as (b & P); [apply in_map, in_map, I|]. rewrite object_text in P.
    destruct (is_object (s x)); [split; [reflexivity|exists b; exact P]|discriminate].
  Qed.

  (** What was loaded has loaded sections. *)
  Lemma loaded : forall expand fs basedir decode v m, LoadFromString expand fs basedir decode f32 v = Ok m ->
    forallb (has_section v) ["scenes"; "nodes"; "accessors"; "buffers"; "bufferViews"]%string = true /\
    (exists r, section v "buffers" (ParseBuffer expand fs basedir) = Ok r) /\
    (exists r, section v "bufferViews" ParseBufferView = Ok r) /\
    (exists r, section v "accessors" ParseAccessor = Ok r) /\
    (exists r, section v "scenes" ParseScene = Ok r) /\
    (exists r, section v "materials" (fun o => Ok (ParseMaterial o)) = Ok r) /\
    (exists r, section v "skins" ParseSkin = Ok r) /\
    (exists r, section v "cameras" (ParseCamera f32) = Ok r).
  Proof.
    intros expand fs basedir decode v m H. unfold LoadFromString in H. destruct (negb (is_object v)); [discriminate|].
    destruct (forallb (has_section v) _); [|discriminate]. cbn [negb] in H. split; [reflexivity|].
    repeat (apply bind_ok in H; let r := fresh "r" in let E := fresh "E" in destruct H as (r & E & H)).
    repeat split; eexists; eassumption.
  Qed.

  Lemma no_section : forall A (s : A -> json) k o, find k o = section_json s [] \/ find k o = Some (array_of (map s [])) -> has_section (T o) k = false.
  Proof. intros A s k o [H|H]; unfold has_section; rewrite find_text, H; reflexivity. Qed.

  Lemma document_materials : forall bin m j, document bin m = Ok j -> exists js, mapM s_material (materials m) = Ok js.
  Proof.
    intros bin m j H. unfold document in H. cbv zeta in H. apply bind_ok in H. destruct H as (o & H & _).
    destruct (materials m) as [|a l]; [exists []; reflexivity|]. apply bind_ok in H. destruct H as (js & H & _). exists js. exact H.
  Qed.

  Lemma unloadable : forall m expand decode fs fs' fs'' filename j m', broken m -> save fs filename m = Ok (fs', j) ->
    load expand decode f32 fs'' filename (T j) <> Ok m'.
  Proof.
    intros m expand decode fs fs' fs'' filename j m' BR S L. unfold save in S. apply bind_ok in S. destruct S as (j' & D & S). injection S as _ ->.
    destruct (document_materials _ _ _ D) as (js & MJ). assert (ML := mapM_length _ _ _ _ _ MJ).
    destruct (document_contents (string_of_list_ascii (bin_filename filename)) m js MJ ML) as (D' & DD & C). rewrite D in DD. injection DD as <-.
    unfold load in L. apply loaded in L. destruct L as (HS & (r1 & L1) & (r2 & L2) & (r3 & L3) & (r4 & L4) & (r5 & L5) & (r6 & L6) & (r7 & L7)).
    cbn [forallb] in HS. rewrite !andb_true_iff in HS. destruct HS as (HS1 & HS2 & HS3 & HS4 & HS5 & _).
    destruct C as [OB FX F1 F2 F3 F4 F5 F6 F7 F8 F9 F10 F11 F12 F13 F14 F15 F16 F17 F18].
    destruct BR as [E|E|E|E|E|s I E|s I E|c I E1 E2|c I E1 E2|v I E1 E2 E3|a I E|a I E1 E2|a I E|I|b c I1 I2 S1 S2 E].
    - rewrite E in F13. rewrite (no_section _ _ _ _ (or_introl F13)) in HS1. discriminate.
    - rewrite E in F11. rewrite (no_section _ _ _ _ (or_introl F11)) in HS2. discriminate.
    - rewrite E in F1. rewrite (no_section _ _ _ _ (or_intror F1)) in HS3. discriminate.
    - rewrite E in F4. rewrite (no_section _ _ _ _ (or_intror F4)) in HS4. discriminate.
    - rewrite E in F5. rewrite (no_section _ _ _ _ (or_intror F5)) in HS5. discriminate.
    - destruct (section_in _ _ _ _ _ _ _ _ _ (or_introl F13) L4 I) as (_ & b & P). unfold ParseScene in P.
      rewrite (p_ints_of f (sc_nodes s)) in P by (unfold s_scene; look). rewrite E in P. discriminate.
    - destruct (section_in _ _ _ _ _ _ _ _ _ (or_introl F14) L6 I) as (_ & b & P). unfold ParseSkin in P.
      rewrite (p_ints_of f (sk_joints s)) in P by (unfold s_skin; cbv zeta; look). rewrite E in P. discriminate.
    - destruct (section_in _ _ _ _ _ _ _ _ _ (or_introl F17) L7 I) as (_ & b & P). unfold ParseCamera in P.
      assert (FT : find "type" (s_camera c) = Some (JStr (ca_type c))).
      { unfold s_camera. cbv zeta. destruct (String.eqb (ca_type c) "orthographic"); [look|]. destruct (String.eqb (ca_type c) "perspective"); look. }
      rewrite (p_string_of f _ _ _ FT) in P. cbn [required bind] in P.
      destruct (String.eqb_spec (ca_type c) "orthographic"); [contradiction|]. destruct (String.eqb_spec (ca_type c) "perspective"); [contradiction|]. cbn in P. discriminate P.
    - destruct (section_in _ _ _ _ _ _ _ _ _ (or_introl F17) L7 I) as (_ & b & P). unfold ParseCamera in P. unfold s_camera in P. cbv zeta in P. rewrite E1 in P. revert P. keys.
      rewrite (p_string_of f _ _ "perspective") by look. cbn [required bind]. keys. rewrite find_text.
      match goal with |- context [find "perspective" ?o] => replace (find "perspective" o) with (Some (s_perspective (ca_perspective c))) by (symmetry; look) end.
      cbn [option_map]. intros P. apply bind_ok in P. destruct P as (pr & P & _).
      assert (Y : p_number (T (s_perspective (ca_perspective c))) "yfov" = None).
      { apply p_number_none. unfold s_perspective. cbv zeta. unfold positive. apply Qle_bool_iff in E2. rewrite E2. cbn [negb]. look. }
      destruct (T (s_perspective (ca_perspective c))); try discriminate P. apply bind_ok in P. destruct P as (q & P & _). unfold ParsePerspectiveCamera in P. rewrite Y in P. discriminate.
    - destruct (section_in _ _ _ _ _ _ _ _ _ (or_intror F5) L2 I) as (_ & b & P). unfold ParseBufferView in P.
      apply bind_ok in P. destruct P as (q1 & _ & P). apply bind_ok in P. destruct P as (q2 & _ & P). apply bind_ok in P. destruct P as (st & P1 & P).
      assert (FS : find "byteStride" (s_view v) = Some (JInt (vi_stride v))).
      { unfold s_view. cbv zeta. destruct (Z.leb_spec 4 (vi_stride v)); [|lia]. look. }
      unfold p_size in P1. rewrite (p_number_int f _ _ _ FS), to_size_size in P1 by exact E2. injection P1 as <-.
      assert (X : (252 <? vi_stride v) || negb (vi_stride v mod 4 =? 0) = true).
      { destruct E3 as [E3|E3]; [destruct (Z.ltb_spec 252 (vi_stride v)); [reflexivity|lia]|]. destruct (Z.eqb_spec (vi_stride v mod 4) 0); [contradiction|]. rewrite orb_true_r. reflexivity. }
      rewrite X in P. discriminate.
    - destruct (section_in _ _ _ _ _ _ _ _ _ (or_intror F1) L3 I) as (_ & b & P). unfold ParseAccessor in P.
      apply bind_ok in P. destruct P as (q1 & _ & P). cbv zeta in P. apply bind_ok in P. destruct P as (q2 & _ & P). apply bind_ok in P. destruct P as (q3 & _ & P).
      rewrite (p_string_of f _ _ (type_name (ac_type a))) in P by (unfold s_accessor; cbv zeta; look). cbn [required bind] in P.
      apply bind_ok in P. destruct P as (t & P & _). apply E. clear -P. unfold type_name in P.
      repeat match type of P with context [?x =? ?y] => destruct (Z.eqb_spec x y) as [K|K]; [rewrite K; cbn; tauto|clear K] end. vm_compute in P. discriminate P.
    - destruct (section_in _ _ _ _ _ _ _ _ _ (or_intror F1) L3 I) as (_ & b & P). unfold ParseAccessor in P.
      apply bind_ok in P. destruct P as (q1 & _ & P). cbv zeta in P.
      rewrite (p_number_int f "componentType" _ (ac_component a)) in P by (unfold s_accessor; cbv zeta; look). cbn [required bind] in P.
      apply bind_ok in P. destruct P as (q3 & _ & P). apply bind_ok in P. destruct P as (q4 & _ & P). apply bind_ok in P. destruct P as (q5 & _ & P).
      apply bind_ok in P. destruct P as (q6 & _ & P). apply bind_ok in P. destruct P as (q7 & _ & P). apply bind_ok in P. destruct P as (q8 & _ & P).
      rewrite to_int_int in P by exact E1. cbn [bind] in P.
      destruct (Z.leb_spec 5120 (ac_component a)); destruct (Z.leb_spec (ac_component a) 5130); try discriminate P. lia.
    - destruct (section_in _ _ _ _ _ _ _ _ _ (or_intror F1) L3 I) as (_ & b & P). unfold ParseAccessor in P.
      apply bind_ok in P. destruct P as (q1 & _ & P). cbv zeta in P.
      apply bind_ok in P. destruct P as (q2 & _ & P). apply bind_ok in P. destruct P as (q3 & _ & P). apply bind_ok in P. destruct P as (q4 & _ & P).
      apply bind_ok in P. destruct P as (q5 & _ & P). apply bind_ok in P. destruct P as (q6 & _ & P). apply bind_ok in P. destruct P as (q7 & _ & P).
      apply bind_ok in P. destruct P as (q8 & P & _).
      assert (FO : find "byteOffset" (s_accessor a) = Some (JInt (wrap32 (ac_offset a)))).
      { unfold s_accessor. cbv zeta. destruct (Z.eqb_spec (ac_offset a) 0); [lia|]. look. }
      assert (W : wrap32 (ac_offset a) = ac_offset a - 4294967296).
      { unfold wrap32. replace (ac_offset a + 2147483648) with (ac_offset a - 2147483648 + 1 * 4294967296) by ring. rewrite Z.mod_add, Z.mod_small by lia. ring. }
      unfold p_size in P. rewrite (p_number_int f _ _ _ FO), W in P. unfold to_size in P. rewrite to_double_int, trunc_int in P by (apply int_abs; unfold int; lia).
      cbv zeta in P. destruct (Z.leb_spec 0 (ac_offset a - 4294967296)); [lia|]. discriminate.
    - assert (IN : In JNull js) by (apply (mapM_out _ _ s_material (materials m) js _ _ MJ I); reflexivity).
      assert (F9' : find "materials" j = section_json (fun x => x) js) by (rewrite F9; unfold section_json; rewrite map_id; reflexivity).
      destruct (section_in _ _ _ _ _ _ _ _ _ (or_introl F9') L5 IN) as (O & _). discriminate.
    - destruct (section_in _ _ _ _ _ _ _ _ _ (or_intror F4) L1 I1) as (_ & x & P1).
      destruct (section_in _ _ _ _ _ _ _ _ _ (or_intror F4) L1 I2) as (_ & y & P2).
      assert (K : forall b x, size (Z.of_nat (List.length (bu_data b))) ->
        ParseBuffer expand fs'' (GetBaseDir filename) (T (s_buffer (string_of_list_ascii (bin_filename filename)) b)) = Ok x ->
        exists d, Uri.Model.ParseBuffer expand false fs'' (GetBaseDir filename) (Z.of_nat (List.length (bu_data b))) (bin_filename filename) = Ok d).
      { clear. intros b x S P. unfold ParseBuffer, s_buffer in P. cbv zeta in P.
        rewrite (p_number_int f _ _ (Z.of_nat (List.length (bu_data b)))) in P by look. cbn [required bind] in P.
        rewrite (p_string_of f "uri" _ (string_of_list_ascii (bin_filename filename))) in P by look. cbn [or_default] in P. rewrite to_size_size in P by exact S. cbn [bind] in P.
        rewrite list_ascii_of_string_of_list_ascii in P. apply bind_ok in P. destruct P as (d & P & _). exists d. exact P. }
      destruct (K _ _ S1 P1) as (d1 & K1). destruct (K _ _ S2 P2) as (d2 & K2). apply E. clear -K1 K2.
      unfold Uri.Model.ParseBuffer in *. destruct (IsDataURI (bin_filename filename)).
      + apply bind_ok in K1. destruct K1 as ([m1 e1] & K1 & _). apply bind_ok in K2. destruct K2 as ([m2 e2] & K2 & _). unfold DecodeDataURI in *.
        match type of K1 with context [fold_left ?a ?b ?c] => destruct (fold_left a b c) as [mime data] end. destruct data as [|z data]; [discriminate|].
        destruct (Z.eqb_spec (Z.of_nat (List.length (z :: data))) (Z.of_nat (List.length (bu_data b)))); [|discriminate].
        destruct (Z.eqb_spec (Z.of_nat (List.length (z :: data))) (Z.of_nat (List.length (bu_data c)))); [|discriminate]. lia.
      + unfold LoadExternalFile in *. cbv zeta in K1, K2. destruct (FindFile expand fs'' [GetBaseDir filename; lit "."] (bin_filename filename)) as [|p path]; [discriminate|].
        destruct (bin_filename filename) as [|u uri]; [discriminate|]. destruct (fs'' (p :: path)) as [[|z data]|]; try discriminate.
        destruct (Z.eqb_spec (Z.of_nat (List.length (z :: data))) (Z.of_nat (List.length (bu_data b)))); [|discriminate].
        destruct (Z.eqb_spec (Z.of_nat (List.length (z :: data))) (Z.of_nat (List.length (bu_data c)))); [|discriminate]. lia.
  Qed.
End F.
