(** The document of a model holds the numbers and strings of the model. *)
From Coq Require Import List Bool ZArith QArith Qabs Ascii String Lia Sorting.Sorted.
From Verif.Base Require Import Py.
From Verif.Round Require Import Spec.
From Verif.Json Require Import Spec.
From Verif.Json Require Import Model.
From Verif.Doc Require Import Model Facts.
From Verif.Doc Require Import Spec.
From Verif.Text Require Import Model Spec Strings.
Import ListNotations.
Local Open Scope Z_scope.

Section Atoms.
  Variable num : Q -> Prop.
  Variable str : string -> Prop.
  Variable plain_str : forall s, forallb (fun c => code c <? 128) (list_ascii_of_string s) = true -> str s.
  Fixpoint fine (j : json) : Prop :=
    match j with
    | JInt z => int65 z
    | JNum q => num q
    | JStr s => str s
    | JArr l => fold_right (fun x P => fine x /\ P) True l
    | JObj o => ordered o /\ fold_right (fun m P => (str (fst m) /\ fine (snd m)) /\ P) True o
    | _ => True
    end.
  Lemma fold_forall : forall A (P : A -> Prop) l, fold_right (fun x X => P x /\ X) True l <-> Forall P l.
  Proof.
    intros A P l. induction l as [|x l IH]; cbn [fold_right]; [split; [constructor|exact (fun _ => Logic.I)]|]. rewrite IH. split.
    - intros []. constructor; assumption.
    - intros H. inversion H; subst. split; assumption.
  Qed.
  Lemma fine_arr : forall l, fine (JArr l) <-> Forall fine l.
  Proof. intros l. apply fold_forall. Qed.
  Lemma fine_obj : forall o, fine (JObj o) <-> ordered o /\ Forall (fun m => str (fst m) /\ fine (snd m)) o.
  Proof. intros o. cbn [fine]. rewrite (fold_forall _ (fun m => str (fst m) /\ fine (snd m))). reflexivity. Qed.
  Lemma in_put : forall A k (v : A) m x, In x (put k v m) -> x = (k, v) \/ In x m.
  Proof.
    intros A k v m x. induction m as [|[y w] m IH]; cbn [put]; [intros [<-|[]]; auto|].
    destruct (String.compare k y); cbn [In]; intuition.
  Qed.
  Lemma fine_set : forall k j o, str k -> fine j -> fine o -> fine (set k j o).
  Proof.
    intros k j o K J O.
    assert (A : fine (JObj [(k, j)])) by (apply fine_obj; split; [repeat constructor|constructor; [split; assumption|constructor]]).
    destruct o; try exact A. cbn [set]. apply fine_obj in O. destruct O as [O F]. apply fine_obj. split; [apply ordered_put, O|].
    rewrite Forall_forall in *. intros x X. apply in_put in X. destruct X as [->|X]; [split; assumption|apply F, X].
  Qed.
  Lemma fine_set_lit : forall k j o, forallb (fun c => code c <? 128) (list_ascii_of_string k) = true -> fine j -> fine o -> fine (set k j o).
  Proof. intros k j o K. apply fine_set, plain_str, K. Qed.
  Lemma fine_push : forall j o, fine j -> fine o -> fine (push j o).
  Proof.
    intros j o J O. assert (A : fine (JArr [j])) by (apply fine_arr; constructor; [exact J|constructor]).
    destruct o; try exact A. cbn [push]. apply fine_arr in O. apply fine_arr. apply Forall_app. split; [exact O|constructor; [exact J|constructor]].
  Qed.
  Lemma fine_array : forall l, Forall fine l -> fine (array_of l).
  Proof. intros [|x l] H; [exact Logic.I|]. apply fine_arr, H. Qed.
  Lemma fine_numbers : forall k l o, forallb (fun c => code c <? 128) (list_ascii_of_string k) = true -> Forall fine l -> fine o -> fine (s_numbers k l o).
  Proof. intros k l o K L O. unfold s_numbers. destruct l; [exact O|]. apply fine_set_lit; [exact K|apply fine_array, L|exact O]. Qed.
  Lemma fine_doubles : forall l, Forall num l -> Forall fine (doubles l).
  Proof. intros l L. unfold doubles. rewrite Forall_map. exact L. Qed.
  Lemma int_fits : forall z, int z -> int65 z.
  Proof. unfold int, int65. intros z Z. lia. Qed.
  Lemma size_fits : forall z, size z -> int65 z.
  Proof. unfold size, int65. intros z Z. lia. Qed.
  Lemma fine_ints : forall l, Forall int l -> Forall fine (ints l).
  Proof. intros l L. unfold ints. rewrite Forall_map. eapply Forall_impl; [|exact L]. apply int_fits. Qed.
  Lemma fine_name : forall k s o, forallb (fun c => code c <? 128) (list_ascii_of_string k) = true -> str s -> fine o -> fine (s_name k s o).
  Proof. intros k s o K S O. unfold s_name. destruct (String.eqb s ""); [exact O|]. apply fine_set_lit; assumption. Qed.

  Fixpoint ints_ok (v : value) : Prop :=
    match v with
    | VInt z => int z
    | VArray l => fold_right (fun x P => ints_ok x /\ P) True l
    | VObject l => fold_right (fun kx P => ints_ok (snd kx) /\ P) True l
    | _ => True
    end.
  Lemma solid_ints : forall v, solid v -> ints_ok v.
  Proof.
    fix IH 1. intros [| | | | |l| |l] S; try exact Logic.I; try exact S.
    - destruct S as [_ S]. cbn [ints_ok]. revert S. induction l as [|x l IL]; cbn [fold_right]; [trivial|]. intros [A B]. split; [apply IH, A|apply IL, B].
    - destruct S as (_ & _ & S). cbn [ints_ok]. revert S. induction l as [|x l IL]; cbn [fold_right]; [trivial|]. intros [A B]. split; [apply IH, A|apply IL, B].
  Qed.
  Lemma extras_ints : forall v, extras_ok v -> ints_ok v.
  Proof. intros v [->|S]; [exact Logic.I|apply solid_ints, S]. Qed.
  Lemma fine_value : forall v j, of_value num str v -> ints_ok v -> to_json v = Some j -> fine j.
  Proof.
    fix IH 1. intros [|q|z|b|s|l|l|l] j A I E; cbn [to_json] in E; try discriminate; try (injection E as <-).
    - exact A.
    - apply int_fits, I.
    - exact Logic.I.
    - exact A.
    - cbn [of_value ints_ok] in A, I. generalize (Logic.I : fine JNull). generalize JNull. revert A I. induction l as [|x l IL]; intros A I o O; [exact O|].
      cbn [fold_right] in A, I. destruct A as [A1 A2], I as [I1 I2]. cbn [map fold_left]. apply IL; [exact A2|exact I2|]. destruct (to_json x) as [j|] eqn:X; [|exact O].
      apply fine_push; [apply (IH x j A1 I1 X)|exact O].
    - cbn [of_value ints_ok] in A, I. generalize (Logic.I : fine JNull). generalize JNull. revert A I. induction l as [|x l IL]; intros A I o O; [exact O|].
      cbn [fold_right] in A, I. destruct A as (K & A1 & A2), I as [I1 I2]. cbn [map fold_left fst snd]. apply IL; [exact A2|exact I2|]. destruct (to_json (snd x)) as [j|] eqn:X; [|exact O].
      apply fine_set; [exact K|apply (IH (snd x) j A1 I1 X)|exact O].
  Qed.
  Lemma fine_s_value : forall k v o, str k -> of_value num str v -> ints_ok v -> fine o -> fine (s_value k v o).
  Proof. intros k v o K A I O. unfold s_value. destruct (to_json v) as [j|] eqn:E; [|exact O]. apply fine_set; [exact K|apply (fine_value v j A I E)|exact O]. Qed.
  Lemma fine_extras : forall v o, of_value num str v -> extras_ok v -> fine o -> fine (s_extras v o).
  Proof. intros v o A I O. unfold s_extras. destruct (is_null v); [exact O|]. apply fine_s_value; [apply plain_str; reflexivity|exact A|apply extras_ints, I|exact O]. Qed.
  Lemma fine_extensions : forall m o, of_map num str m -> extensions_ok m -> fine o -> fine (s_extensions m o).
  Proof.
    intros m o A [_ S] O. unfold s_extensions. destruct m as [|x l]; [exact O|]. apply fine_set_lit; [reflexivity| |exact O].
    generalize (Logic.I : fine JNull). generalize JNull. revert A S. generalize (x :: l). clear x l. intros l. induction l as [|[k v] l IL]; intros A S e E; [exact E|].
    inversion A as [|? ? [K V] A']; inversion S as [|? ? [SV _] S']; subst. cbn [fold_left fst snd]. apply IL; [exact A'|exact S'|]. apply fine_s_value; [exact K|exact V|apply solid_ints, SV|exact E].
  Qed.
  Lemma to_int_fits : forall q z, to_int q = Ok z -> int z.
  Proof.
    intros q z H. unfold to_int in H. destruct (in_int (trunc q)) eqn:E; [|discriminate]. injection H as <-. unfold in_int in E. apply andb_true_iff in E. unfold int. lia.
  Qed.
  Lemma fine_parameter : forall p j, of_parameter num str p -> s_parameter p = Ok j -> fine j.
  Proof.
    intros p j (S & A & D & N) E. unfold s_parameter in E. destruct (number_array p) as [|q qs] eqn:NA.
    - destruct (json_double_value p) as [|x l] eqn:JD.
      + destruct (negb (String.eqb (string_value p) "")); [injection E as <-; exact S|]. destruct (has_number_value p).
        * destruct (number_value p) as [q|]; [|discriminate]. injection E as <-. apply N. reflexivity.
        * destruct (bool_value p); [|discriminate]. injection E as <-. exact Logic.I.
      + assert (G : forall i, TextureIndex p = Ok i -> int65 i).
        { intros i H. unfold TextureIndex in H. destruct (get "index" (json_double_value p)); [apply int_fits, (to_int_fits _ _ H)|]. injection H as <-. unfold int65. lia. }
        revert E. generalize (Logic.I : fine JNull). generalize JNull. revert D. generalize (x :: l). clear x l JD. intros l. induction l as [|[k q] l IL]; intros D o O E; [injection E as <-; exact O|].
        inversion D as [|? ? [K V] D']; subst. cbn [foldM fst snd] in E. cbn [fst snd] in K, V. destruct (String.eqb k "index").
        * destruct (TextureIndex p) as [i|]; [|discriminate]. cbn [bind] in E. apply (IL D' _ (fine_set _ _ _ K (G i eq_refl : fine (JInt i)) O) E).
        * cbn [bind] in E. apply (IL D' _ (fine_set _ (JNum q) _ K V O) E).
    - injection E as <-. apply fine_arr. exact (fine_doubles (q :: qs) A).
  Qed.
  Lemma fine_parameters : forall m o j, of_parameters num str m -> fine o -> s_parameters m o = Ok j -> fine j.
  Proof.
    intros m. induction m as [|[k p] m IH]; intros o j A O E; [injection E as <-; exact O|]. inversion A as [|? ? [K P] A']; subst. unfold s_parameters in E. cbn [foldM fst snd] in *.
    destruct (s_parameter p) as [x|] eqn:X; [|discriminate]. cbn [bind] in E. apply (IH (set k x o) j A'); [apply fine_set; [exact K|apply (fine_parameter p x P X)|exact O]|exact E].
  Qed.
  Lemma wrap_int : forall z, int (wrap32 z).
  Proof. intros z. unfold wrap32, int. assert (H := Z.mod_pos_bound (z + 2147483648) 4294967296 ltac:(lia)). lia. Qed.

  Ltac fin := repeat first
    [ assumption | exact Logic.I | apply fine_set_lit; [reflexivity| |] | apply fine_numbers; [reflexivity| |] | apply fine_doubles
    | apply fine_ints | apply fine_name; [reflexivity| |] | apply fine_extras | apply fine_extensions | apply fine_array
    | match goal with
      | |- fine (JInt _) => change int65 with int65; cbn [fine]; first [apply int_fits; assumption | apply size_fits; assumption | apply int_fits, wrap_int | unfold int65, int, size in *; lia]
      | |- fine (JStr _) => cbn [fine]
      | |- fine (JNum _) => cbn [fine]
      | |- fine (if ?b then _ else _) => destruct b eqn:?
      end ].
  Lemma fine_type : forall t, str (type_name t).
  Proof. intros t. unfold type_name. repeat match goal with |- context [if ?b then _ else _] => destruct b end; apply plain_str; reflexivity. Qed.
  Lemma fine_accessor : forall a, accessor_ok a -> Forall num (ac_min a ++ ac_max a) /\ of_value num str (ac_extras a) -> fine (s_accessor a).
  Proof. intros a (V & O & C & N & T & E) [Q X]. apply Forall_app in Q. destruct Q. unfold s_accessor. cbv zeta. fin. apply fine_type. Qed.
  Lemma fine_channel : forall c, channel_ok c -> str (ch_path c) /\ of_value num str (ch_extras c) -> fine (s_channel c).
  Proof. intros c (S & N & E) [P X]. unfold s_channel. cbv zeta. fin. Qed.
  Lemma fine_asampler : forall s, asampler_ok s -> str (as_interpolation s) /\ of_value num str (as_extras s) -> fine (s_asampler s).
  Proof. intros s (I & O & E) [P X]. unfold s_asampler. cbv zeta. fin. Qed.
  Lemma fine_map : forall A (s : A -> json) (P R : A -> Prop) l, (forall x, P x -> R x -> fine (s x)) -> Forall P l -> Forall R l -> Forall fine (map s l).
  Proof. intros A s P R l H F G. rewrite Forall_map. rewrite Forall_forall in *. intros x X. apply H; [apply F, X|apply G, X]. Qed.
  Definition a_parts (a : animation) : Prop := str (an_name a) /\ of_value num str (an_extras a) /\
      Forall (fun c => str (ch_path c) /\ of_value num str (ch_extras c)) (an_channels a) /\
      Forall (fun s => str (as_interpolation s) /\ of_value num str (as_extras s)) (an_samplers a).
  Lemma fine_animation : forall a, animation_ok a -> a_parts a -> fine (s_animation a).
  Proof.
    intros a (C & S & E) (N & X & PC & PS). unfold s_animation. cbv zeta. fin.
    - exact (fine_map _ _ _ _ _ fine_asampler S PS).
    - exact (fine_map _ _ _ _ _ fine_channel C PC).
  Qed.
  Lemma fine_asset : forall a, asset_ok a -> str (at_generator a) /\ str (at_version a) /\ of_map num str (at_extensions a) /\ of_value num str (at_extras a) -> fine (s_asset a).
  Proof.
    intros a (X & E) (G & V & M & W). unfold s_asset. cbv zeta. fin. apply fine_s_value; [apply plain_str; reflexivity|exact W|apply extras_ints, E|]. fin.
  Qed.
  Lemma fine_buffer : forall bin b, str bin -> buffer_ok b -> str (bu_name b) /\ of_value num str (bu_extras b) -> fine (s_buffer bin b).
  Proof. intros bin b B (_ & L & E) [N X]. unfold s_buffer. cbv zeta. fin. Qed.
  Lemma fine_view : forall v, view_ok v -> str (vi_name v) /\ of_value num str (vi_extras v) -> fine (s_view v).
  Proof.
    intros v (B & L & O & S & E) [N X]. unfold stride_ok in S.
    assert (T : (vi_target v =? 34962) || (vi_target v =? 34963) = true -> int (vi_target v)) by (intros H; unfold int; lia).
    unfold s_view. cbv zeta. fin. all: try (cbn [fine]; apply int_fits, T; assumption).
  Qed.
  Lemma fine_image : forall i, image_ok i -> str (im_name i) /\ str (im_uri i) /\ of_value num str (im_extras i) -> fine (s_image i).
  Proof. intros i E (N & U & X). unfold s_image. fin. Qed.
  Lemma fine_material : forall t j, material_ok t -> str (ma_name t) /\ of_parameters num str (ma_values t) /\ of_parameters num str (ma_additional t) /\
      of_map num str (ma_extensions t) /\ of_value num str (ma_extras t) -> s_material t = Ok j -> fine j.
  Proof.
    intros t j (_ & _ & _ & _ & XE & E) (N & PV & PA & M & X) H. unfold s_material in H. cbv zeta in H.
    set (o1 := s_extensions (ma_extensions t) _) in H.
    assert (O1 : fine o1). { subst o1. fin. apply fine_s_value; [apply plain_str; reflexivity|exact X|apply extras_ints, E|exact Logic.I]. }
    clearbody o1.
    assert (O2 : forall o2, (match ma_values t with [] => Ok o1 | _ => let* p := s_parameters (ma_values t) JNull in Ok (set "pbrMetallicRoughness" p o1) end) = Ok o2 -> fine o2).
    { intros o2 G. destruct (ma_values t); [injection G as <-; exact O1|]. destruct (s_parameters (_ :: _) JNull) as [p0|] eqn:SP; [|discriminate]. injection G as <-.
      apply fine_set_lit; [reflexivity|apply (fine_parameters _ _ _ PV (Logic.I : fine JNull) SP)|exact O1]. }
    destruct (match ma_values t with [] => Ok o1 | _ => _ end) as [o2|]; [|discriminate]. cbn [bind] in H. specialize (O2 o2 eq_refl).
    destruct (s_parameters (ma_additional t) o2) as [o3|] eqn:SP; [|discriminate]. injection H as <-. fin. apply (fine_parameters _ _ _ PA O2 SP).
  Qed.
  Lemma fine_s_ints : forall m, of_ints str m -> Forall (fun kz => int (snd kz)) m -> fine (s_ints m).
  Proof.
    intros m. unfold s_ints. generalize (Logic.I : fine JNull). generalize JNull. induction m as [|[k z] m IH]; intros o O A I; [exact O|]. inversion A; inversion I; subst. cbn [fold_left fst snd] in *.
    apply IH; [|assumption|assumption]. apply fine_set; [assumption|apply int_fits; assumption|exact O].
  Qed.
  Lemma fine_primitive : forall p, primitive_ok p -> of_primitive num str p -> fine (s_primitive p).
  Proof.
    intros p (_ & _ & AI & MA & IN & MO & T & E) (A & TA & X). unfold s_primitive. cbv zeta. apply fine_extras; [exact X|exact E|].
    assert (O : fine (set "mode" (JInt (pr_mode p)) (let o := set "attributes" (s_ints (pr_attributes p)) JNull in
      let o := if -1 <? pr_indices p then set "indices" (JInt (pr_indices p)) o else o in if -1 <? pr_material p then set "material" (JInt (pr_material p)) o else o))).
    { cbv zeta. fin; apply fine_s_ints; assumption. }
    destruct (pr_targets p) as [|t l]; [exact O|]. apply fine_set_lit; [reflexivity| |exact O]. apply fine_array.
    eapply (fine_map _ s_ints (of_ints str)); [|exact TA|exact T]. intros x XA [_ XI]. apply fine_s_ints; assumption.
  Qed.
  Lemma fine_mesh : forall e, mesh_ok e -> str (me_name e) /\ Forall (of_primitive num str) (me_primitives e) /\ Forall num (me_weights e) /\ of_value num str (me_extras e) -> fine (s_mesh e).
  Proof. intros e (P & E) (N & A & W & X). unfold s_mesh. cbv zeta. fin. exact (fine_map _ _ _ _ _ fine_primitive P A). Qed.
  Lemma fine_light : forall l, str (li_name l) /\ str (li_type l) /\ Forall num (li_color l) -> fine (s_light l).
  Proof. intros l (N & T & C). unfold s_light. fin. Qed.
  Lemma fine_index : forall k z o, forallb (fun c => code c <? 128) (list_ascii_of_string k) = true -> int z -> fine o -> fine (s_index k z o).
  Proof. intros k z o K Z O. unfold s_index. destruct (z =? -1); [exact O|]. apply fine_set_lit; [exact K|apply int_fits, Z|exact O]. Qed.
  Lemma fine_node : forall n, node_ok n -> str (no_name n) /\ Forall num (no_rotation n ++ no_scale n ++ no_translation n ++ no_matrix n) /\
      of_map num str (no_extensions n) /\ of_value num str (no_extras n) -> fine (s_node n).
  Proof.
    intros n (C & S & M & CH & X & E) (N & Q & XM & EV). rewrite !Forall_app in Q. destruct Q as (Q1 & Q2 & Q3 & Q4). unfold s_node. cbv zeta.
    fin. repeat (apply fine_index; [reflexivity|assumption|]). fin.
  Qed.
  Lemma fine_sampler : forall s, sampler_ok s -> of_value num str (sa_extras s) -> fine (s_sampler s).
  Proof. intros s (A & B & C & D & E) X. unfold s_sampler. cbv zeta. fin. Qed.
  Lemma fine_camera : forall c, camera_ok c -> str (ca_type c) /\ of_orthographic num str (ca_orthographic c) /\ of_perspective num str (ca_perspective c) -> fine (s_camera c).
  Proof.
    intros c K (T & (QO & XO) & (QP & XP)).
    inversion QO as [|? ? O1 QO']; inversion QO' as [|? ? O2 QO'']; inversion QO'' as [|? ? O3 QO3]; inversion QO3 as [|? ? O4 _]; subst.
    inversion QP as [|? ? P1 QP']; inversion QP' as [|? ? P2 QP'']; inversion QP'' as [|? ? P3 QP3]; inversion QP3 as [|? ? P4 _]; subst.
    unfold s_camera. cbv zeta. destruct K as [[-> E]|(-> & _ & E)].
    - change (String.eqb "orthographic" "orthographic") with true. cbv iota. unfold s_orthographic. cbv zeta. fin; apply plain_str; reflexivity.
    - change (String.eqb "perspective" "orthographic") with false. change (String.eqb "perspective" "perspective") with true. cbv iota. unfold s_perspective. cbv zeta. fin; apply plain_str; reflexivity.
  Qed.
  Lemma fine_scene : forall s, scene_ok s -> str (sc_name s) /\ of_map num str (sc_extensions s) /\ of_value num str (sc_extras s) -> fine (s_scene s).
  Proof. intros s (_ & N & X & E) (S & M & V). unfold s_scene. fin. Qed.
  Lemma fine_skin : forall s, skin_ok s -> str (sk_name s) -> fine (s_skin s).
  Proof. intros s (_ & J & K & M) N. unfold s_skin. cbv zeta. fin. apply fine_index; [reflexivity|exact M|exact Logic.I]. Qed.
  Lemma fine_texture : forall t, texture_ok t -> of_map num str (te_extensions t) /\ of_value num str (te_extras t) -> fine (s_texture t).
  Proof. intros t (S & O & X & E) (M & V). unfold s_texture. cbv zeta. fin. Qed.

  Lemma fine_section : forall A k (s : A -> json) l o, forallb (fun c => code c <? 128) (list_ascii_of_string k) = true -> Forall fine (map s l) -> fine o -> fine (s_section k s l o).
  Proof. intros A k s l o K F O. unfold s_section. destruct l; [exact O|]. apply fine_set_lit; [exact K|apply fine_array, F|exact O]. Qed.
  Lemma fine_find : forall k o j, fine o -> find k o = Some j -> fine j.
  Proof.
    intros k o j O F. destruct o as [| | | | | |o]; try discriminate. cbn [find] in F. apply fine_obj in O. destruct O as [_ O]. revert F. induction O as [|[x v] o [_ V] O IH]; [discriminate|].
    cbn [get]. destruct (String.eqb x k); [intros E; injection E as <-; exact V|exact IH].
  Qed.
  Theorem fine_document : forall bin m j, model_ok m -> of_model num str m -> str bin -> Doc.Model.document bin m = Ok j -> fine j.
  Proof.
    intros bin m j M A B E. destruct M, A. unfold Doc.Model.document in E. cbv zeta in E.
    destruct ok_buffer as (b & EB & OB).
    match type of E with bind (match materials m with [] => Ok ?x | _ => _ end) _ = _ => set (o1 := x) in E end.
    assert (O1 : fine o1).
    { subst o1. apply fine_section; [reflexivity|exact (fine_map _ _ _ _ _ fine_image ok_images of_images)|].
      apply Forall_app in of_names. destruct of_names as [U R].
      apply fine_section; [reflexivity|rewrite Forall_map; exact R|]. apply fine_section; [reflexivity|rewrite Forall_map; exact U|].
      apply fine_set_lit; [reflexivity|apply fine_array; exact (fine_map _ _ _ _ _ fine_view (proj2 ok_views) of_views)|].
      apply fine_set_lit; [reflexivity|apply fine_array; rewrite EB in *; inversion of_buffers; subst; constructor; [apply fine_buffer; assumption|constructor]|].
      apply fine_set_lit; [reflexivity|apply fine_asset; assumption|].
      assert (O0 : fine (set "accessors" (array_of (map s_accessor (accessors m))) JNull)).
      { apply fine_set_lit; [reflexivity|apply fine_array; exact (fine_map _ _ _ _ _ fine_accessor (proj2 ok_accessors) of_accessors)|exact Logic.I]. }
      destruct (animations m) as [|x l] eqn:AN; [exact O0|]. apply fine_set_lit; [reflexivity| |exact O0]. apply fine_array.
      rewrite Forall_map. rewrite Forall_forall in *. intros y Y. apply filter_In in Y. destruct Y as [Y _]. apply fine_animation; [apply ok_animations, Y|apply of_animations, Y]. }
    clearbody o1.
    assert (O2 : forall o2, (match materials m with [] => Ok o1 | l => let* js := mapM s_material l in Ok (set "materials" (array_of js) o1) end) = Ok o2 -> fine o2).
    { clear E. intros o2 G. destruct (materials m) as [|x l]; [injection G as <-; exact O1|]. destruct (mapM s_material (x :: l)) as [js|] eqn:MM; [|discriminate]. injection G as <-.
      apply fine_set_lit; [reflexivity| |exact O1]. apply fine_array. revert js MM. revert ok_materials of_materials. generalize (x :: l). clear x l. intros l. induction l as [|x l IL]; intros K P js MM; [injection MM as <-; constructor|].
      inversion K; inversion P; subst. cbn [mapM] in MM. destruct (s_material x) as [jx|] eqn:SX; [|discriminate]. cbn [bind] in MM. destruct (mapM s_material l) as [jl|] eqn:ML; [|discriminate]. injection MM as <-.
      constructor; [apply (fine_material x jx); assumption|apply IL; [assumption|assumption|reflexivity]]. }
    destruct (match materials m with [] => Ok o1 | _ => _ end) as [o2|]; [|discriminate]. cbn [bind] in E. specialize (O2 o2 eq_refl). injection E as <-.
    apply fine_extras; [assumption|assumption|].
    set (o3 := s_extensions (extensions m) _).
    assert (O3 : fine o3).
    { subst o3. apply fine_extensions; [assumption|apply ok_extensions|].
      apply fine_section; [reflexivity|exact (fine_map _ _ _ _ _ fine_camera ok_cameras of_cameras)|].
      apply fine_section; [reflexivity|exact (fine_map _ _ _ _ _ fine_sampler ok_samplers of_samplers)|].
      apply fine_section; [reflexivity|exact (fine_map _ _ _ _ _ fine_texture ok_textures of_textures)|].
      apply fine_section; [reflexivity|exact (fine_map _ _ _ _ _ fine_skin ok_skins of_skins)|].
      apply fine_section; [reflexivity|exact (fine_map _ _ _ _ _ fine_scene (proj2 ok_scenes) of_scenes)|].
      assert (ON : fine (s_section "nodes" s_node (nodes m) (s_section "meshes" s_mesh (meshes m) o2))).
      { apply fine_section; [reflexivity|exact (fine_map _ _ _ _ _ fine_node (proj2 ok_nodes) of_nodes)|]. apply fine_section; [reflexivity|exact (fine_map _ _ _ _ _ fine_mesh ok_meshes of_meshes)|]. exact O2. }
      destruct (-1 <? default_scene m); [|exact ON]. apply fine_set_lit; [reflexivity|apply int_fits; assumption|exact ON]. }
    clearbody o3. destruct (lights m) as [|x l] eqn:LI; [exact O3|]. apply fine_set_lit; [reflexivity| |exact O3]. apply fine_set_lit; [reflexivity| |].
    - change (fine (set "lights" (array_of (map s_light (x :: l))) JNull)). apply fine_set_lit; [reflexivity| |exact Logic.I]. apply fine_array. rewrite Forall_map. eapply Forall_impl; [|exact of_lights]. apply fine_light.
    - destruct (find "extensions" o3) as [e|] eqn:F; [apply (fine_find _ _ _ O3 F)|exact Logic.I].
  Qed.
End Atoms.
