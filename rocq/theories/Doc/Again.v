(** Saving and loading a second time. *)
From Coq Require Import List Bool ZArith QArith Qreduction Ascii String Sorted Lia Lqa.
From Verif.Base Require Import Py.
From Verif.Doc Require Import Model Spec Facts Parts Materials Whole.
Import ListNotations.
Local Open Scope Z_scope.
Local Arguments after_map f m : simpl never.
Local Arguments after_value f v : simpl nomatch.

Lemma put_put : forall A k (v w : A) m, put k v (put k w m) = put k v m.
Proof.
  induction m as [|[x u] m IH]; cbn [put]; [rewrite compare_refl; reflexivity|]. destruct (String.compare k x) eqn:C; cbn [put].
  - rewrite compare_refl. reflexivity.
  - rewrite compare_refl. reflexivity.
  - rewrite C, IH. reflexivity.
Qed.
Lemma map_fix : forall A (g : A -> A) (P : A -> Prop) l, (forall x, P x -> g x = x) -> Forall P l -> map g l = l.
Proof. intros A g P l H F. induction F as [|x l K F IH]; [reflexivity|]. cbn. rewrite (H x K), IH. reflexivity. Qed.
Lemma map_again : forall A (g : A -> A) (P : A -> Prop) l, (forall x, P x -> g (g x) = g x) -> Forall P l -> map g (map g l) = map g l.
Proof. intros A g P l H F. rewrite map_map. induction F as [|x l K F IH]; [reflexivity|]. cbn. rewrite (H x K), IH. reflexivity. Qed.
Lemma Forall_again : forall A (g : A -> A) (P : A -> Prop) l, (forall x, P x -> P (g x)) -> Forall P l -> Forall P (map g l).
Proof. intros A g P l H F. rewrite Forall_map. eapply Forall_impl; [|exact F]. exact H. Qed.

Section F.
  Variable f f32 : Q -> Q.
  Hypothesis ST : stable f f32.

  Lemma doubles_again : forall l, map f (map f l) = map f l.
  Proof. intros l. rewrite map_map. apply map_ext. apply (again_double _ _ ST). Qed.
  Lemma value_again : forall v, after_value f (after_value f v) = after_value f v.
  Proof.
    induction v as [| | | | |l IH| |l IH] using value_ind2; cbn [after_value]; try reflexivity.
    - rewrite (again_double _ _ ST). reflexivity.
    - f_equal. rewrite map_map. apply map_ext_in. intros x I. rewrite Forall_forall in IH. exact (IH x I).
    - f_equal. rewrite map_map. apply map_ext_in. intros x I. rewrite Forall_forall in IH. cbn. rewrite (IH x I). reflexivity.
  Qed.
  Lemma solid_after : forall v, solid v -> solid (after_value f v).
  Proof.
    induction v as [| | | | |l IH| |l IH] using value_ind2; cbn [after_value]; intros S; try exact S.
    - cbn [solid] in *. destruct S as [N S]. rewrite fold_and in *. split; [destruct l; [contradiction|discriminate]|].
      rewrite Forall_map. rewrite Forall_forall in *. intros x I. exact (IH x I (S x I)).
    - cbn [solid] in *. destruct S as (N & O & S). rewrite (fold_and _ (fun kx => solid (snd kx))) in *. split; [destruct l; [contradiction|discriminate]|]. split.
      + exact (ordered_map _ _ (fun _ => after_value f) _ O).
      + rewrite Forall_map. rewrite Forall_forall in *. intros x I. exact (IH x I (S x I)).
  Qed.
  Lemma extras_after : forall e, extras_ok e -> extras_ok (after_value f e).
  Proof. intros e [->|S]; [left; reflexivity|right; apply solid_after, S]. Qed.
  Lemma map_value_again : forall m, after_map f (after_map f m) = after_map f m.
  Proof. intros m. unfold after_map. rewrite map_map. apply map_ext. intros [k v]. cbn. rewrite value_again. reflexivity. Qed.
  Lemma extensions_after_ok : forall m, extensions_ok m -> extensions_ok (after_map f m).
  Proof.
    intros m [O F]. split; [exact (ordered_map _ _ (fun _ => after_value f) _ O)|]. unfold after_map. rewrite Forall_map. eapply Forall_impl; [|exact F].
    intros [k v] [S A]. cbn in *. split; [apply solid_after, S|]. destruct v; try contradiction. exact I.
  Qed.

  Lemma parameter_again : forall p, parameter_ok p -> parameter_ok (after_parameter f p) /\ after_parameter f (after_parameter f p) = after_parameter f p.
  Proof.
    intros p H. destruct H as [b h s q qs js n|b h s j js n O I|b h s n S|b q|b n].
    - split; [constructor|]. cbn [after_parameter]. unfold after_parameter. cbn [map]. rewrite (again_double _ _ ST), doubles_again. reflexivity.
    - split.
      + cbn [after_parameter map]. apply ok_json.
        * assert (E : after_entry f j :: map (after_entry f) js = map (fun kv => (fst kv, (fun k q => if String.eqb k "index" then inject_Z (trunc q) else f q) (fst kv) (snd kv))) (j :: js)).
          { change (after_entry f j :: map (after_entry f) js) with (map (after_entry f) (j :: js)). apply map_ext. intros [k q]. unfold after_entry. cbn [fst snd].
            destruct (String.eqb k "index"); reflexivity. }
          rewrite E. exact (ordered_map _ _ (fun k q => if String.eqb k "index" then inject_Z (trunc q) else f q) _ O).
        * intros q Q. change (In ("index"%string, q) (map (after_entry f) (j :: js))) in Q. apply in_map_iff in Q. destruct Q as ([k q0] & E & Q).
          unfold after_entry in E. cbn [fst snd] in E. destruct (String.eqb_spec k "index") as [->|N]; [|injection E as E' _; contradiction].
          injection E as <-. rewrite trunc_int. apply I, Q.
      + assert (E : forall x, after_entry f (after_entry f x) = after_entry f x).
        { intros [k q]. unfold after_entry. cbn [fst snd]. destruct (String.eqb_spec k "index") as [->|N]; cbn [fst snd].
          - cbn. rewrite trunc_int. reflexivity.
          - destruct (String.eqb_spec k "index"); [contradiction|]. rewrite (again_double _ _ ST). reflexivity. }
        cbn [after_parameter map]. rewrite E. do 2 f_equal. rewrite map_map. apply map_ext. exact E.
    - cbn [after_parameter]. destruct (String.eqb_spec s "") as [->|N]; [contradiction|]. split; [constructor; exact N|]. cbn.
      destruct (String.eqb_spec s "") as [->|N']; [contradiction|reflexivity].
    - split; [apply ok_number|]. cbn. rewrite (again_double _ _ ST). reflexivity.
    - split; [apply ok_bool|reflexivity].
  Qed.
  Lemma parameters_again : forall m, parameters_ok m -> parameters_ok (after_parameters f m) /\ after_parameters f (after_parameters f m) = after_parameters f m.
  Proof.
    intros m [O F]. split; [split|].
    - exact (ordered_map _ _ (fun _ => after_parameter f) _ O).
    - unfold after_parameters. rewrite Forall_map. eapply Forall_impl; [|exact F]. intros [k p] P. apply parameter_again, P.
    - unfold after_parameters. rewrite map_map. apply map_ext_in. intros [k p] I. cbn. rewrite Forall_forall in F. rewrite (proj2 (parameter_again p (F _ I))). reflexivity.
  Qed.
  Lemma material_again : forall m, material_ok m -> material_ok (after_material f m) /\ after_material f (after_material f m) = after_material f m.
  Proof.
    intros m (SOME & V & A & OWN & X & E). destruct (parameters_again _ V) as [V1 V2]. destruct (parameters_again _ A) as [A1 A2].
    assert (AS : parameter_ok (a_string (ma_name m)) /\ after_parameter f (a_string (ma_name m)) = a_string (ma_name m) \/ ma_name m = ""%string).
    { destruct (String.eqb_spec (ma_name m) "") as [N|N]; [right; exact N|left]. split; [apply ok_string, N|]. cbn.
      destruct (String.eqb_spec (ma_name m) ""); [contradiction|reflexivity]. }
    split.
    - unfold material_ok, after_material. cbn [ma_name ma_values ma_additional ma_extensions ma_extras]. split; [|split; [exact V1|split; [|split; [|split]]]].
      + destruct SOME as [H|[H|[H|[H|H]]]].
        * left. exact H.
        * right. left. destruct (ma_values m); [contradiction|discriminate].
        * right. right. left. cbv zeta. destruct (String.eqb (ma_name m) ""); [destruct (ma_additional m); [contradiction|discriminate]|].
          destruct (after_parameters f (ma_additional m)) as [|[x p] l]; [discriminate|]. cbn [put]. destruct (String.compare "name" x); discriminate.
        * right. right. right. left. destruct (ma_extensions m); [contradiction|discriminate].
        * right. right. right. right. destruct (ma_extras m); try discriminate. contradiction.
      + cbv zeta. destruct (String.eqb_spec (ma_name m) "") as [N|N]; [exact A1|]. destruct AS as [[AS _]|AS]; [|contradiction]. split.
        * apply ordered_put, A1.
        * apply Forall_put; [exact AS|apply A1].
      + intros k K. cbv zeta. destruct (String.eqb_spec (ma_name m) "") as [N|N].
        * rewrite get_after, OWN by exact K. reflexivity.
        * destruct K as [K|[_ K]]; [|contradiction]. rewrite get_put. destruct (String.eqb_spec "name" k) as [<-|]; [discriminate K|].
          rewrite get_after, OWN by (left; exact K). reflexivity.
      + apply extensions_after_ok, X.
      + apply extras_after, E.
    - unfold after_material. cbn [ma_name ma_values ma_additional ma_extensions ma_extras]. rewrite V2, map_value_again, value_again. f_equal. cbv zeta.
      destruct (String.eqb_spec (ma_name m) "") as [N|N]; [exact A2|]. destruct AS as [[_ AS]|AS]; [|contradiction].
      unfold after_parameters at 1. rewrite (put_map parameter parameter (after_parameter f)). fold (after_parameters f (after_parameters f (ma_additional m))).
      rewrite A2, put_put. reflexivity.
  Qed.

  Ltac again := repeat first [rewrite value_again | rewrite map_value_again | rewrite doubles_again]; try reflexivity.
  Lemma accessor_again : forall a, accessor_ok a -> accessor_ok (after_accessor f a) /\ after_accessor f (after_accessor f a) = after_accessor f a.
  Proof.
    intros a (A & B & C & D & E & F). split; [|unfold after_accessor; cbn; again].
    repeat split; try apply A; try apply B; try apply C; try apply D; try exact E. apply extras_after, F.
  Qed.
  Lemma channel_again : forall c, channel_ok c -> channel_ok (after_channel f c) /\ after_channel f (after_channel f c) = after_channel f c.
  Proof. intros a (A & B & C). split; [|unfold after_channel; cbn; again]. split; [exact A|]. split; [exact B|]. apply extras_after, C. Qed.
  Lemma asampler_again : forall c, asampler_ok c -> asampler_ok (after_asampler f c) /\ after_asampler f (after_asampler f c) = after_asampler f c.
  Proof. intros a (A & B & C). split; [|unfold after_asampler; cbn; again]. split; [exact A|]. split; [exact B|]. apply extras_after, C. Qed.
  Lemma animation_again : forall a, animation_ok a -> animation_ok (after_animation f a) /\ after_animation f (after_animation f a) = after_animation f a.
  Proof.
    intros a (A & B & C). split.
    - split; [|split]; cbn.
      + apply (Forall_again _ _ channel_ok); [|exact A]. intros x K. apply channel_again, K.
      + apply (Forall_again _ _ asampler_ok); [|exact B]. intros x K. apply asampler_again, K.
      + apply extras_after, C.
    - unfold after_animation. cbn. rewrite (map_again _ _ channel_ok _ (fun x K => proj2 (channel_again x K)) A), (map_again _ _ asampler_ok _ (fun x K => proj2 (asampler_again x K)) B). again.
  Qed.
  Lemma asset_again : forall a, asset_ok a -> asset_ok (after_asset f a) /\ after_asset f (after_asset f a) = after_asset f a.
  Proof.
    intros a (A & B). split.
    - split; cbn; [apply extensions_after_ok, A|]. destruct B as [->|S]; [left; reflexivity|]. destruct (at_extras a); try (left; reflexivity). right. exact (solid_after _ S).
    - unfold after_asset. cbn. again. f_equal.
      + destruct (String.eqb (at_version a) "") eqn:K; [reflexivity|rewrite K; reflexivity].
      + destruct (String.eqb (at_generator a) "") eqn:K; [reflexivity|rewrite K; reflexivity].
      + destruct (at_extras a) as [| | | | | | |l]; try reflexivity. all: exact (value_again (VObject _)).
  Qed.
  Lemma view_again : forall v, view_ok v -> view_ok (after_view v) /\ after_view (after_view v) = after_view v.
  Proof.
    intros v (A & B & C & D & E). split.
    - repeat split; try apply A; try apply B; try apply C; [|left; reflexivity]. cbn. unfold stride_ok in *. destruct (Z.ltb_spec (vi_stride v) 4); [left; lia|]. destruct D; [lia|right; assumption].
    - unfold after_view. cbn. f_equal.
      + destruct (Z.ltb_spec (vi_stride v) 4); [reflexivity|]. destruct (Z.ltb_spec (vi_stride v) 4); [lia|reflexivity].
      + destruct ((vi_target v =? 34962) || (vi_target v =? 34963)) eqn:K; [rewrite K; reflexivity|reflexivity].
  Qed.
  Lemma int_max : forall z, int z -> int (Z.max (-1) z).
  Proof. unfold int. intros. lia. Qed.
  Lemma max_max : forall z, Z.max (-1) (Z.max (-1) z) = Z.max (-1) z.
  Proof. intros. lia. Qed.
  Lemma primitive_again : forall p, primitive_ok p -> primitive_ok (after_primitive f p) /\ after_primitive f (after_primitive f p) = after_primitive f p.
  Proof.
    intros p (N & O & A & M & I & MO & TS & E). split; [|unfold after_primitive; cbn; rewrite !max_max; again].
    split; [exact N|]. split; [exact O|]. split; [exact A|]. split; [apply int_max, M|]. split; [apply int_max, I|]. split; [exact MO|]. split; [exact TS|]. apply extras_after, E.
  Qed.
  Lemma mesh_again : forall m, mesh_ok m -> mesh_ok (after_mesh f m) /\ after_mesh f (after_mesh f m) = after_mesh f m.
  Proof.
    intros m (A & B). split.
    - split; cbn; [|apply extras_after, B]. apply (Forall_again _ _ primitive_ok); [|exact A]. intros x K. apply primitive_again, K.
    - unfold after_mesh. cbn. rewrite (map_again _ _ primitive_ok _ (fun x K => proj2 (primitive_again x K)) A). again.
  Qed.
  Lemma node_again : forall n, node_ok n -> node_ok (after_node f n) /\ after_node f (after_node f n) = after_node f n.
  Proof.
    intros n (A & B & C & D & X & E). split.
    - split; [exact A|]. split; [exact B|]. split; [exact C|]. split; [exact D|]. split; [apply extensions_after_ok, X|apply extras_after, E].
    - unfold after_node. cbn. again. destruct (no_matrix n) as [|q qs]; cbn [map]; again.
  Qed.
  Lemma sampler_again : forall s, sampler_ok s -> sampler_ok (after_sampler f s) /\ after_sampler f (after_sampler f s) = after_sampler f s.
  Proof.
    intros s (A & B & C & D & E). split; [|unfold after_sampler; cbn; again]. split; [exact A|]. split; [exact B|]. split; [exact C|]. split; [exact D|]. apply extras_after, E.
  Qed.
  Lemma positive_again : forall q, (0 < q)%Q -> Qle_bool q 0 = false.
  Proof. intros q H. destruct (Qle_bool q 0) eqn:L; [|reflexivity]. apply Qle_bool_iff in L. exfalso. apply (Qlt_not_le _ _ H L). Qed.
  Lemma camera_again : forall c, camera_ok c -> lens_ok f f32 c -> camera_ok (after_camera f f32 c) /\ lens_ok f f32 (after_camera f f32 c) /\
    after_camera f f32 (after_camera f f32 c) = after_camera f f32 c.
  Proof.
    intros c K L. unfold after_camera. cbn [ca_type ca_name ca_perspective ca_orthographic]. destruct K as [(T & E)|(T & Y & E)]; rewrite T; keys.
    - split; [left; split; [reflexivity|cbn; apply extras_after, E]|]. split; [intros H; discriminate|]. f_equal.
      + destruct (String.eqb (ca_name c) ""); reflexivity.
      + unfold after_orthographic. cbn. rewrite !(again_float _ _ ST). again.
    - destruct (L T) as [L1 L2].
      assert (YY : Qle_bool (f32 (f (pe_yfov (ca_perspective c)))) 0 = false) by apply positive_again, L1.
      split; [right; split; [reflexivity|]; split; [exact L1|cbn; apply extras_after, E]|]. split.
      + intros _. cbn. rewrite !(again_float _ _ ST). split; [exact L1|]. destruct L2 as [L2|L2].
        * rewrite L2, (float_zero _ _ ST). left. reflexivity.
        * destruct (Qle_bool (pe_aspect (ca_perspective c)) 0); [rewrite (float_zero _ _ ST); left; reflexivity|]. rewrite (again_float _ _ ST). right. exact L2.
      + f_equal.
        * destruct (String.eqb (ca_name c) ""); reflexivity.
        * unfold after_perspective. cbn. rewrite !(again_float _ _ ST). again. f_equal. destruct L2 as [L2|L2].
          -- rewrite L2, (float_zero _ _ ST). cbn. apply (float_zero _ _ ST).
          -- destruct (Qle_bool (pe_aspect (ca_perspective c)) 0); [rewrite (float_zero _ _ ST); cbn; apply (float_zero _ _ ST)|].
             rewrite (positive_again _ L2). apply (again_float _ _ ST).
  Qed.
  Lemma scene_again : forall s, scene_ok s -> scene_ok (after_scene f s) /\ after_scene f (after_scene f s) = after_scene f s.
  Proof.
    intros s (N & I & X & E). split; [|unfold after_scene; cbn; again]. split; [exact N|]. split; [exact I|]. split; [apply extensions_after_ok, X|apply extras_after, E].
  Qed.
  Lemma texture_again : forall s, texture_ok s -> texture_ok (after_texture f s) /\ after_texture f (after_texture f s) = after_texture f s.
  Proof.
    intros s (S & I & X & E). split; [|unfold after_texture; cbn; rewrite max_max; again]. split; [apply int_max, S|]. split; [exact I|].
    split; [apply extensions_after_ok, X|apply extras_after, E].
  Qed.
  Lemma light_again : forall l, after_light f (after_light f l) = after_light f l /\ light_value f (after_light f l) = light_value f l /\
    after_value f (light_value f l) = light_value f l /\ solid (light_value f l).
  Proof.
    intros [n c t]. unfold after_light, light_value. cbn [li_name li_color li_type]. rewrite doubles_again. split; [reflexivity|].
    assert (K : forall l, map (fun q => VNumber (f q)) (map f l) = map (fun q => VNumber (f q)) l).
    { intros l. rewrite map_map. apply map_ext. intros q. rewrite (again_double _ _ ST). reflexivity. }
    assert (K2 : forall l, map (after_value f) (map (fun q => VNumber (f q)) l) = map (fun q => VNumber (f q)) l).
    { intros l. rewrite map_map. apply map_ext. intros q. cbn. rewrite (again_double _ _ ST). reflexivity. }
    destruct c as [|q c].
    - cbn. repeat split; repeat constructor; discriminate.
    - split; [cbn [map app]; rewrite (again_double _ _ ST), K; reflexivity|]. split.
      + cbn [app after_value map fst snd]. cbn [map] in K2. rewrite (again_double _ _ ST), K2. reflexivity.
      + cbn [app solid]. split; [discriminate|]. split; [repeat constructor|]. cbn [fold_right snd]. split; [|repeat split].
        cbn [solid]. split; [discriminate|]. rewrite fold_and, Forall_map. apply Forall_forall. intros x _. exact I.
  Qed.

  Lemma extensions_again : forall m, extensions_ok (extensions m) -> extensions_ok (after_extensions f m).
  Proof.
    intros m X. unfold after_extensions. assert (X' := extensions_after_ok _ X). destruct (lights m) as [|l ls]; [exact X'|].
    destruct X' as [O F]. split; [apply ordered_put, O|]. apply Forall_put; [|exact F]. cbn [snd]. split; [|exact I].
    cbn [solid]. split; [discriminate|]. split; [repeat constructor|]. cbn [fold_right snd]. split; [|exact I]. cbn [solid]. split; [discriminate|].
    rewrite fold_and, Forall_map. apply Forall_forall. intros x _. apply light_again.
  Qed.

  Lemma model_again : forall bin pxs m, model_ok m -> Forall (lens_ok f f32) (cameras m) -> List.length pxs = List.length (images m) ->
    let m' := after_model f f32 bin pxs m in
    model_ok m' /\ Forall (lens_ok f f32) (cameras m') /\ after_model f f32 bin pxs m' = m'.
  Proof.
    intros bin pxs m M LE LP m'.
    destruct M as [[b [B [B1 [B2 B3]]]] [A1 A2] [V1 V2] [N1 N2] [S1 S2] AN MA ME TE IM SK SA CA [EX EL] DS AS ES].
    assert (NM : forall A C (g : A -> C) l, l <> [] -> map g l <> []) by (intros A C g [|x l] N; [contradiction|discriminate]).
    assert (MOV : Forall animation_ok (filter moving (animations m))).
    { apply Forall_forall. intros x I. apply filter_In in I. rewrite Forall_forall in AN. apply AN, I. }
    assert (CC : Forall (fun c => camera_ok c /\ lens_ok f f32 c) (cameras m)).
    { rewrite Forall_forall in *. intros x I. split; [apply CA, I|apply LE, I]. }
    split; [|split].
    - constructor; cbn [m' after_model accessors animations buffers views materials meshes nodes textures images skins samplers cameras scenes lights extensions default_scene extensions_used extensions_required m_asset m_extras].
      + exists (after_buffer bin b). rewrite B. split; [reflexivity|]. split; [exact B1|]. split; [exact B2|left; reflexivity].
      + split; [apply NM, A1|]. apply (Forall_again _ _ accessor_ok); [|exact A2]. intros x K. apply accessor_again, K.
      + split; [apply NM, V1|]. apply (Forall_again _ _ view_ok); [|exact V2]. intros x K. apply view_again, K.
      + split; [apply NM, N1|]. apply (Forall_again _ _ node_ok); [|exact N2]. intros x K. apply node_again, K.
      + split; [apply NM, S1|]. apply (Forall_again _ _ scene_ok); [|exact S2]. intros x K. apply scene_again, K.
      + apply (Forall_again _ _ animation_ok); [|exact MOV]. intros x K. apply animation_again, K.
      + apply (Forall_again _ _ material_ok); [|exact MA]. intros x K. apply material_again, K.
      + apply (Forall_again _ _ mesh_ok); [|exact ME]. intros x K. apply mesh_again, K.
      + apply (Forall_again _ _ texture_ok); [|exact TE]. intros x K. apply texture_again, K.
      + rewrite Forall_map. apply Forall_forall. intros x _. left. reflexivity.
      + exact SK.
      + apply (Forall_again _ _ sampler_ok); [|exact SA]. intros x K. apply sampler_again, K.
      + rewrite Forall_map. eapply Forall_impl; [|exact CC]. intros x [K L]. apply camera_again; assumption.
      + split; [apply extensions_again, EX|]. intros H. assert (L0 : lights m = []) by (destruct (lights m); [reflexivity|discriminate]).
        unfold after_extensions. rewrite L0. unfold after_map. rewrite get_map, EL by exact L0. reflexivity.
      + apply int_max, DS.
      + apply asset_again, AS.
      + apply extras_after, ES.
    - cbn [m' after_model cameras]. rewrite Forall_map. eapply Forall_impl; [|exact CC]. intros x [K L]. apply camera_again; assumption.
    - subst m'. unfold after_model at 1. cbn [after_model accessors animations buffers views materials meshes nodes textures images skins samplers cameras scenes lights extensions default_scene extensions_used extensions_required m_asset m_extras].
      rewrite (map_again _ _ accessor_ok _ (fun x K => proj2 (accessor_again x K)) A2).
      rewrite (map_again _ _ view_ok _ (fun x K => proj2 (view_again x K)) V2).
      rewrite (map_again _ _ material_ok _ (fun x K => proj2 (material_again x K)) MA).
      rewrite (map_again _ _ mesh_ok _ (fun x K => proj2 (mesh_again x K)) ME).
      rewrite (map_again _ _ node_ok _ (fun x K => proj2 (node_again x K)) N2).
      rewrite (map_again _ _ texture_ok _ (fun x K => proj2 (texture_again x K)) TE).
      rewrite (map_again _ _ sampler_ok _ (fun x K => proj2 (sampler_again x K)) SA).
      rewrite (map_again _ _ scene_ok _ (fun x K => proj2 (scene_again x K)) S2).
      rewrite (map_again _ _ (fun c => camera_ok c /\ lens_ok f f32 c) _ (fun x K => proj2 (proj2 (camera_again x (proj1 K) (proj2 K)))) CC).
      rewrite max_max, (proj2 (asset_again _ AS)), value_again.
      assert (AF : filter moving (map (after_animation f) (filter moving (animations m))) = map (after_animation f) (filter moving (animations m))).
      { apply filter_all. rewrite Forall_map. apply Forall_forall. intros x I. apply filter_In in I. destruct I as [_ I]. unfold moving in *. cbn. destruct (an_channels x); [discriminate|reflexivity]. }
      rewrite AF, (map_again _ _ animation_ok _ (fun x K => proj2 (animation_again x K)) MOV).
      rewrite B. cbn [map]. 
      assert (IE : map (fun ip => after_image (fst ip) (snd ip)) (combine (map (fun ip => after_image (fst ip) (snd ip)) (combine (images m) pxs)) pxs) =
        map (fun ip => after_image (fst ip) (snd ip)) (combine (images m) pxs)).
      { clear -LP. revert pxs LP. induction (images m) as [|i l IH]; intros [|px pxs] L; try discriminate; [reflexivity|]. cbn [combine map fst snd]. f_equal. apply IH. injection L as L. exact L. }
      rewrite IE.
      assert (LL : map (after_light f) (map (after_light f) (lights m)) = map (after_light f) (lights m)) by (rewrite map_map; apply map_ext; intros x; apply light_again).
      rewrite LL.
      assert (XX : forall x, lights x = map (after_light f) (lights m) -> extensions x = after_extensions f m -> after_extensions f x = after_extensions f m).
      { intros x XL XE. unfold after_extensions at 1. rewrite XL, XE. unfold after_extensions. destruct (lights m) as [|l ls]; [apply map_value_again|]. cbn [map].
        unfold after_map at 1. rewrite (put_map value value (after_value f)), put_put. fold (after_map f (after_map f (extensions m))). rewrite map_value_again. f_equal.
        do 3 f_equal. destruct (light_again l) as (_ & -> & _). f_equal. rewrite map_map. f_equal. apply map_ext. intros y. apply light_again. }
      rewrite XX by reflexivity. unfold after_model. rewrite B. reflexivity.
  Qed.
End F.
