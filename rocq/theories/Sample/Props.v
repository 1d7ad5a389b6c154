(** C43: sampling points on the surface of a model. *)
From Coq Require Import Reals Lra Lia List ZArith Bool.
From Verif.Base Require Import Py PyFacts Vec.
From Verif.Geom Require Import Model Proofs.
From Verif.Box Require Import Model Spec Proofs.
From Verif.Sample Require Import Model Spec Proofs.
Import ListNotations.
Open Scope R_scope.

(** The samples come triangle by triangle; each lies on its triangle, has the color
    interpolated with the same weights, and their number is the density times the area,
    rounded down, but at least 1. *)
Theorem C43_samples : forall draws T ms density, ms <> [] -> Forall sound ms -> uniform draws ->
  exists groups, sample_element draws T ms density = Ok (concat groups) /\
    Forall2 (fun t g => (exists a b c x, has_corners T t a b c /\ tri_area a b c x /\ n_samples density x (List.length g)) /\ Forall (sample_of T t) g)
            (all_triangles ms) groups.
Proof. exact element_ok. Qed.

(** The number of samples is the density times the total area, give or take one for
    each triangle. *)
Theorem C43_density : forall draws T ms density A l, ms <> [] -> Forall sound ms -> uniform draws -> 0 <= density ->
  total_area T (all_triangles ms) A -> sample_element draws T ms density = Ok l ->
  Rabs (INR (List.length l) - density * A) <= INR (List.length (all_triangles ms)).
Proof.
  intros draws T ms d A l NE F U D TA E. destruct (element_ok draws T ms d NE F U) as (gs & E' & G). rewrite E in E'. injection E' as ->.
  assert (B := Forall2_bounds T d _ _ A D G TA). apply Rabs_le. lra.
Qed.

(** Every sample lies in the bounding box of the posed vertices, and its color is
    between the darkest and the brightest value of the textures. *)
Theorem C43_in_box : forall draws T ms density l s, ms <> [] -> Forall sound ms -> uniform draws ->
  sample_element draws T ms density = Ok l -> In s l ->
  inside (from_point_cloud (transform_all_from T (flat_map s_vertices ms))) (fst s).
Proof.
  intros draws T ms d l s NE F U E I. destruct (element_ok draws T ms d NE F U) as (gs & E' & G). rewrite E in E'. injection E' as ->.
  apply in_concat in I. destruct I as (g & IG & IS). assert (X : exists t, In t (all_triangles ms) /\ Forall (sample_of T t) g).
  { clear -G IG. induction G as [|t g' ts gs (_ & H) G IH]; [destruct IG|]. destruct IG as [-> |IG]; [exists t; split; [left; reflexivity|exact H]|]. destruct (IH IG) as (t' & I & S). exists t'. split; [right; exact I|exact S]. }
  destruct X as ([m [[i j] k]] & IT & S). rewrite Forall_forall in S. specialize (S s IS). destruct S as (a & b & c & ca & cb & cc & x & y & z & (p & q & r & P & Q & R & -> & -> & ->) & _ & _ & _ & X & Y & Z & SUM & -> & _).
  unfold all_triangles in IT. apply in_flat_map in IT. destruct IT as (m' & IM & IT). apply in_map_iff in IT. destruct IT as (t & EQ & _). injection EQ as -> _.
  assert (V : forall n v, nth_error (s_vertices m) n = Some v -> inside (from_point_cloud (transform_all_from T (flat_map s_vertices ms))) (transform_from T v)).
  { intros n v H. rewrite transform_all_from_map. assert (IV : In (transform_from T v) (map (transform_from T) (flat_map s_vertices ms))).
    { apply in_map, in_flat_map. exists m. split; [exact IM|]. eapply nth_error_In, H. }
    apply (proj1 (from_point_cloud_tight (map (transform_from T) (flat_map s_vertices ms)) ltac:(intro C; rewrite C in IV; exact IV))), IV. }
  apply mix_inside; eauto.
Qed.
Theorem C43_color_range : forall draws T ms density l s lo hi, ms <> [] -> Forall sound ms -> uniform draws ->
  sample_element draws T ms density = Ok l -> In s l -> vle lo grey -> vle grey hi ->
  (forall m uvs t r c, In m ms -> s_texture m = Some (uvs, t) -> (r < height t)%nat -> (c < width t)%nat -> vle lo (pixel t r c) /\ vle (pixel t r c) hi) ->
  vle lo (snd s) /\ vle (snd s) hi.
Proof.
  intros draws T ms d l s lo hi NE F U E I LG GH PX. destruct (element_ok draws T ms d NE F U) as (gs & E' & G). rewrite E in E'. injection E' as ->.
  apply in_concat in I. destruct I as (g & IG & IS). assert (X : exists t, In t (all_triangles ms) /\ Forall (sample_of T t) g).
  { clear -G IG. induction G as [|t g' ts gs (_ & H) G IH]; [destruct IG|]. destruct IG as [-> |IG]; [exists t; split; [left; reflexivity|exact H]|]. destruct (IH IG) as (t' & I & S). exists t'. split; [right; exact I|exact S]. }
  destruct X as ([m [[i j] k]] & IT & S). rewrite Forall_forall in S. specialize (S s IS). destruct S as (a & b & c & ca & cb & cc & x & y & z & _ & CA & CB & CC & X & Y & Z & SUM & _ & ->).
  unfold all_triangles in IT. apply in_flat_map in IT. destruct IT as (m' & IM & IT). apply in_map_iff in IT. destruct IT as (t & EQ & _). injection EQ as -> _.
  assert (V : forall n v, vertex_color m n v -> inside (Box lo hi) v).
  { intros n v H. unfold vertex_color in H. destruct (s_texture m) as [[uvs t']|] eqn:TX.
    - destruct H as [(_ & ->)|(u & w & r & q & _ & (R1 & _) & (R2 & _) & ->)]; [split; assumption|]. apply (PX m uvs t' r q IM TX R1 R2).
    - subst v. split; assumption. }
  apply (mix_inside (Box lo hi)); eauto.
Qed.

(** Moving the object moves the samples: with the same draws the points are the same
    points of the object, whatever its pose. *)
Theorem C43_rigid : forall draws T ms density l, ms <> [] -> Forall sound ms -> rotation (pR T) ->
  sample_element draws pose_id ms density = Ok l ->
  sample_element draws T ms density = Ok (map (fun s => (transform_from T (fst s), snd s)) l).
Proof.
  intros draws T ms d l NE F RT E. unfold sample_element in *. rewrite (all_rows_move T). rewrite (map_ext _ _ transform_id), map_id in E.
  destruct (all_rows_ok pose_id ms NE F) as (ts & ER & _). rewrite (map_ext _ _ transform_id), map_id in ER. rewrite ER in *. cbn [bind] in *.
  change (fun s => (transform_from T (fst s), snd s)) with (move T). rewrite sample_move by exact RT. rewrite E. reflexivity.
Qed.

(** The two samplers agree, except that ModelSampler gives an array with three columns
    when there is no triangle. *)
Theorem C43_same_samplers : forall draws ms density, ms <> [] -> Forall sound ms ->
  model_sampler draws density ms =
  match all_triangles ms with
  | [] => Ok (3%nat, [])
  | _ => let* l := sample_element draws pose_id ms density in Ok (6%nat, l)
  end.
Proof.
  intros draws ms d NE F. unfold model_sampler, sample_element. rewrite (map_ext _ _ transform_id), map_id.
  destruct (all_rows_ok pose_id ms NE F) as (ts & ER & H). rewrite (map_ext _ _ transform_id), map_id in ER. rewrite ER. cbn [bind]. rewrite sampler_flat. inversion H; reflexivity.
Qed.

(** The draws are turned into a uniform distribution on the triangle: the draws at most
    (t, s) give exactly the points of a subtriangle whose area is the fraction t * s. *)
Theorem C43_uniform : forall draws T i j k vs a b c density l n x t s,
  uniform draws -> has_corners T (Surface [i; j; k] vs None, (i, j, k)) a b c -> cross (vsub b a) (vsub c a) <> vzero -> tri_area a b c x ->
  sample_element draws T [Surface [i; j; k] vs None] density = Ok l -> (n < List.length l)%nat -> 0 < fst (draws n) ->
  0 <= t <= 1 -> 0 <= s <= 1 ->
  exists b' c' p, tri_area a b' c' (t * s * x) /\ in_triangle a b c b' /\ in_triangle a b c c' /\
    nth_error l n = Some (p, grey) /\ (in_triangle a b' c' p <-> fst (draws n) <= t /\ snd (draws n) <= s).
Proof.
  intros draws T i j k vs a b c d l n x t s U (p & q & r & P & Q & R & -> & -> & ->) N AR E L P1 HT HS.
  set (a := transform_from T p) in *. set (b := transform_from T q) in *. set (c := transform_from T r) in *.
  assert (EL : l = map (fun m => one_sample (draws m) (a, grey) (b, grey) (c, grey)) (seq 0 (List.length l))).
  { unfold sample_element, all_rows in E. cbn [map mapM] in E. unfold mesh_rows, transform in E. cbn [s_indices s_vertices s_texture mapM] in E. rewrite transform_all_from_map, !item_map in E.
    cbn [s_vertices fst] in P, Q, R. unfold item in E. rewrite P, Q, R in E. cbn [bind mapM map combine concat app] in E. fold a b c in E.
    unfold sample_mesh in E. cbn [tl stride3] in E. assert (AF := areas_flat3 [((a, grey), (b, grey), (c, grey))]). cbn [map fst snd] in AF. rewrite AF in E. cbn [bind map face_ids] in E.
    rewrite (samples_repeat draws [(a, grey)] [(b, grey)] [(c, grey)] _ 0 0 [] ((a, grey), (b, grey), (c, grey)) eq_refl eq_refl eq_refl) in E. cbn [samples bind fst snd] in E. injection E as <-. rewrite app_nil_r, map_length, seq_length. reflexivity. }
  destruct (U n) as (U1 & U2).
  exists (mix (1 - sqrt t) (sqrt t) 0 a b c), (mix (1 - sqrt t) (sqrt t * (1 - s)) (sqrt t * s) a b c), (fst (one_sample (draws n) (a, grey) (b, grey) (c, grey))).
  split; [apply region_area; assumption|]. assert (S0 := sqrt_pos t). assert (S1 : sqrt t <= 1) by (rewrite <- sqrt_1; apply sqrt_le_1_alt; lra).
  split; [exists (1 - sqrt t), (sqrt t), 0; repeat split; lra|].
  split; [exists (1 - sqrt t), (sqrt t * (1 - s)), (sqrt t * s); split; [lra|]; split; [apply Rmult_le_pos; lra|]; split; [apply Rmult_le_pos; lra|]; split; [ring|reflexivity]|].
  split.
  - rewrite EL. rewrite nth_error_map. assert (NS : nth_error (seq 0 (List.length l)) n = Some n).
    { rewrite (nth_error_nth' _ 0%nat) by (rewrite seq_length; exact L). rewrite seq_nth by exact L. reflexivity. }
    rewrite NS. cbn [option_map]. f_equal. unfold one_sample, add_corner, scale_corner. cbn [fst snd]. f_equal. generalize (sqrt (fst (draws n))). intro w. unfold grey. apply vec_eq; cbn; ring.
  - destruct (draws n) as [r1 r2] eqn:DN. cbn [fst snd] in *. apply (uniform_region r1 r2 t s (a, grey) (b, grey) (c, grey)); cbn [fst]; try assumption. lra.
Qed.

(** Indices out of range are an IndexError; in particular for vertices without texture
    coordinates, which the mesh class allows. *)
Theorem C43_missing_uv : forall draws T m uvs t density i, s_texture m = Some (uvs, t) -> (0 < height t)%nat -> (0 < width t)%nat ->
  Forall (fun i => (i < List.length (s_vertices m))%nat) (s_indices m) -> In i (s_indices m) -> (List.length uvs <= i)%nat ->
  sample_element draws T [m] density = Err IndexError.
Proof.
  intros draws T m uvs t d i TX H W V I B. unfold sample_element, all_rows. cbn [map mapM]. unfold mesh_rows, transform. cbn [s_indices s_vertices s_texture]. rewrite TX.
  destruct (mapM_rel _ _ (item (transform_all_from T (s_vertices m))) (fun _ _ => True) (s_indices m)) as (ps & -> & _).
  { apply Forall_forall. intros n IN. rewrite Forall_forall in V. destruct (item_ok _ (transform_all_from T (s_vertices m)) n) as (x & E & _); [rewrite transform_all_from_map, map_length; apply V, IN|]. eauto. }
  cbn [bind]. rewrite (proj2 (Nat.eqb_neq _ _)) by lia. rewrite (proj2 (Nat.eqb_neq _ _)) by lia. cbn [orb].
  assert (E : mapM (item uvs) (s_indices m) = Err IndexError).
  { clear V. induction (s_indices m) as [|n idx IH]; [destruct I|]. cbn [mapM]. unfold item at 1. destruct (nth_error uvs n) eqn:N; [|reflexivity]. cbn [bind].
    destruct I as [-> |I]; [apply nth_error_None in B; rewrite B in N; discriminate N|]. rewrite IH by exact I. reflexivity. }
  rewrite E. reflexivity.
Qed.

(** * Findings *)

(** The coordinates are used the wrong way round: all vertices are in the white right
    half of the texture, but every sample is black. *)
Definition half_white : texture := Texture 1 2 (fun _ col => if Nat.eqb col 0 then V 0 0 0 else V 255 255 255).
Definition right_half : surface := Surface [0; 1; 2]%nat [V 0 0 0; V 1 0 0; V 0 1 0] (Some ([(3 / 4, 1 / 4); (3 / 4, 1 / 4); (3 / 4, 1 / 4)], half_white)).
Lemma right_half_sound : sound right_half.
Proof. split; [reflexivity|]. split; [repeat constructor|]. right; right. repeat constructor. Qed.
Theorem C43_texture_refuted : exists m, sound m /\
  (forall i c, In i (s_indices m) -> gltf_color m i c -> c = V 255 255 255) /\ (forall i, In i (s_indices m) -> gltf_color m i (V 255 255 255)) /\
  forall draws T density l s, uniform draws -> sample_element draws T [m] density = Ok l -> In s l -> snd s = V 0 0 0.
Proof.
  exists right_half. split; [exact right_half_sound|]. assert (IDX : forall i u, In i [0; 1; 2]%nat -> nth_error [(3 / 4, 1 / 4); (3 / 4, 1 / 4); (3 / 4, 1 / 4)] i = Some u -> u = (3 / 4, 1 / 4)).
  { intros i u [<- |[<- |[<- |[]]]] H; cbn in H; injection H as <-; reflexivity. }
  split; [|split].
  - intros i c I (uvs & t & u & v & row & col & TX & N & _ & (C & k & B) & ->). cbn [right_half s_texture] in TX. injection TX as <- <-. apply (IDX i (u, v) I) in N. injection N as -> ->.
    cbn [half_white width pixel] in *. destruct col as [|col]; [|reflexivity]. exfalso. replace (INR 2) with 2 in B by (cbn; ring). cbn [INR] in B.
    assert (K1 : IZR (-1) < IZR k) by lra. assert (K2 : IZR k < IZR 0) by lra. apply lt_IZR in K1. apply lt_IZR in K2. lia.
  - intros i I. exists [(3 / 4, 1 / 4); (3 / 4, 1 / 4); (3 / 4, 1 / 4)], half_white, (3 / 4), (1 / 4), 0%nat, 1%nat. split; [reflexivity|]. split; [destruct I as [<- |[<- |[<- |[]]]]; reflexivity|].
    split; [split; [cbn; lia|exists 0%Z; cbn; lra]|]. split; [split; [cbn; lia|exists 0%Z; cbn; lra]|]. reflexivity.
  - intros draws T d l s U E I. destruct (element_ok draws T [right_half] d ltac:(discriminate) ltac:(constructor; [exact right_half_sound|constructor]) U) as (gs & E' & G). rewrite E in E'. injection E' as ->.
    apply in_concat in I. destruct I as (g & IG & IS). change (all_triangles [right_half]) with [(right_half, (0, 1, 2)%nat)] in G. inversion G as [|? ? ? ? (_ & S) G']; subst. inversion G'; subst. destruct IG as [-> |[]].
    rewrite Forall_forall in S. specialize (S s IS). destruct S as (a & b & c & ca & cb & cc & x & y & z & _ & CA & CB & CC & _ & _ & _ & SUM & _ & ->).
    assert (V : forall i c, In i [0; 1; 2]%nat -> vertex_color right_half i c -> c = V 0 0 0).
    { intros i e IN H. cbn [vertex_color right_half s_texture] in H. destruct H as [([H|H] & _)|(u & v & row & col & N & _ & (C & k & B) & ->)]; [discriminate H|discriminate H|].
      apply (IDX i (u, v) IN) in N. injection N as -> ->. cbn [half_white width pixel] in *. destruct col as [|[|col]]; [reflexivity| |lia]. exfalso. replace (INR 2) with 2 in B by (cbn; ring). cbn [INR] in B.
      assert (K1 : IZR 0 < IZR k) by lra. assert (K2 : IZR k < IZR 1) by lra. apply lt_IZR in K1. apply lt_IZR in K2. lia. }
    rewrite (V _ _ ltac:(cbn; auto) CA), (V _ _ ltac:(cbn; auto) CB), (V _ _ ltac:(cbn; auto) CC). unfold mix. apply vec_eq; cbn; ring.
Qed.

(** A model without meshes is a TypeError instead of an empty set of points. *)
Theorem C43_no_meshes_refuted : forall draws T density, sample_element draws T [] density = Err TypeError /\ model_sampler draws density [] = Err TypeError.
Proof. split; reflexivity. Qed.

(** * Non-vacuity *)

(** A triangle with legs 2 and 3 has area 3: at density 2, six samples. *)
Definition leg_tri : surface := Surface [0; 1; 2]%nat [V 0 0 0; V 2 0 0; V 0 3 0] None.
Example C43_six : sound leg_tri /\ total_area pose_id (all_triangles [leg_tri]) (3 + 0) /\ forall draws, uniform draws ->
  exists l, sample_element draws pose_id [leg_tri] 2 = Ok l /\ List.length l = 6%nat.
Proof.
  assert (S : sound leg_tri) by (split; [reflexivity|]; split; [repeat constructor|exact Logic.I]).
  assert (H : has_corners pose_id (leg_tri, (0, 1, 2)%nat) (V 0 0 0) (V 2 0 0) (V 0 3 0)).
  { exists (V 0 0 0), (V 2 0 0), (V 0 3 0). do 3 (split; [reflexivity|]). unfold transform_from. split; [|split]; apply vec_eq; cbn; ring. }
  assert (A : tri_area (V 0 0 0) (V 2 0 0) (V 0 3 0) 3) by (split; [lra|]; cbn; unfold dot; cbn; ring).
  split; [exact S|]. split; [econstructor; [exact H|exact A|constructor]|].
  intros draws U. destruct (element_ok draws pose_id [leg_tri] 2 ltac:(discriminate) ltac:(constructor; [exact S|constructor]) U) as (gs & E & G). exists (concat gs). split; [exact E|].
  change (all_triangles [leg_tri]) with [(leg_tri, (0, 1, 2)%nat)] in G. inversion G as [|? g ? ? ((a & b & c & x & HC & HA & N1 & N2) & _) G']; subst. inversion G'; subst. cbn [concat]. rewrite app_nil_r.
  destruct HC as (p & q & r & P & Q & R & -> & -> & ->). cbn in P, Q, R. injection P as <-. injection Q as <-. injection R as <-.
  assert (X : x = 3). { eapply tri_area_unique; [exact HA|]. apply area_rigid; [split; [mring|unfold det; cbn; ring]|exact A]. } subst x.
  rewrite Rmax_right in N2 by lra. assert (K1 : INR (List.length g) < INR 7) by (cbn; lra). assert (K2 : INR 5 < INR (List.length g)) by (cbn; lra). apply INR_lt in K1. apply INR_lt in K2. lia.
Qed.
Example C43_draws : uniform (fun k => (1 / 2, 1 / INR (k + 2))).
Proof.
  intro k. cbn [fst snd]. assert (P : 2 <= INR (k + 2)) by (rewrite plus_INR; cbn; assert (H := pos_INR k); lra). split; [lra|]. split; [apply Rlt_le, Rmult_lt_0_compat; [lra|apply Rinv_0_lt_compat; lra]|].
  apply Rmult_lt_reg_r with (INR (k + 2)); [lra|]. unfold Rdiv. rewrite Rmult_assoc, Rinv_l by lra. lra.
Qed.

Print Assumptions C43_samples.
Print Assumptions C43_density.
Print Assumptions C43_in_box.
Print Assumptions C43_color_range.
Print Assumptions C43_rigid.
Print Assumptions C43_same_samplers.
Print Assumptions C43_uniform.
Print Assumptions C43_missing_uv.
Print Assumptions C43_texture_refuted.
Print Assumptions C43_no_meshes_refuted.
