(** C73, C74: PLY files. *)
From Coq Require Import List ZArith NArith Bool String Ascii Reals Lia.
From Verif.Base Require Import Py PyFacts Vec.
From Verif.Cloud Require Import Model Spec Proofs.
From Verif.Ply Require Import Model Spec Proofs Noise.
Import ListNotations.
Local Open Scope string_scope.
Local Open Scope list_scope.

(** * C73 *)

(** Reading a binary file of either byte order, with any further elements and
    properties: the points of the element vertex. *)
Theorem C73_read : forall ascii_data be pre e post hd dpre rows dpost extra,
  e_name e = text "vertex" -> (forall x, In x (pre ++ post) -> e_name x <> text "vertex") ->
  header_text be (pre ++ e :: post) hd -> has_xyz e -> no_collision (pre ++ e :: post) ->
  Forall2 rows_ok pre dpre -> rows_ok e rows -> Forall2 rows_ok post dpost ->
  exists ts, read_points_cpp ascii_data (hd ++ List.concat (List.concat (List.concat (dpre ++ rows :: dpost))) ++ extra) = Ok (flat_map triple_floats ts) /\
    Forall2 (row_is be e) rows ts.
Proof. exact read_ok. Qed.

Definition triple_of (to_f32 : R -> f32) (p : vec) : f32 * f32 * f32 := (to_f32 (vx p), to_f32 (vy p), to_f32 (vz p)).
Definition rgb_of (c : color) : ascii * ascii * ascii := (ascii_of_N (Z.to_N (red c)), ascii_of_N (Z.to_N (green c)), ascii_of_N (Z.to_N (blue c))).
Lemma coordinates_floats : forall to_f32 ps, flat_map (coordinates to_f32) ps = flat_map triple_floats (map (triple_of to_f32) ps).
Proof. intros to_f32 ps. induction ps as [|p ps IH]; [reflexivity|]. cbn [flat_map map]. rewrite IH. reflexivity. Qed.
Lemma coordinates_count : forall to_f32 ps, (N.of_nat (List.length (flat_map (coordinates to_f32) ps)) / 3 = N.of_nat (List.length ps))%N.
Proof.
  intros to_f32 ps. assert (L : List.length (flat_map (coordinates to_f32) ps) = (List.length ps * 3)%nat) by (induction ps as [|p ps IH]; [reflexivity|]; cbn [flat_map]; rewrite app_length, IH; cbn; lia).
  rewrite L, Nat2N.inj_mul. apply N.div_mul. discriminate.
Qed.
Lemma color_rgb : forall cs, flat_map color_bytes cs = flat_map rgb_bytes (map rgb_of cs).
Proof. intro cs. induction cs as [|c cs IH]; [reflexivity|]. cbn [flat_map map]. rewrite IH. reflexivity. Qed.
Lemma names_ok : forall n, (n < 18446744073709551616)%N -> forall ps, (ps = xyz \/ ps = xyz ++ rgb) -> header_text false [Element (text "vertex") n ps] (write_header [Element (text "vertex") n ps]).
Proof.
  intros n B ps H. apply write_header_text. constructor; [|constructor]. cbn [e_name e_size e_properties]. split; [apply word_bool; [discriminate|reflexivity]|]. split; [exact B|].
  destruct H as [-> | ->]; repeat (apply Forall_cons; [split; [apply word_bool; [discriminate|reflexivity]|split; [reflexivity|discriminate]]|]); apply Forall_nil.
Qed.
Lemma flat_one : forall n name ps, flat [Element name n ps] = List.concat (repeat (map (pair (Element name n ps)) ps) (N.to_nat n)).
Proof. intros. unfold flat. cbn [flat_map e_properties e_size]. apply app_nil_r. Qed.

Lemma bind_ok : forall A B (r : res A) x (k : A -> res B), r = Ok x -> (let* y := r in k y) = k x.
Proof. intros A B r x k ->. reflexivity. Qed.
Lemma flat_vertex : forall ts : list (f32 * f32 * f32), flat [vertex_el (N.of_nat (List.length ts))] = List.concat (repeat (map (pair (vertex_el (N.of_nat (List.length ts)))) xyz) (List.length ts)).
Proof. intro ts. unfold vertex_el at 1. rewrite flat_one, Nat2N.id. reflexivity. Qed.
Lemma flat_vertex_rgb : forall ts : list (f32 * f32 * f32), flat [vertex_rgb_el (N.of_nat (List.length ts))] = List.concat (repeat (map (pair (vertex_rgb_el (N.of_nat (List.length ts)))) (xyz ++ rgb)) (List.length ts)).
Proof. intro ts. unfold vertex_rgb_el at 1. rewrite flat_one, Nat2N.id. reflexivity. Qed.
Lemma binary3 : forall ts, write_binary (Writer [vertex_el (N.of_nat (List.length ts))] user3 [(flat_map triple_bytes ts, 0%nat)]) = Ok (write_header [vertex_el (N.of_nat (List.length ts))] ++ flat_map triple_bytes ts).
Proof. intro ts. rewrite write_flat. cbn [w_user w_buffers w_elements]. rewrite flat_vertex. exact (bind_ok _ _ _ _ _ (write_rows3 _ ts [] [])). Qed.
Lemma binary6 : forall ts cs, List.length cs = List.length ts -> write_binary (Writer [vertex_rgb_el (N.of_nat (List.length ts))] user6 [(flat_map triple_bytes ts, 0%nat); (flat_map rgb_bytes cs, 0%nat)]) =
  Ok (write_header [vertex_rgb_el (N.of_nat (List.length ts))] ++ flat_map point_bytes (combine ts cs)).
Proof. intros ts cs L. rewrite write_flat. cbn [w_user w_buffers w_elements]. rewrite flat_vertex_rgb. destruct (write_rows6 (N.of_nat (List.length ts)) ts cs [] [] [] L) as (bs & E). exact (bind_ok _ _ _ _ _ E). Qed.
Lemma bind_err : forall A B (r : res A) x (k : A -> res B), r = Err x -> (let* y := r in k y) = Err x.
Proof. intros A B r x k ->. reflexivity. Qed.
Lemma binary6_short : forall ts cs, (List.length cs < List.length ts)%nat -> write_binary (Writer [vertex_rgb_el (N.of_nat (List.length ts))] user6 [(flat_map triple_bytes ts, 0%nat); (flat_map rgb_bytes cs, 0%nat)]) = Err Undefined.
Proof. intros ts cs L. rewrite write_flat. cbn [w_user w_buffers w_elements]. rewrite flat_vertex_rgb. exact (bind_err _ _ _ _ _ (write_rows6_short _ ts cs [] [] [] L)). Qed.

Lemma write_uncolored : forall to_f32 c, colored c = false ->
  write_ply to_f32 c = Ok (write_header [vertex_el (N.of_nat (List.length (points c)))] ++ flat_map triple_bytes (map (triple_of to_f32) (points c))).
Proof.
  intros to_f32 c C. unfold write_ply. rewrite C. unfold write_points_cpp. rewrite vertex_writer_is, coordinates_count, coordinates_floats, <- triples_bytes.
  assert (W := binary3 (map (triple_of to_f32) (points c))). rewrite map_length in W. rewrite W. reflexivity.
Qed.
Lemma write_colored : forall to_f32 c, colored c = true -> List.length (colors c) = List.length (points c) ->
  write_ply to_f32 c = Ok (write_header [vertex_rgb_el (N.of_nat (List.length (points c)))] ++ flat_map point_bytes (combine (map (triple_of to_f32) (points c)) (map rgb_of (colors c)))).
Proof.
  intros to_f32 c C L. unfold write_ply. rewrite C. unfold write_points_and_colors_cpp. rewrite color_writer_is, coordinates_count, coordinates_floats, <- triples_bytes, color_rgb.
  assert (W := binary6 (map (triple_of to_f32) (points c)) (map rgb_of (colors c))). rewrite !map_length in W. rewrite W by exact L. reflexivity.
Qed.

(** What write_ply writes. *)
Theorem C73_write : forall to_f32 c l, entries c l -> (N.of_nat (List.length l) < 18446744073709551616)%N ->
  exists hd, write_ply to_f32 c = Ok (hd ++ flat_map (point_row to_f32) l) /\
    header_text false [Element (text "vertex") (N.of_nat (List.length l)) (if colored c then xyz_properties ++ rgb_properties else xyz_properties)] hd.
Proof.
  intros to_f32 c l E B. assert (LP : List.length (points c) = List.length l) by (destruct E as (-> & _); apply map_length). destruct (colored c) eqn:C.
  - destruct (entries_colored c l E C) as (_ & M). assert (LC := entries_lengths c l E C). exists (write_header [vertex_rgb_el (N.of_nat (List.length l))]). split; [|apply names_ok; [exact B|right; reflexivity]].
    rewrite write_colored by (try assumption; symmetry; exact LC). rewrite LP. f_equal. f_equal. destruct E as (P & _). rewrite P. clear -M. revert M. generalize (colors c). unfold entry in *. induction l as [|[p k] l IH]; intros [|q cs] M; try discriminate M; [reflexivity|].
    cbn in M. injection M as -> M. cbn [map combine flat_map fst snd]. rewrite (IH cs M). f_equal. unfold point_bytes, point_row, triple_bytes, triple_of, rgb_of. cbn [fst snd rgb_bytes]. rewrite <- !app_assoc. reflexivity.
  - destruct (entries_uncolored c l E C) as (F & _). exists (write_header [vertex_el (N.of_nat (List.length l))]). split; [|apply names_ok; [exact B|left; reflexivity]].
    rewrite write_uncolored by exact C. rewrite LP. f_equal. f_equal. destruct E as (P & _). rewrite P. clear -F. induction F as [|[p k] l H F IH]; [reflexivity|]. cbn in H. subst k. cbn [map flat_map fst snd]. rewrite IH. f_equal. unfold point_row, triple_bytes, triple_of. cbn [fst snd]. rewrite app_nil_r. reflexivity.
Qed.

Lemma field_at : forall e row k f i p g, field e row k f -> nth_error (e_properties e) i = Some p -> p_name p = text k -> nth_error row i = Some g ->
  (forall j q, nth_error (e_properties e) j = Some q -> p_name q = text k -> j = i) -> f = g.
Proof. intros e row k f i p g (j & q & A & B & C) _ _ G U. apply U in A; [|exact B]. subst j. congruence. Qed.
Lemma columns_triples : forall of_f32 ts, columns_of of_f32 (flat_map triple_floats ts) = map (fun t => V (of_f32 (fst (fst t))) (of_f32 (snd (fst t))) (of_f32 (snd t))) ts.
Proof. intros of_f32 ts. induction ts as [|[[x y] z] ts IH]; [reflexivity|]. cbn [flat_map triple_floats fst snd app columns_of map]. rewrite IH. reflexivity. Qed.
Lemma collisions : forall n ps, ps = xyz \/ ps = xyz ++ rgb -> no_collision [Element (text "vertex") n ps].
Proof.
  intros n ps H e p k [<- |[]] IP IK EQ. cbn [e_name e_properties] in *. split; [reflexivity|].
  assert (IP' : In p (xyz ++ rgb)) by (destruct H as [-> | ->]; [apply in_or_app; left; exact IP|exact IP]). clear IP H.
  destruct IP' as [<- |[<- |[<- |[<- |[<- |[<- |[]]]]]]]; destruct IK as [<- |[<- |[<- |[]]]]; try reflexivity; exfalso; vm_compute in EQ; discriminate EQ.
Qed.

Lemma load_rows : forall ascii_data of_f32 n ps hd rows ts, (ps = xyz \/ ps = xyz ++ rgb) -> header_text false [Element (text "vertex") n ps] hd -> rows_ok (Element (text "vertex") n ps) rows -> rows <> [] ->
  Forall2 (fun row t => exists r, row = float_bytes (fst (fst t)) :: float_bytes (snd (fst t)) :: float_bytes (snd t) :: r) rows ts ->
  load_ply ascii_data of_f32 (Some (hd ++ List.concat (List.concat rows))) = Ok (Cloud (map (fun t => V (of_f32 (fst (fst t))) (of_f32 (snd (fst t))) (of_f32 (snd t))) ts) []).
Proof.
  intros ascii_data of_f32 n ps hd rows ts PS HD RO NE F. unfold load_ply.
  destruct (read_ok ascii_data false [] (Element (text "vertex") n ps) [] hd [] rows [] []) as (us & E & G); try assumption; try apply Forall2_nil; [reflexivity|intros x []|destruct PS as [-> | ->]; reflexivity|apply collisions, PS|].
  cbn [app List.concat] in E. rewrite !app_nil_r in E. rewrite E. cbn [no_except bind]. rewrite columns_triples.
  assert (US : us = ts).
  { clear E RO NE HD. revert us G. induction F as [|row t rows ts (r & ->) F IH]; intros us G; inversion G as [|? u ? us' (fx & fy & fz & A1 & A2 & A3 & A4 & A5 & A6) G']; subst; [reflexivity|]. f_equal; [|apply IH, G'].
    assert (K : forall k i q, In (k, i) [("x", 0%nat); ("y", 1%nat); ("z", 2%nat)] -> forall j, nth_error ps j = Some q -> p_name q = text k -> j = i).
    { intros k i q I j N P. destruct PS as [-> | ->]; destruct I as [I|[I|[I|[]]]]; injection I as <- <-; do 6 (destruct j as [|j]; [cbn in N; first [discriminate N | injection N as <-; cbn in P; first [reflexivity | discriminate P]]|]); destruct j; discriminate N. }
    assert (P0 : exists q, nth_error ps 0 = Some q /\ p_name q = text "x") by (destruct PS as [-> | ->]; eexists; split; reflexivity).
    assert (P1 : exists q, nth_error ps 1 = Some q /\ p_name q = text "y") by (destruct PS as [-> | ->]; eexists; split; reflexivity).
    assert (P2 : exists q, nth_error ps 2 = Some q /\ p_name q = text "z") by (destruct PS as [-> | ->]; eexists; split; reflexivity).
    destruct P0 as (q0 & N0 & M0), P1 as (q1 & N1 & M1), P2 as (q2 & N2 & M2).
    assert (X := field_at _ _ _ _ 0 _ (float_bytes (fst (fst t))) A1 N0 M0 eq_refl ltac:(intros; eapply (K "x" 0%nat); [left; reflexivity|eassumption|assumption])).
    assert (Y := field_at _ _ _ _ 1 _ (float_bytes (snd (fst t))) A3 N1 M1 eq_refl ltac:(intros; eapply (K "y" 1%nat); [right; left; reflexivity|eassumption|assumption])).
    assert (Z := field_at _ _ _ _ 2 _ (float_bytes (snd t)) A5 N2 M2 eq_refl ltac:(intros; eapply (K "z" 2%nat); [right; right; left; reflexivity|eassumption|assumption])).
    assert (INJ : forall f (x y : f32), float_of false f x -> f = float_bytes y -> x = y) by (intros f [[[a b] c] d] [[[a' b'] c'] d'] H ->; cbn in H; injection H as -> -> -> ->; reflexivity).
    destruct t as [[x y] z], u as [[x' y'] z']. cbn [fst snd] in *. rewrite (INJ _ _ _ A2 X), (INJ _ _ _ A4 Y), (INJ _ _ _ A6 Z). reflexivity. }
  subst us. destruct ts as [|t ts]; [inversion F; subst; congruence|]. cbn [map]. reflexivity.
Qed.

(** Loading what was written gives the points, with the rounding of the coordinates, and
    without colors. *)
Theorem C73_roundtrip : forall ascii_data to_f32 of_f32 c, coherent c -> points c <> [] -> (N.of_nat (num_points c) < 18446744073709551616)%N ->
  (let* f := write_ply to_f32 c in load_ply ascii_data of_f32 (Some f)) =
  Ok (Cloud (map (fun p => V (of_f32 (to_f32 (vx p))) (of_f32 (to_f32 (vy p))) (of_f32 (to_f32 (vz p)))) (points c)) []).
Proof.
  intros ascii_data to_f32 of_f32 c (l & E) NE B. unfold num_points in B. destruct (colored c) eqn:C.
  - assert (LC := entries_lengths c l E C). rewrite write_colored by (try assumption; symmetry; exact LC). cbn [bind].
    set (rw := fun q : (f32 * f32 * f32) * (ascii * ascii * ascii) => [float_bytes (fst (fst (fst q))); float_bytes (snd (fst (fst q))); float_bytes (snd (fst q)); [fst (fst (snd q))]; [snd (fst (snd q))]; [snd (snd q)]]).
    set (qs := combine (map (triple_of to_f32) (points c)) (map rgb_of (colors c))).
    assert (LQ : List.length qs = List.length (points c)) by (unfold qs; rewrite combine_length, !map_length, <- LC; lia).
    assert (FQ : map fst qs = map (triple_of to_f32) (points c)). { unfold qs. clear -LC. revert LC. generalize (colors c). induction (points c) as [|p ps IH]; intros [|k cs] L; try discriminate L; [reflexivity|]. cbn [map combine fst]. f_equal. apply IH. cbn in L. lia. }
    assert (EB : flat_map point_bytes qs = List.concat (List.concat (map rw qs))). { clear. induction qs as [|[[[x y] z] [[r g] b]] qs IH]; [reflexivity|]. cbn [map List.concat flat_map]. rewrite concat_app, <- IH. f_equal. unfold point_bytes, triple_bytes, rw. cbn [fst snd rgb_bytes List.concat]. rewrite !app_nil_r, <- !app_assoc. reflexivity. }
    rewrite EB. rewrite (load_rows ascii_data of_f32 (N.of_nat (List.length (points c))) (xyz ++ rgb) _ (map rw qs) (map fst qs)).
    + rewrite FQ, map_map. reflexivity.
    + right. reflexivity.
    + apply names_ok; [exact B|right; reflexivity].
    + split; [rewrite map_length, LQ; reflexivity|]. apply Forall_forall. intros row I. apply in_map_iff in I. destruct I as ([[[x y] z] [[r g] b]] & <- & _). unfold row_ok, rw. cbn [e_properties fst snd xyz rgb app].
      repeat apply Forall2_cons; try apply Forall2_nil; cbn [p_type]; rewrite ?float_length; constructor.
    + intro Z. apply (f_equal (@List.length _)) in Z. rewrite map_length, LQ in Z. destruct (points c); [congruence|discriminate Z].
    + clear. induction qs as [|q qs IH]; cbn [map]; constructor; [|exact IH]. unfold rw. eexists. reflexivity.
  - rewrite write_uncolored by exact C. cbn [bind].
    set (rw := fun t : f32 * f32 * f32 => [float_bytes (fst (fst t)); float_bytes (snd (fst t)); float_bytes (snd t)]). set (ts := map (triple_of to_f32) (points c)).
    assert (EB : flat_map triple_bytes ts = List.concat (List.concat (map rw ts))). { clear. induction ts as [|[[x y] z] ts IH]; [reflexivity|]. cbn [map List.concat flat_map]. rewrite concat_app, <- IH. f_equal. unfold triple_bytes, rw. cbn [fst snd List.concat]. rewrite !app_nil_r. reflexivity. }
    rewrite EB. rewrite (load_rows ascii_data of_f32 (N.of_nat (List.length (points c))) xyz _ (map rw ts) ts).
    + unfold ts. rewrite map_map. reflexivity.
    + left. reflexivity.
    + apply names_ok; [exact B|left; reflexivity].
    + split; [unfold ts; rewrite !map_length; reflexivity|]. apply Forall_forall. intros row I. apply in_map_iff in I. destruct I as ([[x y] z] & <- & _). unfold row_ok, rw. cbn [e_properties fst snd xyz].
      repeat apply Forall2_cons; try apply Forall2_nil; cbn [p_type]; rewrite ?float_length; constructor.
    + unfold ts. intro Z. apply map_eq_nil, map_eq_nil in Z. contradiction.
    + clear. induction ts as [|t ts IH]; cbn [map]; constructor; [|exact IH]. unfold rw. eexists. reflexivity.
Qed.

(** * C74 *)

(** A file that cannot be opened ends the process: load_ply never raises an error for
    it. *)
Theorem C74_missing_refuted : forall ascii_data of_f32, load_ply ascii_data of_f32 None = Err Terminate.
Proof. reflexivity. Qed.

(** So does a file without vertices. *)
Theorem C74_no_vertex_refuted : forall ascii_data of_f32 be els hd data, header_text be els hd -> (forall e, In e els -> e_name e <> text "vertex") ->
  load_ply ascii_data of_f32 (Some (hd ++ data)) = Err Terminate.
Proof.
  intros ascii_data of_f32 be els hd data HD N. unfold load_ply, read_points_cpp. rewrite (parse_header_ok be els hd data HD). cbn [bind elements]. unfold request_properties.
  assert (F : find_element "vertex" els = None). { unfold find_element. clear HD. induction els as [|e els IH]; [reflexivity|]. cbn [find]. destruct (same (e_name e) "vertex") eqn:S; [apply same_true in S; exfalso; apply (N e); [left; reflexivity|exact S]|]. apply IH. intros x I. apply N. right. exact I. }
  rewrite F. destruct els; reflexivity.
Qed.

(** Cutting off any part of the data of a file is not noticed: the result has the right
    number of points, and all coordinates of all points are the same number. *)
Lemma short_read : forall ascii_data n ps hd data, (ps = xyz \/ ps = xyz ++ rgb) -> header_text false [Element (text "vertex") n ps] hd ->
  (List.length data < need (flat [Element (text "vertex") n ps]))%nat -> exists v, read_points_cpp ascii_data (hd ++ data) = Ok (repeat v (3 * N.to_nat n)).
Proof.
  intros ascii_data n ps hd data PS HD L. unfold read_points_cpp. rewrite (parse_header_ok false _ hd data HD). cbn [bind elements is_binary is_big_endian].
  assert (HX : has_xyz (Element (text "vertex") n ps)) by (destruct PS as [-> | ->]; reflexivity).
  assert (RQ0 := request_ok [] (Element (text "vertex") n ps) [] eq_refl ltac:(intros x []) HX). cbn [app e_size] in RQ0. rewrite RQ0. cbn [bind].
  destruct (header_scalar _ _ _ HD) as (SC & _). destruct (read_data_short false xyz_keys _ data SC L) as (sc & L8 & E). rewrite E. cbn [bind swap].
  destruct sc as [|a [|b [|c [|d sc]]]]; try (cbn in L8; lia). exists (a, b, c, d).
  assert (OUT : flat_map (fun ep : element * property => if requested xyz_keys (fst ep) (snd ep) then firstn (stride (p_type (snd ep))) (a :: b :: c :: d :: sc) else []) (flat [Element (text "vertex") n ps]) = flat_map float_bytes (repeat (a, b, c, d) (3 * N.to_nat n))).
  { rewrite flat_one. clear L HD SC E RQ0. assert (R : forall m, flat_map (fun ep : element * property => if requested xyz_keys (fst ep) (snd ep) then firstn (stride (p_type (snd ep))) (a :: b :: c :: d :: sc) else []) (List.concat (repeat (map (pair (Element (text "vertex") n ps)) ps) m)) = flat_map float_bytes (repeat (a, b, c, d) (3 * m))); [|apply R].
    assert (RQ : forall k b', In (k, b') [("x", true); ("y", true); ("z", true); ("red", false); ("green", false); ("blue", false)] -> forall t, requested xyz_keys (Element (text "vertex") n ps) (Property (text k) t None) = b').
    { intros k b' I t. destruct I as [I|[I|[I|[I|[I|[I|[]]]]]]]; injection I as <- <-; unfold requested; cbn [e_name p_name]; vm_compute; reflexivity. }
    intro m. induction m as [|m IH]; [reflexivity|]. cbn [repeat List.concat]. rewrite flat_map_app, IH. replace (3 * S m)%nat with (3 + 3 * m)%nat by lia. rewrite repeat_app, flat_map_app. f_equal.
    destruct PS as [-> | ->]; unfold xyz, rgb; cbn [map app flat_map fst snd p_type stride].
    - rewrite !(RQ "x" true) by (cbn; tauto). rewrite !(RQ "y" true) by (cbn; tauto). rewrite !(RQ "z" true) by (cbn; tauto). reflexivity.
    - rewrite !(RQ "x" true) by (cbn; tauto). rewrite !(RQ "y" true) by (cbn; tauto). rewrite !(RQ "z" true) by (cbn; tauto). rewrite !(RQ "red" false) by (cbn; tauto). rewrite !(RQ "green" false) by (cbn; tauto). rewrite !(RQ "blue" false) by (cbn; tauto). reflexivity. }
  cbn [fst] in OUT. rewrite OUT. assert (LF : forall l, List.length (flat_map float_bytes l) = (4 * List.length l)%nat) by (intro l; induction l as [|f l IH]; [reflexivity|]; cbn [flat_map]; rewrite app_length, IH, float_length; cbn; lia).
  rewrite LF, repeat_length. rewrite (proj2 (Nat.leb_le _ _)) by lia. replace (12 * N.to_nat n - 4 * (3 * N.to_nat n))%nat with 0%nat by lia. cbn [repeat]. rewrite floats_bytes. cbn [floats]. rewrite app_nil_r. reflexivity.
Qed.
Lemma columns_repeat : forall of_f32 v n, columns_of of_f32 (repeat v (3 * n)) = repeat (V (of_f32 v) (of_f32 v) (of_f32 v)) n.
Proof. intros of_f32 v n. induction n as [|n IH]; [reflexivity|]. replace (3 * S n)%nat with (S (S (S (3 * n)))) by lia. cbn [repeat columns_of]. rewrite IH. reflexivity. Qed.
Theorem C74_truncated_refuted : forall ascii_data to_f32 of_f32 c l, entries c l -> l <> [] -> (N.of_nat (List.length l) < 18446744073709551616)%N ->
  exists hd data, write_ply to_f32 c = Ok (hd ++ data) /\ (12 * List.length l <= List.length data)%nat /\
    forall k, (k < List.length data)%nat -> exists x, load_ply ascii_data of_f32 (Some (hd ++ firstn k data)) = Ok (Cloud (repeat (V x x x) (List.length l)) []).
Proof.
  intros ascii_data to_f32 of_f32 c l E NE B. destruct (C73_write to_f32 c l E B) as (hd & W & HD). exists hd, (flat_map (point_row to_f32) l). split; [exact W|].
  assert (LP : List.length (points c) = List.length l) by (destruct E as (-> & _); apply map_length).
  assert (PS : (if colored c then xyz_properties ++ rgb_properties else xyz_properties) = xyz \/ (if colored c then xyz_properties ++ rgb_properties else xyz_properties) = xyz ++ rgb) by (destruct (colored c); [right|left]; reflexivity).
  assert (ND : List.length (flat_map (point_row to_f32) l) = need (flat [Element (text "vertex") (N.of_nat (List.length l)) (if colored c then xyz_properties ++ rgb_properties else xyz_properties)])).
  { rewrite flat_one, Nat2N.id. assert (ST : forall f, List.length (stored f) = 4%nat) by (intros [[[? ?] ?] ?]; reflexivity).
    assert (CN : forall A (x : list A) m, List.length (List.concat (repeat x m)) = (m * List.length x)%nat) by (intros A x m; induction m as [|m IH]; [reflexivity|]; cbn [repeat List.concat]; rewrite app_length, IH; reflexivity).
    assert (NR : forall x m, need (List.concat (repeat x m)) = (m * need x)%nat). { intros x m. induction m as [|m IH]; [reflexivity|]. cbn [repeat List.concat]. unfold need in *. rewrite map_app, list_sum_app, IH. reflexivity. }
    rewrite NR. destruct (colored c) eqn:C.
    - destruct (entries_colored c l E C) as (_ & M). cbn [xyz_properties rgb_properties map app need list_sum fold_right p_type snd stride].
      assert (F := some_colors _ _ M). clear -F ST. induction F as [|[p [k|]] l H F IH]; [reflexivity| |cbn in H; congruence]. cbn [flat_map]. rewrite app_length, IH. unfold point_row. cbn [fst snd]. rewrite !app_length, !ST. cbn. lia.
    - destruct (entries_uncolored c l E C) as (F & _). cbn [xyz_properties map need list_sum fold_right p_type snd stride].
      clear -F ST. induction F as [|[p k] l H F IH]; [reflexivity|]. cbn in H. subst k. cbn [flat_map]. rewrite app_length, IH. unfold point_row. cbn [fst snd]. rewrite !app_length, !ST. cbn. lia. }
  split.
  - clear. assert (ST : forall f, List.length (stored f) = 4%nat) by (intros [[[? ?] ?] ?]; reflexivity). induction l as [|e l IH]; [cbn; lia|]. cbn [flat_map List.length]. rewrite app_length. unfold point_row at 1. rewrite !app_length, !ST. lia.
  - intros k K. destruct (short_read ascii_data _ _ hd (firstn k (flat_map (point_row to_f32) l)) PS HD) as (v & R); [rewrite <- ND, firstn_length; lia|].
    exists (of_f32 v). unfold load_ply. rewrite R. cbn [no_except bind]. rewrite Nat2N.id, columns_repeat. destruct l; [congruence|]. reflexivity.
Qed.

(** Points stored as doubles are copied into too small a vector. *)
Theorem C74_double_refuted : forall ascii_data of_f32 be n hd rows, let e := Element (text "vertex") n (map (fun k => Property (text k) FLOAT64 None) ["x"; "y"; "z"]) in
  header_text be [e] hd -> rows_ok e rows -> n <> 0%N -> load_ply ascii_data of_f32 (Some (hd ++ List.concat (List.concat rows))) = Err Undefined.
Proof.
  intros ascii_data of_f32 be n hd rows e HD (LR & FR) NZ. unfold load_ply, read_points_cpp. rewrite (parse_header_ok be _ hd _ HD). cbn [bind elements is_binary is_big_endian].
  replace (request_properties [e] "vertex" ["x"; "y"; "z"]) with (@Ok (list N * N) (xyz_keys, n)) by (unfold e; vm_compute; reflexivity). cbn [bind].
  destruct (header_scalar _ _ _ HD) as (SC & _). assert (DF : Forall2 rows_ok [e] [rows]) by (constructor; [split; assumption|constructor]). assert (DFL := data_flat _ _ DF). cbn [List.concat] in DFL. rewrite app_nil_r in DFL.
  assert (RD := read_data_good be xyz_keys _ _ [] SC DFL). rewrite app_nil_r in RD. unfold bytes in *. rewrite RD. cbn [bind].
  rewrite (taken_length _ _ _ _ DFL). assert (NR : reqd xyz_keys (flat [e]) = (24 * N.to_nat n)%nat).
  { unfold e. rewrite flat_one. assert (R : forall m, reqd xyz_keys (List.concat (repeat (map (pair e) (e_properties e)) m)) = (24 * m)%nat); [|apply R]. intro m. induction m as [|m IH]; [reflexivity|]. cbn [repeat List.concat]. unfold reqd in *. rewrite map_app, list_sum_app, IH.
    replace (list_sum (map (fun ep => if requested xyz_keys (fst ep) (snd ep) then stride (p_type (snd ep)) else 0%nat) (map (pair e) (e_properties e)))) with 24%nat by (unfold e; vm_compute; reflexivity). lia. }
  rewrite NR. rewrite (proj2 (Nat.leb_gt _ _)) by lia. reflexivity.
Qed.

(** The order of the properties in the file decides, not their names. *)
Definition header_zyx : bytes := text "ply" ++ [newline] ++ text "format binary_little_endian 1.0" ++ [newline] ++ text "element vertex 1" ++ [newline] ++
  text "property float z" ++ [newline] ++ text "property float y" ++ [newline] ++ text "property float x" ++ [newline] ++ text "end_header" ++ [newline].
Theorem C74_order_refuted : exists e hd, header_text false [e] hd /\ e_name e = text "vertex" /\
  forall ascii_data of_f32 fx fy fz, field e [stored fz; stored fy; stored fx] "x" (stored fx) /\ field e [stored fz; stored fy; stored fx] "z" (stored fz) /\
    load_ply ascii_data of_f32 (Some (hd ++ stored fz ++ stored fy ++ stored fx)) = Ok (Cloud [V (of_f32 fz) (of_f32 fy) (of_f32 fx)] []).
Proof.
  exists (Element (text "vertex") 1 (map (fun k => Property (text k) FLOAT32 None) ["z"; "y"; "x"])), header_zyx. split; [|split; [reflexivity|]].
  - assert (H := write_header_text [Element (text "vertex") 1 (map (fun k => Property (text k) FLOAT32 None) ["z"; "y"; "x"])]).
    replace header_zyx with (write_header [Element (text "vertex") 1 (map (fun k => Property (text k) FLOAT32 None) ["z"; "y"; "x"])]) by (vm_compute; reflexivity). apply H. constructor; [|constructor]. cbn [e_name e_size e_properties map].
    split; [apply word_bool; [discriminate|reflexivity]|]. split; [reflexivity|]. repeat (apply Forall_cons; [split; [apply word_bool; [discriminate|reflexivity]|split; [reflexivity|discriminate]]|]); apply Forall_nil.
  - intros ascii_data of_f32 [[[a b] c] d] [[[a' b'] c'] d'] [[[a'' b''] c''] d'']. split; [exists 2%nat; eexists; repeat split; reflexivity|]. split; [exists 0%nat; eexists; repeat split; reflexivity|]. vm_compute. reflexivity.
Qed.

(** The empty cloud can be written but not loaded. *)
Theorem C74_empty_refuted : forall ascii_data to_f32 of_f32, exists f, write_ply to_f32 empty_cloud = Ok f /\ load_ply ascii_data of_f32 (Some f) = Err AssertionError.
Proof. intros. eexists. split; [reflexivity|]. vm_compute. reflexivity. Qed.

(** A cloud with fewer colors than points, as merge makes it (C46_merge_refuted), is
    written from memory beyond the colors. *)
Theorem C74_misaligned_refuted : forall to_f32 c, colored c = true -> (List.length (colors c) < num_points c)%nat -> write_ply to_f32 c = Err Undefined.
Proof.
  intros to_f32 c C L. unfold num_points in L. unfold write_ply. rewrite C. unfold write_points_and_colors_cpp. rewrite color_writer_is, coordinates_count, coordinates_floats, <- triples_bytes, color_rgb.
  assert (W := binary6_short (map (triple_of to_f32) (points c)) (map rgb_of (colors c))). rewrite !map_length in W. rewrite W by exact L. reflexivity.
Qed.

(** * Non-vacuity *)
(** Comment lines, obj_info lines, blank lines and further magic words anywhere before the
    end of the header of such a file change nothing. *)
Theorem C73_comments : forall ascii_data of_f32 be els a b data,
  header_text be els (unlines a) -> Forall one_line a -> with_noise a b ->
  load_ply ascii_data of_f32 (Some (unlines b ++ data)) = load_ply ascii_data of_f32 (Some (unlines a ++ data)).
Proof.
  intros ascii_data of_f32 be els a b data H F W. unfold load_ply, read_points_cpp. rewrite (header_noise be els a b data H F W). reflexivity.
Qed.
Definition plain_lines : list bytes := map text ["ply"; "format binary_big_endian 1.0"; "element vertex 1"; "property float x"; "property float y"; "property float z"; "end_header"].
Definition commented_lines : list bytes := map text ["ply"; "comment end_header is not here"; "format binary_big_endian 1.0"; "element vertex 1"; "property float x"; "obj_info"; " "; "property float y"; "property float z"; "end_header"].
Example C73_comments_case :
  header_text true [Element (text "vertex") 1 xyz] (unlines plain_lines) /\ Forall one_line plain_lines /\ with_noise plain_lines commented_lines /\ (forall ascii_data, read_points_cpp ascii_data (unlines commented_lines ++ text "ABCDEFGHIJKL") = Ok [("D", "C", "B", "A"); ("H", "G", "F", "E"); ("L", "K", "J", "I")]%char).
Proof.
  split; [|split; [|split]].
  - exists [unlines (map text ["element vertex 1"; "property float x"; "property float y"; "property float z"])]. split; [|reflexivity]. apply Forall2_cons; [|apply Forall2_nil]. exists (text "1"), (map (fun l => l ++ [newline]) (map text ["property float x"; "property float y"; "property float z"])).
    split; [apply word_bool; [discriminate|reflexivity]|]. split; [reflexivity|]. split; [split; [discriminate|split; [repeat constructor; vm_compute; discriminate|reflexivity]]|]. split; [|reflexivity].
    repeat apply Forall2_cons; [| | |apply Forall2_nil]; exists "float"; (split; [constructor|]; split; [apply word_bool; [discriminate|reflexivity]|]; split; reflexivity).
  - repeat constructor; discriminate.
  - unfold plain_lines, commented_lines. cbn [map]. apply noise_keep. apply noise_add; [discriminate|repeat constructor; discriminate|right|].
    { exists "comment". split; [left; reflexivity|]. right. exists (text "end_header is not here"). reflexivity. }
    do 3 apply noise_keep. apply noise_add; [discriminate|repeat constructor; discriminate|right|].
    { exists "obj_info". split; [right; left; reflexivity|]. left. reflexivity. }
    apply noise_add; [discriminate|repeat constructor; discriminate|left|].
    { constructor; [left; reflexivity|constructor]. }
    do 3 apply noise_keep. apply noise_nil.
  - intro ascii_data. vm_compute. reflexivity.
Qed.

Example C73_text : forall to_f32, exists f, write_ply to_f32 (Cloud [V 1 2 3] [Color 65 66 67]) = Ok f /\
  string_of_list_ascii (firstn 68 f) = ("ply" ++ String newline ("format binary_little_endian 1.0" ++ String newline ("element vertex 1" ++ String newline "property float ")))%string /\
  string_of_list_ascii (skipn (List.length f - 3) f) = "ABC".
Proof.
  intro to_f32. destruct (to_f32 1%R) as [[[a b] c] d] eqn:E1, (to_f32 2%R) as [[[a' b'] c'] d'] eqn:E2, (to_f32 3%R) as [[[a'' b''] c''] d''] eqn:E3.
  eexists. split; [unfold write_ply; cbn [points flat_map coordinates vx vy vz app]; rewrite E1, E2, E3; vm_compute; reflexivity|]. split; vm_compute; reflexivity.
Qed.
Example C73_big_endian : forall ascii_data, exists hd f,
  header_text true [Element (text "camera") 1 [Property (text "id") UINT16 None]; Element (text "vertex") 1 [Property (text "x") FLOAT32 None; Property (text "w") INT8 None; Property (text "y") FLOAT32 None; Property (text "z") FLOAT32 None]] hd /\
  f = hd ++ text "##ABCD#EFGHIJKL" /\ read_points_cpp ascii_data f = Ok [("D", "C", "B", "A"); ("H", "G", "F", "E"); ("L", "K", "J", "I")]%char.
Proof.
  intro ascii_data. eexists. eexists. split; [|split; [reflexivity|]].
  - eexists. split; [|reflexivity]. repeat apply Forall2_cons; [| |apply Forall2_nil]; exists (text "1"); eexists;
      (split; [apply word_bool; [discriminate|reflexivity]|]; split; [reflexivity|]; split; [split; [discriminate|split; [repeat constructor; vm_compute; discriminate|reflexivity]]|]; split; [|reflexivity]).
    + repeat apply Forall2_cons; [|apply Forall2_nil]. exists "ushort". split; [constructor|]. split; [apply word_bool; [discriminate|reflexivity]|]. split; reflexivity.
    + repeat apply Forall2_cons; [| | | |apply Forall2_nil]; [exists "float"|exists "int8"|exists "float32"|exists "float"]; (split; [constructor|]; split; [apply word_bool; [discriminate|reflexivity]|]; split; reflexivity).
  - vm_compute. reflexivity.
Qed.

Print Assumptions C73_read.
Print Assumptions C73_write.
Print Assumptions C73_roundtrip.
Print Assumptions C74_missing_refuted.
Print Assumptions C74_no_vertex_refuted.
Print Assumptions C74_truncated_refuted.
Print Assumptions C74_double_refuted.
Print Assumptions C74_order_refuted.
Print Assumptions C74_empty_refuted.
Print Assumptions C74_misaligned_refuted.
Print Assumptions C73_comments.
