(** C84: images between numpy and OpenCV. *)
From Coq Require Import List ZArith Bool Lia.
From Verif.Base Require Import Py.
From Verif.Wrap Require Import Model Spec Proofs.
Import ListNotations.
Local Open Scope Z_scope.

(** The typed conversions to OpenCV: a C-contiguous array of the right type becomes an
    image on the same memory, a color image if its third axis has length 3. *)
Theorem C84_view : forall a h w, well_formed a -> c_contiguous a = true ->
  (shape a = [h; w] -> a_type a = Uint8 -> exists m, mat1b_from_array a = Ok (Some m) /\ views_gray a m /\ continuous m /\ m_type m = CV_8UC1) /\
  (shape a = [h; w] -> a_type a = Uint16 -> exists m, mat1w_from_array a = Ok (Some m) /\ views_gray a m /\ continuous m /\ m_type m = CV_16UC1) /\
  (shape a = [h; w] -> a_type a = Float32 -> exists m, mat1f_from_array a = Ok (Some m) /\ views_gray a m /\ continuous m /\ m_type m = CV_32FC1) /\
  (shape a = [h; w; 3%nat] -> a_type a = Uint8 -> exists m, mat3b_from_array a = Ok (Some m) /\ views_color a m /\ continuous m).
Proof.
  intros a h w W C. split; [|split; [|split]].
  - intros S T. destruct (typed_gray Uint8 CV_8UC1 a h w ltac:(tauto) W T S C) as (m & A & B & D & _ & F). exists m. tauto.
  - intros S T. destruct (typed_gray Uint16 CV_16UC1 a h w ltac:(tauto) W T S C) as (m & A & B & D & _ & F). exists m. tauto.
  - intros S T. destruct (typed_gray Float32 CV_32FC1 a h w ltac:(tauto) W T S C) as (m & A & B & D & _ & F). exists m. tauto.
  - intros S T. destruct (typed_color a h w 3 W T S C ltac:(lia)) as (m & A & R & Co & Ty & D & S1 & S2 & Ad).
    exists m. split; [exact A|]. split.
    + exists h, w. do 4 (split; [assumption|]). split; [rewrite T; reflexivity|]. intros i j c Hi Hj Hc.
      rewrite Ad by assumption. unfold pixel_address. rewrite D, Ty. change (Z.of_nat (esz CV_8UC3)) with 3.
      destruct (Nat.le_gt_cases h 1) as [L|L]; [replace i with 0%nat by lia; lia|]. rewrite S1 by exact L. nia.
    + unfold continuous. rewrite R, Co, Ty. destruct (Nat.le_gt_cases h 1) as [L|L]; [left; exact L|right]. rewrite S1 by exact L. simpl esz. lia.
Qed.

(** They take nothing else: every array with other elements, axes or memory layout gives a
    null pointer (and no exception). *)
Theorem C84_refused : forall a,
  (forall m, mat1b_from_array a = Ok (Some m) -> a_type a = Uint8 /\ List.length (shape a) = 2%nat /\ c_contiguous a = true) /\
  (forall m, mat1w_from_array a = Ok (Some m) -> a_type a = Uint16 /\ List.length (shape a) = 2%nat /\ c_contiguous a = true) /\
  (forall m, mat1f_from_array a = Ok (Some m) -> a_type a = Float32 /\ List.length (shape a) = 2%nat /\ c_contiguous a = true) /\
  (forall m, mat3b_from_array a = Ok (Some m) -> a_type a = Uint8 /\ List.length (shape a) = 3%nat /\ c_contiguous a = true) /\
  (a_type a <> Uint8 \/ List.length (shape a) <> 2%nat \/ c_contiguous a = false -> mat1b_from_array a = Ok None) /\
  (a_type a <> Uint16 \/ List.length (shape a) <> 2%nat \/ c_contiguous a = false -> mat1w_from_array a = Ok None) /\
  (a_type a <> Float32 \/ List.length (shape a) <> 2%nat \/ c_contiguous a = false -> mat1f_from_array a = Ok None) /\
  (a_type a <> Uint8 \/ List.length (shape a) <> 3%nat \/ c_contiguous a = false -> mat3b_from_array a = Ok None).
Proof.
  intro a.
  assert (K : forall t n cv, t = Uint8 \/ t = Uint16 \/ t = Float32 ->
    (forall m, typed t n cv a = Ok (Some m) -> a_type a = t /\ List.length (shape a) = n /\ c_contiguous a = true) /\
    (a_type a <> t \/ List.length (shape a) <> n \/ c_contiguous a = false -> typed t n cv a = Ok None)).
  { intros t n cv Ht. unfold typed, ndim.
    assert (D : dtype_eqb (a_type a) t = true <-> a_type a = t) by (destruct (a_type a); destruct Ht as [-> |[-> | ->]]; simpl; split; intros; try discriminate; reflexivity).
    destruct (dtype_eqb (a_type a) t) eqn:De; cbn [andb].
    - assert (A := proj1 D eq_refl). destruct (Nat.eqb_spec (List.length (shape a)) n) as [L|L]; cbn [andb].
      + destruct (c_contiguous a) eqn:C; split; intros; try discriminate; try tauto. destruct H as [H|[H|H]]; try contradiction. discriminate.
      + split; intros; [discriminate|reflexivity].
    - split; intros; [discriminate|reflexivity]. }
  unfold mat1b_from_array, mat1w_from_array, mat1f_from_array, mat3b_from_array.
  destruct (K Uint8 2%nat CV_8UC1) as [A1 B1]; [tauto|]. destruct (K Uint16 2%nat CV_16UC1) as [A2 B2]; [tauto|].
  destruct (K Float32 2%nat CV_32FC1) as [A3 B3]; [tauto|]. destruct (K Uint8 3%nat CV_8UC3) as [A4 B4]; [tauto|].
  do 7 (split; [assumption|]). assumption.
Qed.

(** The conversions to numpy: a new packed array with the pixels of the image, if the
    rows of the image follow each other without gaps; nothing else changes. *)
Theorem C84_copy : forall fresh mem m, continuous m ->
  (m_type m = CV_8UC1 -> fits 1 m -> exists a mem', array_from_mat1b fresh mem m = Ok (a, mem') /\
     same_gray mem' a mem m /\ a_type a = Uint8 /\ c_contiguous a = true /\ only_changed fresh (rows m * cols m) mem mem') /\
  (m_type m = CV_16UC1 -> fits 1 m -> exists a mem', array_from_mat1w fresh mem m = Ok (a, mem') /\
     same_gray mem' a mem m /\ a_type a = Uint16 /\ c_contiguous a = true /\ only_changed fresh (rows m * cols m * 2) mem mem') /\
  (m_type m = CV_32FC1 -> fits 1 m -> exists a mem', array_from_mat1f fresh mem m = Ok (a, mem') /\
     same_gray mem' a mem m /\ a_type a = Float32 /\ c_contiguous a = true /\ only_changed fresh (rows m * cols m * 4) mem mem') /\
  (m_type m = CV_8UC3 -> fits 3 m -> exists a mem', array_from_mat3b fresh mem m = Ok (a, mem') /\
     same_color mem' a mem m /\ c_contiguous a = true /\ only_changed fresh (rows m * cols m * 3) mem mem').
Proof.
  intros fresh mem m C.
  assert (F : forall n, fits n m -> Z.ltb int_max (Z.of_nat (rows m) * Z.of_nat (cols m) * Z.of_nat n) = false).
  { intros n H. unfold fits in H. unfold int_max. apply Z.ltb_ge. lia. }
  unfold array_from_mat1b, array_from_mat1w, array_from_mat1f, array_from_mat3b, copy_typed.
  split; [|split; [|split]]; intros T H; rewrite F by exact H; eexists; eexists; (split; [reflexivity|]).
  - split; [apply copied_gray; [exact C|rewrite T; reflexivity|simpl; lia]|]. split; [reflexivity|]. split; [apply np_empty_contiguous|].
    intros p Hp. apply memcpy_out. lia.
  - split; [apply copied_gray; [exact C|rewrite T; reflexivity|simpl; lia]|]. split; [reflexivity|]. split; [apply np_empty_contiguous|apply memcpy_out].
  - split; [apply copied_gray; [exact C|rewrite T; reflexivity|simpl; lia]|]. split; [reflexivity|]. split; [apply np_empty_contiguous|apply memcpy_out].
  - split; [apply copied_color; [exact C|exact T|simpl; lia]|]. split; [apply np_empty_contiguous|apply memcpy_out].
Qed.

(** The general conversions: the accepted arrays and images. *)
Theorem C84_general_accepts : forall a fresh mem m,
  (mat_from_array a = Ok None <->
     ~ (List.length (shape a) = 2%nat /\ (a_type a = Uint8 \/ a_type a = Float32)) /\
     ~ (List.length (shape a) = 3%nat /\ a_type a = Uint8)) /\
  ((exists r, array_from_mat fresh mem m = Ok r) <-> m_type m = CV_8UC1 \/ m_type m = CV_32FC1 \/ m_type m = CV_8UC3) /\
  (forall e, array_from_mat fresh mem m = Err e -> e = AssertionError).
Proof.
  intros a fresh mem m. split; [|split].
  - assert (N : forall r c t d s, returned (new_mat r c t d s) <> Ok None).
    { intros. unfold new_mat. destruct (_ || _); [discriminate|]. destruct (Z.ltb _ _); discriminate. }
    unfold mat_from_array, ndim.
    destruct (Nat.eqb_spec (List.length (shape a)) 2) as [L|L]; [|destruct (Nat.eqb_spec (List.length (shape a)) 3) as [L3|L3]].
    + rewrite L. destruct (a_type a); cbn [dtype_eqb]; split; intro H;
        try (exfalso; eapply N; exact H); try (exfalso; destruct H as (H & _); apply H; tauto); try reflexivity;
        (split; intros (A & B); [destruct B; discriminate|discriminate]).
    + rewrite L3. destruct (a_type a); cbn [dtype_eqb]; split; intro H;
        try (exfalso; eapply N; exact H); try (exfalso; destruct H as (_ & H); apply H; tauto); try reflexivity;
        (split; intros (A & B); [discriminate|discriminate]).
    + split; [|reflexivity]. intros _. split; intros (A & _); contradiction.
  - unfold array_from_mat. destruct (m_type m) as [| | | |n d]; cbn [channels Nat.eqb]; split; intro H; try tauto;
      try (eexists; reflexivity); try (destruct H as (r & H); discriminate); try (destruct H as [H|[H|H]]; discriminate).
    destruct H as (r & H). destruct (Nat.eqb n 1); [discriminate|]. destruct (Nat.eqb n 3); discriminate.
  - intros e. unfold array_from_mat. destruct (m_type m) as [| | | |n d]; cbn [channels Nat.eqb]; intro H; try discriminate; try (injection H as <-; reflexivity).
    destruct (Nat.eqb n 1); [injection H as <-; reflexivity|]. destruct (Nat.eqb n 3); injection H as <-; reflexivity.
Qed.

(** mat_from_array of an array with packed pixels in rows at any distance is an image on
    the same memory; array_from_mat of an image without gaps is a copy. *)
Theorem C84_general : forall a h w,
  (shape a = [h; w] -> a_type a = Uint8 \/ a_type a = Float32 ->
     (exists s0, strides a = [s0; Z.of_nat (itemsize (a_type a))] /\ 0 < s0) ->
     exists m, mat_from_array a = Ok (Some m) /\ views_gray a m) /\
  (shape a = [h; w; 3%nat] -> a_type a = Uint8 -> (exists s0, strides a = [s0; 3; 1] /\ 0 < s0) ->
     exists m, mat_from_array a = Ok (Some m) /\ views_color a m).
Proof.
  intros a h w. split.
  - intros S T (s0 & St & P). unfold mat_from_array, ndim, nth_shape, stride0. rewrite S, St. cbn [List.length Nat.eqb nth].
    destruct T as [T|T]; rewrite T; cbn [dtype_eqb].
    + destruct (new_mat_ok h w CV_8UC1 (a_data a) s0) as (m & -> & M1 & M2 & M3 & M4 & M5 & M6); [lia|]. exists m. split; [reflexivity|].
      exists h, w. repeat split; try assumption; [rewrite M1, T; reflexivity|]. intros i j Hi Hj. unfold pixel_address, address. rewrite M1, M4, St, T. cbn [offset itemsize esz].
      destruct (Nat.le_gt_cases h 1) as [L|L]; [replace i with 0%nat by lia; lia|]. rewrite M5 by lia. lia.
    + destruct (new_mat_ok h w CV_32FC1 (a_data a) s0) as (m & -> & M1 & M2 & M3 & M4 & M5 & M6); [lia|]. exists m. split; [reflexivity|].
      exists h, w. repeat split; try assumption; [rewrite M1, T; reflexivity|]. intros i j Hi Hj. unfold pixel_address, address. rewrite M1, M4, St, T. cbn [offset itemsize esz].
      destruct (Nat.le_gt_cases h 1) as [L|L]; [replace i with 0%nat by lia; lia|]. rewrite M5 by lia. lia.
  - intros S T (s0 & St & P). unfold mat_from_array, ndim, nth_shape, stride0. rewrite S, St, T. cbn [List.length Nat.eqb nth dtype_eqb].
    destruct (new_mat_ok h w CV_8UC3 (a_data a) s0) as (m & -> & M1 & M2 & M3 & M4 & M5 & M6); [lia|]. exists m. split; [reflexivity|].
    exists h, w. repeat split; try assumption; [rewrite T; reflexivity|]. intros i j c Hi Hj Hc. unfold pixel_address, address. rewrite M1, M4, St. cbn [offset esz].
    destruct (Nat.le_gt_cases h 1) as [L|L]; [replace i with 0%nat by lia; lia|]. rewrite M5 by lia. lia.
Qed.

Theorem C84_general_copy : forall fresh mem m a mem', continuous m -> array_from_mat fresh mem m = Ok (a, mem') ->
  (same_gray mem' a mem m \/ same_color mem' a mem m) /\ c_contiguous a = true /\
  only_changed fresh (rows m * cols m * esz (m_type m)) mem mem'.
Proof.
  intros fresh mem m a mem' C H. unfold array_from_mat in H. destruct (m_type m) as [| | | |n d] eqn:T; cbn [channels Nat.eqb] in H; try discriminate.
  - injection H as <- <-. cbn [a_data np_empty]. split; [left; apply copied_gray; [exact C|rewrite T; reflexivity|simpl; lia]|]. split; [apply np_empty_contiguous|].
    cbn [esz]. replace (rows m * cols m * 1 * 1)%nat with (rows m * cols m * 1)%nat by lia. apply memcpy_out.
  - injection H as <- <-. cbn [a_data np_empty]. split; [right; apply copied_color; [exact C|exact T|simpl; lia]|]. split; [apply np_empty_contiguous|].
    cbn [esz]. replace (rows m * cols m * 3 * 1)%nat with (rows m * cols m * 3)%nat by lia. apply memcpy_out.
  - injection H as <- <-. cbn [a_data np_empty]. split; [left; apply copied_gray; [exact C|rewrite T; reflexivity|simpl; lia]|]. split; [apply np_empty_contiguous|].
    cbn [esz]. replace (rows m * cols m * 1 * 4)%nat with (rows m * cols m * 4)%nat by lia. apply memcpy_out.
  - destruct (Nat.eqb n 1); [discriminate|]. destruct (Nat.eqb n 3); discriminate.
Qed.

(** The stride of the columns is ignored: every other column of a picture. *)
Theorem C84_columns_refuted : exists a m, well_formed a /\ a_type a = Uint8 /\ shape a = [2; 2]%nat /\
  mat_from_array a = Ok (Some m) /\ pixel_address m 0 1 <> address a [0; 1]%nat.
Proof.
  exists (Array Uint8 [2; 2]%nat [4; 2] 100). eexists. repeat split. cbn. lia.
Qed.

(** The length of the third axis is ignored: a picture with four channels. *)
Theorem C84_channels_refuted : exists a m, well_formed a /\ c_contiguous a = true /\ shape a = [1; 2; 4]%nat /\
  mat3b_from_array a = Ok (Some m) /\ pixel_address m 0 1 <> address a [0; 1; 0]%nat.
Proof.
  exists (Array Uint8 [1; 2; 4]%nat [8; 4; 1] 100). eexists. repeat split. cbn. lia.
Qed.

(** Gaps between the rows are copied along: the left half of a picture. *)
Theorem C84_gaps_refuted : exists mem m a mem', m_type m = CV_8UC1 /\ array_from_mat1b 1000 mem m = Ok (a, mem') /\
  array_from_mat 1000 mem m = Ok (a, mem') /\
  exists i j, (i < rows m)%nat /\ (j < cols m)%nat /\ mem' (address a [i; j]) <> mem (pixel_address m i j).
Proof.
  exists (fun p => p), (Mat CV_8UC1 2 2 100 4). eexists. eexists. split; [reflexivity|]. split; [reflexivity|]. split; [reflexivity|].
  exists 1%nat, 0%nat. split; [cbn; lia|]. split; [cbn; lia|]. cbn. lia.
Qed.

(** Number of pixels times three is computed as a C int. *)
Theorem C84_large_refuted : exists m, m_type m = CV_8UC3 /\ continuous m /\ forall fresh mem, array_from_mat3b fresh mem m = Err Undefined.
Proof.
  set (n := Z.to_nat 30000). assert (E : Z.of_nat n = 30000) by (apply Z2Nat.id; lia). clearbody n.
  exists (Mat CV_8UC3 n n 0 (Z.of_nat (n * 3))). split; [reflexivity|]. split; [right; reflexivity|].
  intros fresh mem. unfold array_from_mat3b, copy_typed. cbn [rows cols]. rewrite E. reflexivity.
Qed.

(** Rgbdci360.create_point_cloud gets the two images exactly for C-contiguous arrays; for
    others of the right types the behaviour is undefined: an image turned upside down. *)
Theorem C84_cloud_images : forall rgb range h w h' w', well_formed rgb -> well_formed range ->
  shape rgb = [h; w; 3%nat] -> a_type rgb = Uint8 -> shape range = [h'; w'] -> a_type range = Float32 ->
  (c_contiguous rgb = true -> c_contiguous range = true ->
     exists m n, cloud_images rgb range = Ok (m, n) /\ views_color rgb m /\ views_gray range n) /\
  (c_contiguous rgb = false \/ c_contiguous range = false -> cloud_images rgb range = Err Undefined).
Proof.
  intros rgb range h w h' w' W W' S T S' T'. unfold cloud_images. unfold ndim. rewrite S, S', T, T'. cbn [dtype_eqb List.length Nat.eqb andb negb].
  split.
  - intros C C'. destruct (C84_view rgb h w W C) as (_ & _ & _ & V). destruct (C84_view range h' w' W' C') as (_ & _ & V' & _).
    destruct (V S T) as (m & -> & A & _). destruct (V' S' T') as (n & -> & B & _). exists m, n. split; [reflexivity|]. split; assumption.
  - destruct (C84_refused rgb) as (_ & _ & _ & _ & _ & _ & _ & R3). destruct (C84_refused range) as (_ & _ & _ & _ & _ & _ & R1 & _).
    destruct (c_contiguous rgb) eqn:C.
    + intros [H|H]; [discriminate|]. rewrite R1 by tauto. destruct (C84_view rgb h w W C) as (_ & _ & _ & V). destruct (V S T) as (m & -> & _). reflexivity.
    + intros _. rewrite R3 by tauto. destruct (c_contiguous range) eqn:C'; [|rewrite R1 by tauto; reflexivity].
      destruct (C84_view range h' w' W' C') as (_ & _ & V' & _). destruct (V' S' T') as (n & -> & _). reflexivity.
Qed.
Theorem C84_cloud_images_refuted : exists rgb range, well_formed rgb /\ well_formed range /\ shape rgb = [2; 1; 3]%nat /\ a_type rgb = Uint8 /\
  shape range = [2; 1]%nat /\ a_type range = Float32 /\ cloud_images rgb range = Err Undefined.
Proof. exists (Array Uint8 [2; 1; 3]%nat [-3; 3; 1] 67), (Array Float32 [2; 1]%nat [4; 4] 0). repeat split. Qed.

(** * Textures *)

(** TexturedMesh(...).base_color() of a texture with [k] channels, at least 3: entry
    (i, j, c) is the byte number 3 j + c of row i of the texture. *)
Theorem C84_texture : forall f1 f2 ext mem a h w k,
  well_formed a -> c_contiguous a = true -> a_type a = Uint8 -> shape a = [h; w; k] -> (3 <= k)%nat ->
  Z.of_nat h * (Z.of_nat w * Z.of_nat k) <= ext -> Z.of_nat h * Z.of_nat w * 3 < 2 ^ 31 ->
  exists b mem', base_color f1 f2 ext mem a = Ok (b, mem') /\ shape b = [h; w; 3%nat] /\ a_type b = Uint8 /\
  forall i j c, (i < h)%nat -> (j < w)%nat -> (c < 3)%nat ->
    mem' (address b [i; j; c]) = mem (address a [i; (3 * j + c) / k; (3 * j + c) mod k]%nat).
Proof.
  intros f1 f2 ext mem a h w k W C T S Hk Hext Hfit.
  destruct (typed_color a h w k W T S C ltac:(lia)) as (m & A & R & Co & Ty & D & S1 & S2 & Ad).
  unfold base_color. unfold ndim. rewrite T, S, C. cbn [dtype_eqb List.length Nat.eqb andb negb]. rewrite A. cbn [bind deref].
  assert (Row : forall i, (i < h)%nat -> Z.of_nat i * step m = Z.of_nat i * (Z.of_nat w * Z.of_nat k)).
  { intros i Hi. destruct (Nat.le_gt_cases h 1) as [L|L]; [replace i with 0%nat by lia; lia|]. rewrite S1 by exact L. reflexivity. }
  destruct (Z.ltb (a_data a + ext) (pixel_address m (rows m - 1) (cols m - 1) + 3) && negb (Nat.eqb (rows m * cols m) 0)) eqn:X.
  { exfalso. apply andb_true_iff in X. destruct X as [X Y]. apply negb_true_iff, Nat.eqb_neq in Y. apply Z.ltb_lt in X.
    rewrite R, Co in *. unfold pixel_address in X. rewrite D, Ty in X. change (Z.of_nat (esz CV_8UC3)) with 3 in X.
    assert (h <> 0 /\ w <> 0)%nat as [Hh Hw] by (split; intro; subst; lia).
    rewrite Row in X by lia. nia. }
  assert (K := clone_ok f1 mem m). destruct (clone f1 mem m) as [m' mem1] eqn:Cl. destruct K as (K1 & K2 & K3 & K4 & K5 & K6).
  assert (F : fits 3 m') by (unfold fits; rewrite K2, K3, R, Co; exact Hfit).
  destruct (C84_copy f2 mem1 m' K4) as (_ & _ & _ & P). destruct (P ltac:(rewrite K1; exact Ty) F) as (b & mem' & -> & (B1 & B2 & B3 & B4) & _).
  exists b, mem'. split; [reflexivity|]. split; [rewrite B1, K2, K3, R, Co; reflexivity|]. split; [exact B2|].
  intros i j c Hi Hj Hc. rewrite B4 by (rewrite ?K2, ?K3, ?R, ?Co; assumption).
  rewrite K6 by (rewrite ?R, ?Co, ?Ty; simpl; assumption).
  set (e := (3 * j + c)%nat).
  assert (E : (e = k * (e / k) + e mod k)%nat) by (apply Nat.div_mod; lia).
  assert (Em : (e mod k < k)%nat) by (apply Nat.mod_upper_bound; lia).
  assert (Ed : (e / k < w)%nat). { apply Nat.div_lt_upper_bound; [lia|]. unfold e. nia. }
  rewrite Ad by assumption. f_equal. unfold pixel_address. rewrite D, Ty. change (Z.of_nat (esz CV_8UC3)) with 3. rewrite Row by exact Hi.
  assert (Z.of_nat j * 3 + Z.of_nat c = Z.of_nat (e / k) * Z.of_nat k + Z.of_nat (e mod k)).
  { transitivity (Z.of_nat e); [unfold e; lia|]. rewrite E at 1. lia. }
  lia.
Qed.

(** With three channels the texture comes back as it was. *)
Theorem C84_texture_kept : forall f1 f2 ext mem a h w,
  well_formed a -> c_contiguous a = true -> a_type a = Uint8 -> shape a = [h; w; 3%nat] ->
  Z.of_nat h * Z.of_nat w * 3 <= ext -> Z.of_nat h * Z.of_nat w * 3 < 2 ^ 31 ->
  exists b mem', base_color f1 f2 ext mem a = Ok (b, mem') /\ shape b = shape a /\ a_type b = Uint8 /\
  forall i j c, (i < h)%nat -> (j < w)%nat -> (c < 3)%nat -> mem' (address b [i; j; c]) = mem (address a [i; j; c]).
Proof.
  intros f1 f2 ext mem a h w W C T S He Hf.
  destruct (C84_texture f1 f2 ext mem a h w 3 W C T S ltac:(lia) ltac:(lia) Hf) as (b & mem' & B & Sh & Tb & H).
  exists b, mem'. split; [exact B|]. split; [rewrite Sh, S; reflexivity|]. split; [exact Tb|]. intros i j c Hi Hj Hc.
  rewrite H by assumption.
  replace ((3 * j + c) / 3)%nat with j by (apply (Nat.div_unique (3 * j + c) 3 j c); lia).
  replace ((3 * j + c) mod 3)%nat with c by (apply (Nat.mod_unique (3 * j + c) 3 j c); lia). reflexivity.
Qed.

(** With four it does not: a red pixel with alpha and a green one. *)
Definition rgba : memory := fun p => nth (Z.to_nat p) [255; 0; 0; 128; 0; 255; 0; 128] 0.
Theorem C84_texture_rgba_refuted : exists a, well_formed a /\ c_contiguous a = true /\ shape a = [1; 2; 4]%nat /\
  exists b mem', base_color 100 200 8 rgba a = Ok (b, mem') /\
  [rgba (address a [0; 1; 0]%nat); rgba (address a [0; 1; 1]%nat); rgba (address a [0; 1; 2]%nat)] = [0; 255; 0] /\
  [mem' (address b [0; 1; 0]%nat); mem' (address b [0; 1; 1]%nat); mem' (address b [0; 1; 2]%nat)] = [128; 0; 255].
Proof.
  exists (Array Uint8 [1; 2; 4]%nat [8; 4; 1] 0). do 3 (split; [reflexivity|]). eexists. eexists. split; [reflexivity|]. split; reflexivity.
Qed.

(** TexturedMesh.from_mesh: every pixel has the color, for colors of three entries. *)
Theorem C84_from_mesh_color : forall r g b, from_mesh_texture [r; g; b] = [[[r; g; b]; [r; g; b]]; [[r; g; b]; [r; g; b]]].
Proof. reflexivity. Qed.
Theorem C84_from_mesh_rgba_refuted : exists r g b a row p,
  In row (from_mesh_texture [r; g; b; a]) /\ In p row /\ p <> [r; g; b] /\ p <> [r; g; b; a].
Proof.
  exists 1, 2, 3, 4. eexists. eexists. split; [left; reflexivity|]. split; [right; left; reflexivity|]. split; discriminate.
Qed.

Example C84_example :
  well_formed (Array Float32 [3; 2]%nat [8; 4] 64) /\ c_contiguous (Array Float32 [3; 2]%nat [8; 4] 64) = true /\
  c_contiguous (Array Uint8 [4; 2]%nat [-2; 1] 64) = false /\ c_contiguous (Array Uint8 [1; 2]%nat [-77; 1] 64) = true /\
  mat1f_from_array (Array Float32 [3; 2]%nat [8; 4] 64) = Ok (Some (Mat CV_32FC1 3 2 64 8)) /\
  mat1b_from_array (Array Uint8 [4; 2]%nat [-2; 1] 64) = Ok None /\
  (exists mem', array_from_mat1w 1000 (fun p => p) (Mat CV_16UC1 2 3 50 6) = Ok (Array Uint16 [2; 3]%nat [6; 2] 1000, mem') /\
    bytes_at mem' (address (Array Uint16 [2; 3]%nat [6; 2] 1000) [1; 2]%nat) 2 = [60; 61]).
Proof. repeat split; try reflexivity. eexists. split; reflexivity. Qed.

Print Assumptions C84_view.
Print Assumptions C84_refused.
Print Assumptions C84_copy.
Print Assumptions C84_general_accepts.
Print Assumptions C84_general.
Print Assumptions C84_general_copy.
Print Assumptions C84_columns_refuted.
Print Assumptions C84_channels_refuted.
Print Assumptions C84_gaps_refuted.
Print Assumptions C84_large_refuted.
Print Assumptions C84_cloud_images.
Print Assumptions C84_cloud_images_refuted.
Print Assumptions C84_texture.
Print Assumptions C84_texture_kept.
Print Assumptions C84_texture_rgba_refuted.
Print Assumptions C84_from_mesh_color.
Print Assumptions C84_from_mesh_rgba_refuted.
