(** C33: inverse depth. *)
From Coq Require Import Reals ZArith Lra Lia Bool.
From Verif.Base Require Import Py.
From Verif.Depth Require Import Model Spec Proofs.
Open Scope R_scope.

(** Exact arithmetic is a rounding. *)
Example rounding_exists : rounding (fun x => x).
Proof.
  split; [auto|]. intro x. replace (x - x) with 0 by ring. rewrite Rabs_R0. apply Rmult_le_pos; [lra|apply Rabs_pos].
Qed.

(** Every code survives decoding and encoding, whatever the rounding. *)
Theorem C33_code_roundtrip : forall f32 f64, rounding f32 -> rounding f64 -> forall near, 0 < near ->
  (forall k, (0 <= k <= 65535)%Z ->
     inverse_depth_of_depth f64 (depth_of_inverse_depth f32 f64 k near) near = Ok k) /\
  (forall k, (0 <= k <= 255)%Z ->
     uint8_inverse_depth_of_depth f32 f64 (depth_of_uint8_inverse_depth f32 f64 k near) near = Ok k).
Proof.
  intros f32 f64 A B near N. split; intros k K.
  - unfold depth_of_inverse_depth, inverse_depth_of_depth. destruct (Z.eqb_spec k 0) as [->|NZ]; [apply to_uint16_ok, half_code; auto; unfold PIXEL_MAX; lia|].
    destruct (decode_encode f32 f64 A B PIXEL_MAX k near f64 OverflowError B N ltac:(unfold PIXEL_MAX; lia) ltac:(unfold PIXEL_MAX; lia)) as (D & D0 & E).
    destruct (Req_EM_T _ 0) as [Z|_]; [contradiction|]. destruct (Rle_dec _ near); [exact E|]. apply to_uint16_ok, E.
  - unfold depth_of_uint8_inverse_depth, uint8_inverse_depth_of_depth. destruct (Z.eqb_spec k 0) as [->|NZ]; [apply half_code; auto; lia|].
    destruct (decode_encode f32 f64 A B 255 k near f32 Undefined A N ltac:(lia) ltac:(lia)) as (D & D0 & E).
    destruct (Req_EM_T _ 0) as [Z|_]; [contradiction|]. exact E.
Qed.

(** Encoding never fails, stays in range, and clips as follows: unknown (0) and
    infinite depths get code 0, every other depth up to the near plane (negative
    ones included) the largest code. *)
Theorem C33_clipping : forall f32 f64, rounding f32 -> rounding f64 -> forall near, 0 < near ->
  (forall d, exists k, inverse_depth_of_depth f64 d near = Ok k /\ (0 <= k <= 65535)%Z) /\
  (forall d, exists k, uint8_inverse_depth_of_depth f32 f64 d near = Ok k /\ (0 <= k <= 255)%Z) /\
  (forall d, d = Inf \/ d = Fin 0 ->
     inverse_depth_of_depth f64 d near = Ok 0%Z /\ uint8_inverse_depth_of_depth f32 f64 d near = Ok 0%Z) /\
  (forall x, x <= near -> x <> 0 ->
     inverse_depth_of_depth f64 (Fin x) near = Ok 65535%Z /\ uint8_inverse_depth_of_depth f32 f64 (Fin x) near = Ok 255%Z).
Proof.
  intros f32 f64 A B near N.
  assert (H16 : inverse_depth_of_depth f64 Inf near = Ok 0%Z) by (apply to_uint16_ok, half_code; auto; unfold PIXEL_MAX; lia).
  assert (H8 : uint8_inverse_depth_of_depth f32 f64 Inf near = Ok 0%Z) by (apply half_code; auto; lia).
  split; [|split; [|split]].
  - intros [x|]; [|exists 0%Z; split; [exact H16|lia]]. unfold inverse_depth_of_depth.
    destruct (Req_EM_T x 0); [exists 0%Z; split; [reflexivity|lia]|]. destruct (Rle_dec x near); [exists PIXEL_MAX; split; [reflexivity|unfold PIXEL_MAX; lia]|].
    destruct (encode_value f64 B PIXEL_MAX x near f64 OverflowError B N ltac:(unfold PIXEL_MAX; lia) ltac:(lra)) as (k & E & K & _). exists k. split; [apply to_uint16_ok, E|exact K].
  - intros [x|]; [|exists 0%Z; split; [exact H8|lia]]. unfold uint8_inverse_depth_of_depth.
    destruct (Req_EM_T x 0); [exists 0%Z; split; [reflexivity|lia]|]. destruct (Rle_dec x near); [exists 255%Z; split; [reflexivity|lia]|].
    destruct (encode_value f64 B 255 x near f32 Undefined A N ltac:(lia) ltac:(lra)) as (k & E & K & _). exists k. auto.
  - intros d [->| ->]; [split; assumption|]. unfold inverse_depth_of_depth, uint8_inverse_depth_of_depth.
    destruct (Req_EM_T 0 0); [split; reflexivity|contradiction].
  - intros x X X0. unfold inverse_depth_of_depth, uint8_inverse_depth_of_depth.
    destruct (Req_EM_T x 0); [contradiction|]. destruct (Rle_dec x near); [split; reflexivity|contradiction].
Qed.

(** The 16-bit encoding never raises and gives a 16-bit code, whatever the near plane and
    the roundings, and so do the images; a negative near plane gives code 0 beyond it. *)
Theorem C33_total : forall f64 near,
  (forall d, exists k, inverse_depth_of_depth f64 d near = Ok k /\ (0 <= k <= 65535)%Z) /\
  (forall junk im, exists out, inverse_depth_map_of_depth_image f64 junk im near = Ok out /\
     height out = height im /\ width out = width im /\
     forall v u, (v < height im)%nat -> (u < width im)%nat -> (0 <= pixel out v u <= 65535)%Z) /\
  (forall x, rounding f64 -> near < 0 < x -> x < - near -> inverse_depth_of_depth f64 (Fin x) near = Ok 0%Z).
Proof.
  intros f64 near.
  assert (T : forall d, exists k, inverse_depth_of_depth f64 d near = Ok k /\ (0 <= k <= 65535)%Z).
  { intros [x|]; [|apply to_uint16_total]. unfold inverse_depth_of_depth. destruct (Req_EM_T x 0); [exists 0%Z; split; [reflexivity|lia]|].
    destruct (Rle_dec x near); [exists PIXEL_MAX; split; [reflexivity|unfold PIXEL_MAX; lia]|apply to_uint16_total]. }
  split; [exact T|]. split.
  - intros junk im. destruct (convert_map_total _ _ (fun d => inverse_depth_of_depth f64 d near) junk im) as (out & E & H & W & P).
    { intros v u _ _. destruct (T (pixel im v u)) as (k & Ek & _). eauto. }
    exists out. split; [exact E|]. split; [exact H|]. split; [exact W|]. intros v u Hv Hu. specialize (P v u Hv Hu). cbv beta in P.
    destruct (T (pixel im v u)) as (k & Ek & K). rewrite Ek in P. injection P as ->. exact K.
  - intros x R (N & X) B. unfold inverse_depth_of_depth. destruct (Req_EM_T x 0); [lra|]. destruct (Rle_dec x near); [lra|].
    destruct R as (Mono & Near). assert (U := u_pos). assert (UV := u_val).
    assert (NEG : forall y, y <= -1 -> f64 y <= - (9 / 10)).
    { intros y Y. assert (Q := Near (-1)). assert (M := Mono y (-1) Y). rewrite (Rabs_left (-1)) in Q by lra. unfold Rabs in Q. destruct (Rcase_abs _) in Q; fold u in Q; rewrite UV in Q; lra. }
    unfold PIXEL_MAX.
    assert (A : f64 (near * 65535) <= near * 60000).
    { assert (Q := Near (near * 65535)). rewrite (Rabs_left (near * 65535)) in Q by lra. unfold Rabs in Q. destruct (Rcase_abs _) in Q; fold u in Q; rewrite UV in Q; lra. }
    set (a := f64 (near * 65535)) in *. clearbody a.
    assert (C : a / x <= -60000).
    { apply (Rmult_le_reg_r x); [lra|]. unfold Rdiv. rewrite Rmult_assoc, Rinv_l by lra. lra. }
    set (b := a / x) in *. clearbody b.
    assert (D : f64 b <= -50000).
    { assert (Q := Near b). rewrite (Rabs_left b) in Q by lra. unfold Rabs in Q. destruct (Rcase_abs _) in Q; fold u in Q; rewrite UV in Q; lra. }
    set (c := f64 b) in *. clearbody c. assert (F := NEG (1 / 2 + c) ltac:(lra)).
    assert (G : f64 (1 / 2 + c) <= - 1).
    { assert (Q := Near (1/2 + c)). rewrite (Rabs_left (1/2 + c)) in Q by lra. unfold Rabs in Q. destruct (Rcase_abs _) in Q; fold u in Q; rewrite UV in Q; lra. }
    set (z := f64 (1 / 2 + c)) in *. clearbody z. unfold to_uint16, to_uint, trunc. destruct (Rle_dec 0 z); [lra|].
    assert (I := base_Int_part (- z)). destruct I as (I1 & I2).
    assert (0 < Int_part (- z))%Z by (apply lt_IZR; lra).
    destruct (Z.leb_spec 0 (- Int_part (- z))); [lia|]. reflexivity.
Qed.

(** A farther depth never gets a larger code, and a larger code never decodes to a
    farther depth. *)
Theorem C33_order_reversing : forall f32 f64, rounding f32 -> rounding f64 -> forall near, 0 < near ->
  (forall d d' k k', positive d -> closer d d' ->
     inverse_depth_of_depth f64 d near = Ok k -> inverse_depth_of_depth f64 d' near = Ok k' -> (k' <= k)%Z) /\
  (forall d d' k k', positive d -> closer d d' ->
     uint8_inverse_depth_of_depth f32 f64 d near = Ok k -> uint8_inverse_depth_of_depth f32 f64 d' near = Ok k' -> (k' <= k)%Z) /\
  (forall k k', (0 <= k <= k')%Z ->
     closer (depth_of_inverse_depth f32 f64 k' near) (depth_of_inverse_depth f32 f64 k near) /\
     closer (depth_of_uint8_inverse_depth f32 f64 k' near) (depth_of_uint8_inverse_depth f32 f64 k near)).
Proof.
  intros f32 f64 A B near N. destruct (C33_clipping f32 f64 A B near N) as (T16 & T8 & _ & _).
  assert (H16 : inverse_depth_of_depth f64 Inf near = Ok 0%Z) by (apply to_uint16_ok, half_code; auto; unfold PIXEL_MAX; lia).
  assert (H8 : uint8_inverse_depth_of_depth f32 f64 Inf near = Ok 0%Z) by (apply half_code; auto; lia).
  assert (DEC : forall M k k', 0 <= M -> (0 < k <= k')%Z -> f32 (f64 (f64 (near * M) / IZR k')) <= f32 (f64 (f64 (near * M) / IZR k))).
  { intros M k k' HM K. apply A, B. unfold Rdiv. apply Rmult_le_compat_l; [apply round_nonneg; auto; apply Rmult_le_pos; lra|].
    apply Rinv_le_contravar; [apply IZR_lt; lia|apply IZR_le; lia]. }
  split; [|split].
  - intros d d' k k' P C E E'. destruct (T16 d) as (j & Ej & J). destruct (T16 d') as (j' & Ej' & J').
    assert (j = k) by congruence. assert (j' = k') by congruence. subst j j'.
    destruct d as [x|]; [|destruct d' as [y|]; [destruct C|assert (k = k') by congruence; lia]].
    destruct d' as [y|]; [|rewrite H16 in E'; injection E' as <-; lia]. cbn in P, C.
    unfold inverse_depth_of_depth in E, E'. destruct (Req_EM_T x 0); [lra|]. destruct (Req_EM_T y 0); [lra|].
    destruct (Rle_dec x near); [injection E as <-; exact (proj2 J')|]. destruct (Rle_dec y near); [lra|].
    destruct (encode_value f64 B PIXEL_MAX x near f64 OverflowError B N ltac:(unfold PIXEL_MAX; lia) ltac:(lra)) as (i & G & _).
    destruct (encode_value f64 B PIXEL_MAX y near f64 OverflowError B N ltac:(unfold PIXEL_MAX; lia) ltac:(lra)) as (i' & G' & _).
    assert (i = k) by (apply to_uint16_ok in G; congruence). assert (i' = k') by (apply to_uint16_ok in G'; congruence). subst i i'.
    apply (to_uint_mono _ _ _ _ _ _ G' G). split; [|apply encode_mono; auto; unfold PIXEL_MAX; lra].
    apply round_nonneg; auto. assert (Q := round_nonneg f64 (f64 (near * IZR PIXEL_MAX) / y) B).
    assert (0 <= f64 (f64 (near * IZR PIXEL_MAX) / y)); [apply Q|lra].
    apply Rmult_le_pos; [apply round_nonneg; auto; unfold PIXEL_MAX; lra|left; apply Rinv_0_lt_compat; lra].
  - intros d d' k k' P C E E'. destruct (T8 d) as (j & Ej & J). destruct (T8 d') as (j' & Ej' & J').
    assert (j = k) by congruence. assert (j' = k') by congruence. subst j j'.
    destruct d as [x|]; [|destruct d' as [y|]; [destruct C|assert (k = k') by congruence; lia]].
    destruct d' as [y|]; [|rewrite H8 in E'; injection E' as <-; lia]. cbn in P, C.
    unfold uint8_inverse_depth_of_depth in E, E'. destruct (Req_EM_T x 0); [lra|]. destruct (Req_EM_T y 0); [lra|].
    destruct (Rle_dec x near); [injection E as <-; exact (proj2 J')|]. destruct (Rle_dec y near); [lra|].
    apply (to_uint_mono _ _ _ _ _ _ E' E). split; [|apply encode_mono; auto; lra].
    apply round_nonneg; auto. assert (Q := round_nonneg f32 (f32 (near * 255) / y) A).
    assert (0 <= f32 (f32 (near * 255) / y)); [apply Q|lra].
    apply Rmult_le_pos; [apply round_nonneg; auto; lra|left; apply Rinv_0_lt_compat; lra].
  - intros k k' K. unfold depth_of_inverse_depth, depth_of_uint8_inverse_depth.
    destruct (Z.eqb_spec k 0) as [->|NZ]; [split; destruct (k' =? 0)%Z; exact I|].
    destruct (Z.eqb_spec k' 0); [lia|]. split; cbn; apply DEC; try lia; unfold PIXEL_MAX; lra.
Qed.

(** Decoding the code of a depth beyond the near plane gives the inverse depth
    back to 0.6 of a step; code 0 means less than 0.52 steps. *)
Theorem C33_quantisation : forall f32 f64, rounding f32 -> rounding f64 -> forall near x, 0 < near < x ->
  exists k, inverse_depth_of_depth f64 (Fin x) near = Ok k /\
    Rabs (per (near * 65535) (depth_of_inverse_depth f32 f64 k near) - near * 65535 / x) <= 6 / 10.
Proof.
  intros f32 f64 A B near x (N & X). unfold inverse_depth_of_depth. destruct (Req_EM_T x 0); [lra|]. destruct (Rle_dec x near); [lra|].
  destruct (encode_value f64 B PIXEL_MAX x near f64 OverflowError B N ltac:(unfold PIXEL_MAX; lia) ltac:(lra)) as (k & E & K & V).
  exists k. split; [apply to_uint16_ok, E|]. unfold PIXEL_MAX in *. unfold depth_of_inverse_depth, PIXEL_MAX.
  assert (U := u_pos). assert (UV := u_val).
  assert (VV : - (52/100) <= IZR k - near * 65535 / x <= 52/100) by (unfold Rabs in V; destruct (Rcase_abs _); lra).
  destruct (Z.eqb_spec k 0) as [->|NZ]; cbn [per].
  - unfold Rabs. destruct (Rcase_abs _); lra.
  - assert (KB : 1 <= IZR k <= 65535) by (split; apply IZR_le; lia).
    assert (D := decode_near 65535 (IZR k) near f64 f32 B A N ltac:(lra) ltac:(lra)).
    assert (P : 0 < near * 65535 / IZR k) by (apply Rmult_lt_0_compat; [lra|apply Rinv_0_lt_compat; lra]).
    assert (I := near_inv (5 * u) _ _ (near * 65535) ltac:(lra) P ltac:(lra) D).
    replace (near * 65535 / (near * 65535 / IZR k)) with (IZR k) in I by (field; lra).
    assert (BD := near_abs (2 * (5 * u)) 65535 (IZR k) _ ltac:(lra) ltac:(lra) I).
    rewrite UV in BD. unfold Rabs. destruct (Rcase_abs _); lra.
Qed.

(** 8-bit codes with the default near plane expand to exactly 257 times the code. *)
Theorem C33_expansion : forall f32 f64, rounding f32 -> rounding f64 ->
  forall k, (0 <= k <= 255)%Z -> inverse_depth_from_uint8 f32 f64 k (default_near64 f64) = Ok (257 * k)%Z.
Proof.
  intros f32 f64 A B k K. unfold inverse_depth_from_uint8, depth_of_uint8_inverse_depth.
  destruct (Z.eqb_spec k 0) as [->|NZ]; [apply to_uint16_ok, half_code; auto; unfold PIXEL_MAX; lia|].
  assert (U := u_pos). assert (UV := u_val).
  assert (N : 0 < default_near64 f64) by (apply round_pos; auto; lra). set (n := default_near64 f64) in *.
  unfold default_near32. fold n. assert (M : 0 < f32 n) by (apply round_pos; auto). assert (MN := round_near f32 n A (Rlt_le _ _ N)).
  assert (KB : 1 <= IZR k <= 255) by (split; apply IZR_le; lia).
  assert (D := decode_near 255 (IZR k) n f64 f32 B A N ltac:(lra) ltac:(lra)).
  assert (P : 0 < n * 255 / IZR k) by (apply Rmult_lt_0_compat; [lra|apply Rinv_0_lt_compat; lra]).
  set (d := f32 (f64 (f64 (n * 255) / IZR k))) in *. clearbody d. clearbody n.
  assert (DP : 0 < d) by (apply (near_pos (5 * u) (n * 255 / IZR k)); auto; lra).
  unfold inverse_depth_of_depth. destruct (Req_EM_T d 0); [lra|]. destruct (Rle_dec d (f32 n)) as [Le|Gt].
  - f_equal. assert (k = 255)%Z; [|subst; reflexivity]. apply Z.le_antisymm; [lia|].
    destruct D as (D & _). destruct MN as (_ & MN).
    assert (X : n * 255 * (1 - 5 * u) <= n * (1 + u) * IZR k).
    { replace (n * 255 * (1 - 5 * u)) with (n * 255 / IZR k * (1 - 5 * u) * IZR k) by (field; lra). apply Rmult_le_compat_r; lra. }
    assert (Y : 255 * (1 - 5 * u) <= (1 + u) * IZR k) by (apply (Rmult_le_reg_l n); lra).
    assert (Z : 254 < IZR k) by (rewrite UV in *; lra). apply lt_IZR in Z. lia.
  - assert (I := near_inv (5 * u) _ _ (n * 65535) ltac:(lra) P ltac:(lra) D).
    replace (n * 65535 / (n * 255 / IZR k)) with (IZR (257 * k)) in I by (rewrite mult_IZR; field; lra).
    assert (J : near_to u (n * 65535 / d) (f32 n * 65535 / d)).
    { apply near_div; [exact DP|]. destruct MN. split; lra. }
    assert (K257 : 257 <= IZR (257 * k) <= 65535) by (rewrite mult_IZR; lra).
    assert (Q := near_trans (2 * (5 * u)) u (IZR (257 * k)) _ _ ltac:(lra) ltac:(lra) ltac:(lra) ltac:(lra) ltac:(lra) I J).
    apply to_uint16_ok, (encode_hit f64 B PIXEL_MAX (257 * k) (2 * (5 * u) + 2 * u)); auto; unfold PIXEL_MAX; try lia; lra.
Qed.

(** For any near plane the expansion is the code of the decoded depth, so order is kept. *)
Theorem C33_expansion_monotone : forall f32 f64, rounding f32 -> rounding f64 -> forall near, 0 < near ->
  forall k k' j j', (0 <= k <= k')%Z ->
  inverse_depth_from_uint8 f32 f64 k near = Ok j -> inverse_depth_from_uint8 f32 f64 k' near = Ok j' -> (j <= j')%Z.
Proof.
  intros f32 f64 A B near N k k' j j' K E E'. unfold inverse_depth_from_uint8 in *.
  assert (N32 : 0 < default_near32 f32 f64) by (apply round_pos; auto; apply round_pos; auto; lra).
  destruct (C33_order_reversing f32 f64 A B _ N32) as (O & _ & _).
  destruct (C33_order_reversing f32 f64 A B _ N) as (_ & _ & O').
  apply (O _ _ _ _ ) with (3 := E') (4 := E); [|apply O', K].
  unfold depth_of_uint8_inverse_depth. destruct (Z.eqb_spec k' 0); [exact I|]. cbn.
  apply round_pos; auto. apply round_pos; auto. apply Rmult_lt_0_compat; [apply round_pos; auto; lra|apply Rinv_0_lt_compat, IZR_lt; lia].
Qed.

(** The image functions apply the scalar functions to every pixel. *)
Theorem C33_maps : forall f32 f64, rounding f32 -> rounding f64 -> forall near, 0 < near ->
  (forall junk im, exists out, uint8_inverse_depth_map_of_depth_image f32 f64 junk im near = Ok out /\
     pixelwise (fun d => uint8_inverse_depth_of_depth f32 f64 d near) im out) /\
  (forall junk im, exists out, inverse_depth_map_of_depth_image f64 junk im near = Ok out /\
     pixelwise (fun d => inverse_depth_of_depth f64 d near) im out) /\
  (forall junk im, exists out, depth_image_of_inverse_depth_map f32 f64 junk im near = Ok out /\
     pixelwise (fun k => Ok (depth_of_inverse_depth f32 f64 k near)) im out) /\
  (forall junk im, exists out, depth_image_of_uint8_inverse_depth_map f32 f64 junk im near = Ok out /\
     pixelwise (fun k => Ok (depth_of_uint8_inverse_depth f32 f64 k near)) im out) /\
  (forall junk im, exists out, uint16_of_uint8_inverse_depth_map f32 f64 junk im near = Ok out /\
     pixelwise (fun k => inverse_depth_from_uint8 f32 f64 k near) im out).
Proof.
  intros f32 f64 A B near N. destruct (C33_clipping f32 f64 A B near N) as (T16 & T8 & _ & _).
  assert (N32 : 0 < default_near32 f32 f64) by (apply round_pos; auto; apply round_pos; auto; lra).
  destruct (C33_clipping f32 f64 A B _ N32) as (T & _).
  split; [|split; [|split; [|split]]]; intros junk im; apply convert_map_total; intros v u _ _.
  - destruct (T8 (pixel im v u)) as (k & E & _). eauto.
  - destruct (T16 (pixel im v u)) as (k & E & _). eauto.
  - eauto.
  - eauto.
  - unfold inverse_depth_from_uint8. destruct (T (depth_of_uint8_inverse_depth f32 f64 (pixel im v u) near)) as (k & E & _). eauto.
Qed.

(** Decoding a 16-bit map and encoding it again restores every pixel. *)
Theorem C33_map_roundtrip : forall f32 f64, rounding f32 -> rounding f64 -> forall near, 0 < near ->
  forall j1 j2 im, (forall v u, (0 <= pixel im v u <= 65535)%Z) ->
  exists d out, depth_image_of_inverse_depth_map f32 f64 j1 im near = Ok d /\
    inverse_depth_map_of_depth_image f64 j2 d near = Ok out /\
    height out = height im /\ width out = width im /\
    forall v u, (v < height im)%nat -> (u < width im)%nat -> pixel out v u = pixel im v u.
Proof.
  intros f32 f64 A B near N j1 j2 im R. destruct (C33_maps f32 f64 A B near N) as (_ & M2 & M3 & _).
  destruct (M3 j1 im) as (d & Ed & H1 & W1 & P1). destruct (M2 j2 d) as (out & Eo & H2 & W2 & P2).
  exists d, out. split; [exact Ed|]. split; [exact Eo|]. split; [congruence|]. split; [congruence|].
  intros v u Hv Hu. specialize (P1 v u Hv Hu). injection P1 as P1. specialize (P2 v u ltac:(congruence) ltac:(congruence)).
  rewrite <- P1 in P2. destruct (C33_code_roundtrip f32 f64 A B near N) as (RT & _). rewrite RT in P2 by apply R. congruence.
Qed.

(** The docstrings promise an exception for depths <= 0 and code 0 for every depth
    beyond near times the largest code.  Neither holds. *)
Theorem C33_documented_refuted : exists near x y, 0 < near /\ x < 0 /\ near * 65535 < y /\
  forall f32 f64, rounding f32 -> rounding f64 ->
  inverse_depth_of_depth f64 (Fin x) near = Ok 65535%Z /\ inverse_depth_of_depth f64 (Fin y) near = Ok 1%Z.
Proof.
  exists (3 / 10), (-1), (20000). repeat split; try lra; destruct (C33_clipping f32 f64 H H0 (3 / 10) ltac:(lra)) as (_ & _ & _ & C).
  - apply C; lra.
  - unfold inverse_depth_of_depth. destruct (Req_EM_T 20000 0); [lra|]. destruct (Rle_dec 20000 (3 / 10)); [lra|].
    assert (U := u_pos). assert (UV := u_val). unfold PIXEL_MAX.
    assert (A := encode_near 65535 20000 (3 / 10) f64 H0 ltac:(lra) ltac:(lra) ltac:(lra)). destruct A as (A1 & A2).
    set (x := f64 (f64 (3 / 10 * 65535) / 20000)) in *. clearbody x.
    assert (X : 1 / 2 + 4 / 10 < 1 / 2 + x < 1 / 2 + 1) by (rewrite UV in *; lra).
    assert (C' := round_near f64 (1 / 2 + x) H0 ltac:(lra)). destruct C' as (C1 & C2).
    apply to_uint16_ok, to_uint_ok; [unfold PIXEL_MAX; lia|]. assert (0.98 < x) by (rewrite UV in *; lra).
    assert ((1/2 + x) * u <= 2 * u) by (apply Rmult_le_compat_r; lra). rewrite UV in *. lra.
Qed.

Example C33_example : depth_of_inverse_depth (fun x => x) (fun x => x) 13107 (3 / 10) = Fin (3 / 2) /\
  inverse_depth_of_depth (fun x => x) (Fin (3 / 2)) (3 / 10) = Ok 13107%Z.
Proof.
  split.
  - unfold depth_of_inverse_depth. replace (13107 =? 0)%Z with false by reflexivity. f_equal. unfold PIXEL_MAX. field.
  - unfold inverse_depth_of_depth. destruct (Req_EM_T (3 / 2) 0); [lra|]. destruct (Rle_dec (3 / 2) (3 / 10)); [lra|].
    apply to_uint16_ok, to_uint_ok; unfold PIXEL_MAX; [lia|]. lra.
Qed.

Print Assumptions C33_code_roundtrip.
Print Assumptions C33_clipping.
Print Assumptions C33_total.
Print Assumptions C33_order_reversing.
Print Assumptions C33_quantisation.
Print Assumptions C33_expansion.
Print Assumptions C33_expansion_monotone.
Print Assumptions C33_maps.
Print Assumptions C33_map_roundtrip.
Print Assumptions C33_documented_refuted.
