(** Proofs about the conversions between numpy arrays and OpenCV images. *)
From Coq Require Import List ZArith Bool Lia.
From Verif.Base Require Import Py.
From Verif.Wrap Require Import Model Spec.
Import ListNotations.
Local Open Scope Z_scope.

Lemma existsb_zero2 : forall h w, existsb (Nat.eqb 0) [h; w] = false <-> h <> 0%nat /\ w <> 0%nat.
Proof. intros h w. destruct h, w; simpl; split; intros; try discriminate; try lia; reflexivity. Qed.

Lemma new_mat_ok : forall r c t d s, 0 <= s \/ (r <= 1)%nat \/ c = 0%nat -> exists m, new_mat r c t d s = Ok m /\
  m_type m = t /\ rows m = r /\ cols m = c /\ m_data m = d /\
  ((1 < r)%nat -> (0 < c)%nat -> s <> 0 -> step m = s) /\ ((r <= 1)%nat \/ c = 0%nat \/ s = 0 -> step m = Z.of_nat (c * esz t)).
Proof.
  intros r c t d s H. unfold new_mat.
  destruct (Nat.leb_spec r 1) as [R|R]; cbn [orb].
  - eexists. split; [reflexivity|]. cbn. repeat split; try reflexivity; lia.
  - destruct (Nat.eqb_spec c 0) as [-> |Nc]; cbn [orb].
    { eexists. split; [reflexivity|]. cbn. repeat split; try reflexivity; lia. }
    destruct (Z.eqb_spec s 0) as [-> |S].
    + eexists. split; [reflexivity|]. cbn. repeat split; try reflexivity; lia.
    + destruct (Z.ltb_spec s 0) as [L|L]; [lia|]. eexists. split; [reflexivity|]. cbn. repeat split; try reflexivity; lia.
Qed.

(** The strides of a contiguous array with pixels. *)
Lemma contiguous2 : forall a h w, well_formed a -> shape a = [h; w] -> c_contiguous a = true ->
  h = 0%nat \/ w = 0%nat \/
  exists s0 s1, strides a = [s0; s1] /\
    (h = 1%nat \/ s0 = Z.of_nat (itemsize (a_type a)) * Z.of_nat w) /\ (w = 1%nat \/ s1 = Z.of_nat (itemsize (a_type a))).
Proof.
  intros a h w W S C. unfold well_formed in W. rewrite S in W. destruct (strides a) as [|s0 [|s1 [|]]] eqn:St; try discriminate.
  unfold c_contiguous in C. rewrite S, St in C. apply orb_true_iff in C. destruct C as [C|C].
  - destruct h; [left; reflexivity|]. destruct w; [right; left; reflexivity|]. simpl in C. discriminate.
  - right; right. exists s0, s1. split; [reflexivity|]. simpl in C. rewrite andb_true_r in C.
    apply andb_true_iff in C. destruct C as [A B]. apply orb_true_iff in A, B. rewrite Nat.eqb_eq, Z.eqb_eq in A, B. split; [destruct A|destruct B]; [left|right|left|right]; lia.
Qed.

Lemma contiguous3 : forall a h w k, well_formed a -> shape a = [h; w; k] -> c_contiguous a = true ->
  h = 0%nat \/ w = 0%nat \/ k = 0%nat \/
  exists s0 s1 s2, strides a = [s0; s1; s2] /\
    (h = 1%nat \/ s0 = Z.of_nat (itemsize (a_type a)) * (Z.of_nat w * Z.of_nat k)) /\
    (w = 1%nat \/ s1 = Z.of_nat (itemsize (a_type a)) * Z.of_nat k) /\ (k = 1%nat \/ s2 = Z.of_nat (itemsize (a_type a))).
Proof.
  intros a h w k W S C. unfold well_formed in W. rewrite S in W. destruct (strides a) as [|s0 [|s1 [|s2 [|]]]] eqn:St; try discriminate.
  unfold c_contiguous in C. rewrite S, St in C. apply orb_true_iff in C. destruct C as [C|C].
  - destruct h; [left; reflexivity|]. destruct w; [right; left; reflexivity|]. destruct k; [right; right; left; reflexivity|]. simpl in C. discriminate.
  - do 3 right. exists s0, s1, s2. split; [reflexivity|]. simpl in C. rewrite andb_true_r in C.
    apply andb_true_iff in C. destruct C as [A C]. apply andb_true_iff in C. destruct C as [B C].
    apply orb_true_iff in A, B, C. rewrite Nat.eqb_eq, Z.eqb_eq in A, B, C.
    split; [destruct A; [left|right]; lia|]. split; [destruct B; [left|right]; lia|destruct C; [left|right]; lia].
Qed.

(** Views. *)
Lemma typed_gray : forall t cv a h w, (t = Uint8 /\ cv = CV_8UC1 \/ t = Uint16 /\ cv = CV_16UC1 \/ t = Float32 /\ cv = CV_32FC1) ->
  well_formed a -> a_type a = t -> shape a = [h; w] -> c_contiguous a = true ->
  exists m, typed t 2 cv a = Ok (Some m) /\ views_gray a m /\ continuous m /\ m_data m = a_data a /\ m_type m = cv.
Proof.
  intros t cv a h w T W Ta S C. unfold typed. rewrite Ta, C. unfold ndim. rewrite S. simpl Nat.eqb.
  assert (De : dtype_eqb t t = true) by (destruct T as [(-> & _)|[(-> & _)|(-> & _)]]; reflexivity).
  rewrite De. cbn [andb]. unfold nth_shape. rewrite S. cbn [nth].
  assert (Z : esz cv = itemsize t) by (destruct T as [(-> & ->)|[(-> & ->)|(-> & ->)]]; reflexivity).
  assert (P : (0 < itemsize t)%nat) by (destruct T as [(-> & _)|[(-> & _)|(-> & _)]]; simpl; lia).
  destruct (contiguous2 a h w W S C) as [H0|[H0|(s0 & s1 & St & A & B)]].
  - subst h. unfold new_mat. simpl Nat.leb. cbn [orb]. eexists. split; [reflexivity|]. split; [|split; [left; simpl; lia|split; reflexivity]].
    exists 0%nat, w. repeat split; try assumption; try (simpl; rewrite Z, Ta; reflexivity). intros; lia.
  - subst w. unfold new_mat. simpl Nat.eqb. rewrite orb_true_r. cbn [orb]. eexists. split; [reflexivity|]. split; [|split; [right; reflexivity|split; reflexivity]].
    exists h, 0%nat. repeat split; try assumption; try (simpl; rewrite Z, Ta; reflexivity). intros; lia.
  - unfold stride0. rewrite St. cbn [nth]. rewrite Ta in A, B.
    destruct (new_mat_ok h w cv (a_data a) s0) as (m & -> & M1 & M2 & M3 & M4 & M5 & M6); [lia|].
    exists m. split; [reflexivity|]. split; [|split; [|split; assumption]].
    + exists h, w. repeat split; try assumption; [rewrite M1, Ta; exact Z|].
      intros i j Hi Hj. unfold pixel_address, address. rewrite M1, M4, St, Z. simpl.
      assert (X : Z.of_nat i * step m = Z.of_nat i * s0).
      { destruct (Nat.eq_dec h 1) as [-> |N1]; [replace i with 0%nat by lia; lia|]. rewrite M5; [reflexivity|lia|lia|]. destruct A; [lia|]. subst s0. nia. }
      assert (Y : Z.of_nat j * Z.of_nat (itemsize t) = Z.of_nat j * s1) by (destruct B as [-> | ->]; [replace j with 0%nat by lia; lia|reflexivity]).
      lia.
    + unfold continuous. rewrite M1, M2, M3. destruct (Nat.le_gt_cases h 1) as [L|L]; [left; exact L|right].
      destruct A as [A|A]; [lia|]. rewrite Z. destruct (Z.eq_dec s0 0) as [Z0|Z0]; [rewrite M6 by tauto; rewrite Z; reflexivity|].
      destruct (Nat.eq_dec w 0) as [W0|W0]; [rewrite M6 by tauto; rewrite Z; reflexivity|]. rewrite M5 by (assumption || lia). rewrite A. lia.
Qed.

Lemma typed_color : forall a h w k, well_formed a -> a_type a = Uint8 -> shape a = [h; w; k] -> c_contiguous a = true ->
  (0 < k)%nat ->
  exists m, mat3b_from_array a = Ok (Some m) /\ rows m = h /\ cols m = w /\ m_type m = CV_8UC3 /\ m_data m = a_data a /\
    ((1 < h)%nat -> step m = Z.of_nat w * Z.of_nat k) /\ ((h <= 1)%nat -> step m = Z.of_nat (w * 3)) /\
    (forall i j c, (i < h)%nat -> (j < w)%nat -> (c < k)%nat -> address a [i; j; c] = a_data a + Z.of_nat i * (Z.of_nat w * Z.of_nat k) + Z.of_nat j * Z.of_nat k + Z.of_nat c).
Proof.
  intros a h w k W Ta S C Hk. unfold mat3b_from_array, typed. rewrite Ta, C. unfold ndim. rewrite S. simpl Nat.eqb. cbn [dtype_eqb andb].
  unfold nth_shape. rewrite S. cbn [nth].
  destruct (contiguous3 a h w k W S C) as [H0|[H0|[H0|(s0 & s1 & s2 & St & A & B & D)]]]; [| |lia|].
  - subst h. unfold new_mat. simpl Nat.leb. cbn [orb]. eexists. split; [reflexivity|]. cbn. repeat split; try reflexivity; intros; lia.
  - subst w. unfold new_mat. simpl Nat.eqb. rewrite orb_true_r. cbn [orb]. eexists. split; [reflexivity|]. cbn. repeat split; try reflexivity; intros; lia.
  - rewrite Ta in A, B, D. cbn [itemsize] in A, B, D. unfold stride0. rewrite St. cbn [nth].
    destruct (new_mat_ok h w CV_8UC3 (a_data a) s0) as (m & -> & M1 & M2 & M3 & M4 & M5 & M6); [lia|].
    exists m. do 5 (split; [assumption || reflexivity|]). split; [|split].
    + intro L. destruct A as [A|A]; [lia|]. destruct (Nat.eq_dec w 0) as [W0|W0]; [rewrite M6 by tauto; rewrite W0; lia|].
      destruct (Z.eq_dec s0 0) as [Z0|Z0]; [exfalso; assert (0 < Z.of_nat w * Z.of_nat k) by (apply Z.mul_pos_pos; lia); lia|]. rewrite M5 by (assumption || lia). lia.
    + intro L. apply M6. left. exact L.
    + intros i j c Hi Hj Hc. unfold address. rewrite St. simpl.
      assert (X : Z.of_nat i * s0 = Z.of_nat i * (Z.of_nat w * Z.of_nat k)) by (destruct A as [-> |A]; [replace i with 0%nat by lia; lia|rewrite A; f_equal; lia]).
      assert (Y : Z.of_nat j * s1 = Z.of_nat j * Z.of_nat k) by (destruct B as [-> |B]; [replace j with 0%nat by lia; lia|rewrite B; f_equal; lia]).
      assert (U : Z.of_nat c * s2 = Z.of_nat c) by (destruct D as [-> |D]; [replace c with 0%nat by lia; lia|rewrite D; lia]).
      lia.
Qed.

(** memcpy. *)
Lemma memcpy_in : forall mem d s n k, 0 <= k < Z.of_nat n -> memcpy mem d s n (d + k) = mem (s + k).
Proof.
  intros mem d s n k H. unfold memcpy. destruct (Z.leb_spec d (d + k)); [|lia]. destruct (Z.ltb_spec (d + k) (d + Z.of_nat n)); [|lia]. cbn [andb].
  f_equal. lia.
Qed.
Lemma memcpy_out : forall mem d s n, only_changed d n mem (memcpy mem d s n).
Proof.
  intros mem d s n q H. unfold memcpy. destruct (Z.leb_spec d q), (Z.ltb_spec q (d + Z.of_nat n)); cbn [andb]; try reflexivity; lia.
Qed.

Lemma packed_gray : forall f t h w i j, address (np_empty f t [h; w]) [i; j] = f + (Z.of_nat i * Z.of_nat w + Z.of_nat j) * Z.of_nat (itemsize t).
Proof. intros. unfold address; simpl. nia. Qed.
Lemma packed_color : forall f h w i j c, address (np_empty f Uint8 [h; w; 3%nat]) [i; j; c] = f + (Z.of_nat i * Z.of_nat w + Z.of_nat j) * 3 + Z.of_nat c.
Proof. intros. unfold address; cbn [np_empty strides a_data packed offset fold_right itemsize]. lia. Qed.

Lemma np_empty_contiguous : forall f t sh, c_contiguous (np_empty f t sh) = true.
Proof.
  intros f t sh. unfold c_contiguous, np_empty. cbn [shape strides a_type]. apply orb_true_iff. right.
  induction sh as [|n sh IH]; simpl; [reflexivity|]. rewrite Z.eqb_refl, orb_true_r. exact IH.
Qed.

Lemma continuous_address : forall m i j, continuous m -> (i < rows m)%nat ->
  pixel_address m i j = m_data m + (Z.of_nat i * Z.of_nat (cols m) + Z.of_nat j) * Z.of_nat (esz (m_type m)).
Proof.
  intros m i j C Hi. unfold pixel_address. destruct C as [C|C]; [replace i with 0%nat by lia; lia|]. rewrite C. nia.
Qed.

Lemma cell_bound : forall h w i j, (i < h)%nat -> (j < w)%nat -> Z.of_nat i * Z.of_nat w + Z.of_nat j + 1 <= Z.of_nat (h * w).
Proof. intros. nia. Qed.

Lemma copied_gray : forall f mem m t n, continuous m -> itemsize t = esz (m_type m) ->
  n = (rows m * cols m * itemsize t)%nat ->
  same_gray (memcpy mem f (m_data m) n) (np_empty f t [rows m; cols m]) mem m.
Proof.
  intros f mem m t n C E ->. split; [reflexivity|]. split; [exact E|]. intros i j Hi Hj.
  cbn [np_empty a_type]. change (np_empty f t [rows m; cols m]) with (np_empty f t [rows m; cols m]).
  unfold bytes_at. rewrite <- E. apply map_ext_in. intros k Hk. apply in_seq in Hk.
  rewrite packed_gray, (continuous_address m i j C Hi), <- E.
  set (e := (Z.of_nat i * Z.of_nat (cols m) + Z.of_nat j) * Z.of_nat (itemsize t)).
  replace (f + e + Z.of_nat k) with (f + (e + Z.of_nat k)) by lia.
  rewrite memcpy_in; [f_equal; lia|].
  assert (B := cell_bound (rows m) (cols m) i j Hi Hj). unfold e. nia.
Qed.

Lemma copied_color : forall f mem m n, continuous m -> m_type m = CV_8UC3 ->
  n = (rows m * cols m * 3)%nat ->
  same_color (memcpy mem f (m_data m) n) (np_empty f Uint8 [rows m; cols m; 3%nat]) mem m.
Proof.
  intros f mem m n C E ->. split; [reflexivity|]. split; [reflexivity|]. split; [exact E|]. intros i j c Hi Hj Hc.
  rewrite packed_color, (continuous_address m i j C Hi), E. change (Z.of_nat (esz CV_8UC3)) with 3.
  set (e := (Z.of_nat i * Z.of_nat (cols m) + Z.of_nat j)).
  replace (f + e * 3 + Z.of_nat c) with (f + (e * 3 + Z.of_nat c)) by lia.
  rewrite memcpy_in; [f_equal; lia|].
  assert (B := cell_bound (rows m) (cols m) i j Hi Hj). unfold e. nia.
Qed.

(** clone. *)
Lemma clone_ok : forall f mem m, let '(m', mem') := clone f mem m in
  m_type m' = m_type m /\ rows m' = rows m /\ cols m' = cols m /\ continuous m' /\ m_data m' = f /\
  forall i j k, (i < rows m)%nat -> (j < cols m)%nat -> (k < esz (m_type m))%nat ->
    mem' (pixel_address m' i j + Z.of_nat k) = mem (pixel_address m i j + Z.of_nat k).
Proof.
  intros f mem m. unfold clone. cbn [m_type rows cols m_data step].
  do 3 (split; [reflexivity|]). split; [right; reflexivity|]. split; [reflexivity|]. intros i j k Hi Hj Hk.
  unfold pixel_address. cbn [m_type rows cols m_data step]. set (w := Z.of_nat (cols m * esz (m_type m))).
  assert (Wd : w = Z.of_nat (cols m) * Z.of_nat (esz (m_type m))) by (unfold w; lia).
  set (e := Z.of_nat j * Z.of_nat (esz (m_type m)) + Z.of_nat k).
  assert (He : 0 <= e < w) by (unfold e; rewrite Wd; nia).
  replace (f + Z.of_nat i * w + Z.of_nat j * Z.of_nat (esz (m_type m)) + Z.of_nat k) with (f + (Z.of_nat i * w + e)) by (unfold e; lia).
  destruct (Z.leb_spec f (f + (Z.of_nat i * w + e))); [|nia].
  destruct (Z.ltb_spec (f + (Z.of_nat i * w + e)) (f + Z.of_nat (rows m) * w)); [|nia]. cbn [andb].
  replace (f + (Z.of_nat i * w + e) - f) with (e + Z.of_nat i * w) by lia.
  rewrite Z_div_plus_full by lia. rewrite Z.div_small by lia. rewrite Z_mod_plus_full, Z.mod_small by lia.
  f_equal. unfold e. lia.
Qed.
