(** C45: the cube map covers all directions once, and clouds made from 360 degree images
    have their points at the measured distances.  C76: the joints between the faces. *)
From Coq Require Import Reals List ZArith Lra Lia Bool FinFun.
From Verif.Base Require Import Py PyFacts Vec.
From Verif.Depth Require Import Model Proofs.
From Verif.Cloud Require Import Model.
From Verif.Cube Require Import Model Spec Proofs.
Import ListNotations.
Local Open Scope R_scope.

(** The direction of each pixel centre is on the cube, inside the face its column belongs
    to. *)
Theorem C45_face : forall side row col, (row < side)%nat -> (col < 6 * side)%nat ->
  exists f v, nth_error faces (col / side) = Some f /\ unproject side (pixelCoordinates row col) = Ok v /\
    on_face f v /\ maxnorm v = 1.
Proof.
  intros side row col R C. destruct (unproject_centre side row col R C) as (f & F & U).
  assert (M := Nat.mod_upper_bound col side ltac:(lia)).
  assert (A := centre_range side (col mod side) M). assert (B := centre_range side row R).
  exists f, (face_dir f (centre side (col mod side)) (centre side row)).
  do 2 (split; [assumption|]). split; [apply face_dir_on; assumption | apply face_dir_max; lra].
Qed.

(** No two pixels look in the same direction. *)
Theorem C45_distinct : forall side row col row' col' v v',
  (row < side)%nat -> (col < 6 * side)%nat -> (row' < side)%nat -> (col' < 6 * side)%nat ->
  unproject side (pixelCoordinates row col) = Ok v -> unproject side (pixelCoordinates row' col') = Ok v' ->
  along v v' -> row = row' /\ col = col'.
Proof.
  intros side row col row' col' v v' R C R' C' U U' A.
  destruct (unproject_centre side row col R C) as (f & F & E). destruct (unproject_centre side row' col' R' C') as (f' & F' & E').
  rewrite U in E. injection E as ->. rewrite U' in E'. injection E' as ->.
  assert (M := Nat.mod_upper_bound col side ltac:(lia)). assert (M' := Nat.mod_upper_bound col' side ltac:(lia)).
  destruct (face_dir_inj _ _ _ _ _ _ (centre_range _ _ M) (centre_range _ _ R) (centre_range _ _ M') (centre_range _ _ R') A)
    as (EF & X & Y). subst f'.
  apply centre_inj in X; auto. apply centre_inj in Y; auto. split; [exact Y|].
  assert (K : (col / side = col' / side)%nat).
  { assert (ND : NoDup faces) by (unfold faces; repeat constructor; cbn; intuition discriminate).
    apply (NoDup_nth_error faces); auto; [|congruence]. apply nth_error_Some. congruence. }
  rewrite (Nat.div_mod col side), (Nat.div_mod col' side) by lia. rewrite X, K. reflexivity.
Qed.

(** Every direction is that of some place in the image. *)
Lemma hit : forall side k f a b, (0 < side)%nat -> nth_error faces k = Some f -> -1 <= a < 1 -> -1 <= b <= 1 ->
  exists x y, 0 <= x < INR (6 * side) /\ 0 <= y <= INR side /\ unproject side (x, y) = Ok (face_dir f a b).
Proof.
  intros side k f a b S F A B. assert (P := INR_pos _ S).
  assert (K : (k < 6)%nat) by (change 6%nat with (length faces); apply nth_error_Some; congruence).
  assert (K' : INR (k * side) + INR side <= INR (6 * side)) by (rewrite <- plus_INR; apply le_INR; nia).
  assert (N := pos_INR (k * side)).
  assert (X : INR (k * side) <= INR (k * side) + (a + 1) / 2 * INR side < INR (k * side) + INR side) by nra.
  exists (INR (k * side) + (a + 1) / 2 * INR side), ((b + 1) / 2 * INR side).
  split; [lra|]. split; [nra|]. rewrite (unproject_face side k f); auto. unfold sensor. do 2 f_equal; field; lra.
Qed.

Theorem C45_onto : forall side d, (0 < side)%nat -> d <> vzero ->
  exists x y v, 0 <= x < INR (6 * side) /\ 0 <= y <= INR side /\ unproject side (x, y) = Ok v /\ along v d.
Proof.
  intros side [x y z] S NZ.
  assert (W : exists k f a b m, nth_error faces k = Some f /\ -1 <= a < 1 /\ -1 <= b <= 1 /\ 0 < m /\ V x y z = smul m (face_dir f a b)).
  { assert (DX : forall t, t <> 0 -> x = t * (x / t)) by (intros; field; auto).
    assert (DY : forall t, t <> 0 -> y = t * (y / t)) by (intros; field; auto).
    assert (DZ : forall t, t <> 0 -> z = t * (z / t)) by (intros; field; auto).
    assert (BD : forall c t, 0 < t -> -t <= c <= t -> -1 <= c / t <= 1).
    { intros c t T C. split; apply Rmult_le_reg_r with t; auto; unfold Rdiv; rewrite Rmult_assoc, Rinv_l by lra; lra. }
    assert (BS : forall c t, 0 < t -> -t <= c < t -> -1 <= c / t < 1).
    { intros c t T C. split; [apply Rmult_le_reg_r with t | apply Rmult_lt_reg_r with t]; auto; unfold Rdiv; rewrite Rmult_assoc, Rinv_l by lra; lra. }
    assert (M : 0 < maxnorm (V x y z)).
    { unfold maxnorm. cbn [vx vy vz]. assert (X := Rmax_l (Rabs x) (Rmax (Rabs y) (Rabs z))). assert (Y := Rmax_r (Rabs x) (Rmax (Rabs y) (Rabs z))).
      assert (Y' := Rmax_l (Rabs y) (Rabs z)). assert (Y'' := Rmax_r (Rabs y) (Rabs z)).
      destruct (Req_dec x 0) as [->|N1]; [|assert (Q := Rabs_pos_lt _ N1); lra].
      destruct (Req_dec y 0) as [->|N2]; [|assert (Q := Rabs_pos_lt _ N2); lra].
      destruct (Req_dec z 0) as [->|N3]; [contradiction NZ; reflexivity | assert (Q := Rabs_pos_lt _ N3); lra]. }
    set (m := maxnorm (V x y z)) in *.
    assert (LX : -m <= x <= m /\ -m <= y <= m /\ -m <= z <= m /\ (x = m \/ x = -m \/ y = m \/ y = -m \/ z = m \/ z = -m)).
    { subst m. unfold maxnorm. cbn [vx vy vz]. unfold Rmax, Rabs. repeat destruct Rle_dec; repeat destruct Rcase_abs; lra. }
    destruct LX as (BX & BY & BZ & E).
    assert (Back' : z = -m -> x <> -m -> exists k f a b m, nth_error faces k = Some f /\ -1 <= a < 1 /\ -1 <= b <= 1 /\ 0 < m /\ V x y z = smul m (face_dir f a b)).
    { intros EZ EX. exists 0%nat, Back, (-x / m), (y / m), m. do 2 (split; [reflexivity || (apply BS; lra)|]). split; [apply BD; lra|]. split; [exact M|].
      apply vec_eq; cbn; [field; lra | field; lra | lra]. }
    assert (Left' : x = -m -> z <> m -> exists k f a b m, nth_error faces k = Some f /\ -1 <= a < 1 /\ -1 <= b <= 1 /\ 0 < m /\ V x y z = smul m (face_dir f a b)).
    { intros EX EZ. exists 1%nat, Left, (z / m), (y / m), m. do 2 (split; [reflexivity || (apply BS; lra)|]). split; [apply BD; lra|]. split; [exact M|].
      apply vec_eq; cbn; [lra | field; lra | field; lra]. }
    assert (Front' : z = m -> x <> m -> exists k f a b m, nth_error faces k = Some f /\ -1 <= a < 1 /\ -1 <= b <= 1 /\ 0 < m /\ V x y z = smul m (face_dir f a b)).
    { intros EZ EX. exists 2%nat, Front, (x / m), (y / m), m. do 2 (split; [reflexivity || (apply BS; lra)|]). split; [apply BD; lra|]. split; [exact M|].
      apply vec_eq; cbn; [field; lra | field; lra | lra]. }
    assert (Right' : x = m -> z <> -m -> exists k f a b m, nth_error faces k = Some f /\ -1 <= a < 1 /\ -1 <= b <= 1 /\ 0 < m /\ V x y z = smul m (face_dir f a b)).
    { intros EX EZ. exists 3%nat, Right, (-z / m), (y / m), m. do 2 (split; [reflexivity || (apply BS; lra)|]). split; [apply BD; lra|]. split; [exact M|].
      apply vec_eq; cbn; [lra | field; lra | field; lra]. }
    destruct (Req_dec x m) as [X1|X1]; [destruct (Req_dec z (-m)); [apply Back'; lra | apply Right'; lra]|].
    destruct (Req_dec x (-m)) as [X2|X2]; [destruct (Req_dec z m); [apply Front'; lra | apply Left'; lra]|].
    destruct (Req_dec z m) as [Z1|Z1]; [apply Front'; lra|].
    destruct (Req_dec z (-m)) as [Z2|Z2]; [apply Back'; lra|].
    destruct (Req_dec y m) as [Y1|Y1].
    - exists 5%nat, Down, (x / m), (-z / m), m. do 2 (split; [reflexivity || (apply BS; lra)|]). split; [apply BD; lra|]. split; [exact M|].
      apply vec_eq; cbn; [field; lra | lra | field; lra].
    - exists 4%nat, Up, (x / m), (z / m), m. do 2 (split; [reflexivity || (apply BS; lra)|]). split; [apply BD; lra|]. split; [exact M|].
      apply vec_eq; cbn; [field; lra | lra | field; lra]. }
  destruct W as (k & f & a & b & m & F & A & B & M & E).
  destruct (hit side k f a b S F A B) as (px & py & PX & PY & U).
  exists px, py, (face_dir f a b). repeat (split; [assumption|]). exists m. auto.
Qed.

(** Places to the right of the sixth face have no direction. *)
Theorem C45_outside : forall side x y, (0 < side)%nat -> INR (6 * side) < x -> unproject side (x, y) = Err IndexError.
Proof. exact unproject_outside. Qed.

(** The cloud of an image: one point for each measured pixel, row by row, with the
    colour of the pixel, in the direction of the pixel and at the measured distance.
    With all_points the other pixels give black points at the origin. *)
Theorem C45_cloud : forall debug rgb range,
  height range = height rgb -> width range = width rgb ->
  (forall row col, (row < height rgb)%nat -> (col < width rgb)%nat -> measured (pixel range row col) -> (col < 6 * height rgb)%nat) ->
  exists dir,
    (forall row col, (row < height rgb)%nat -> (col < 6 * height rgb)%nat ->
       unproject (height rgb) (pixelCoordinates row col) = Ok (dir (row, col))) /\
    (exists c, create_point_cloud debug rgb range false = Ok c /\ length (points c) = length (colors c) /\
       Forall2 (sees dir rgb range) (filter (fun p => measuredb (pixel range (fst p) (snd p))) (raster (height rgb) (width rgb)))
         (combine (points c) (colors c))) /\
    (exists c, create_point_cloud debug rgb range true = Ok c /\ length (points c) = length (colors c) /\
       Forall2 (fun p q => if measuredb (pixel range (fst p) (snd p)) then sees dir rgb range p q else q = (vzero, black))
         (raster (height rgb) (width rgb)) (combine (points c) (colors c))).
Proof.
  intros debug rgb range H W N. exists (dir_of (height rgb)).
  assert (N' : forall row col, (row < height rgb)%nat -> (col < width rgb)%nat -> measuredb (pixel range row col) = true -> (col < 6 * height rgb)%nat).
  { intros row col R C M. apply (N row col R C). unfold measuredb in M. destruct (pixel range row col) as [x|]; [|discriminate].
    destruct (Rlt_dec 0 x); [|discriminate]. exists x. auto. }
  assert (G : forall all, create_point_cloud debug rgb range all = Ok (Cloud (map fst (emitted rgb range all)) (map snd (emitted rgb range all)))).
  { intros all. unfold create_point_cloud. rewrite H, W, !Nat.eqb_refl. cbn [andb]. rewrite createPointCloud_ok; auto. }
  split; [intros row col R C; apply dir_of_ok; assumption|].
  split; eexists; (split; [apply G|]); cbn [points colors]; (split; [rewrite !map_length; reflexivity|]); rewrite combine_map.
  - apply emitted_seen; auto.
  - apply emitted_all; auto.
Qed.

(** The points of different pixels are different. *)
Theorem C45_cloud_distinct : forall debug rgb range c, (width rgb <= 6 * height rgb)%nat ->
  create_point_cloud debug rgb range false = Ok c -> NoDup (points c).
Proof.
  intros debug rgb range c N E.
  assert (Sz : height range = height rgb /\ width range = width rgb).
  { unfold create_point_cloud in E. destruct (Nat.eqb_spec (height rgb) (height range)); [|discriminate].
    destruct (Nat.eqb_spec (width rgb) (width range)); [auto | discriminate]. }
  destruct Sz as (H & W).
  destruct (C45_cloud debug rgb range H W) as (dir & D & (c' & E' & L & F) & _); [intros; lia|].
  rewrite E in E'. injection E' as <-. 
  assert (ND : NoDup (raster (height rgb) (width rgb))).
  { unfold raster. generalize (seq_NoDup (width rgb) 0). generalize (seq_NoDup (height rgb) 0).
    generalize (seq 0 (height rgb)) as l. generalize (seq 0 (width rgb)) as l'. intros l' l A B. induction A as [|x l I A IH]; [constructor|].
    cbn. apply NoDup_app_intro; auto.
    - apply FinFun.Injective_map_NoDup; auto. intros u v Q. injection Q. auto.
    - intros p P Q. apply in_map_iff in P. destruct P as (u & <- & _). apply in_prod_iff in Q. destruct Q as (Q & _). contradiction. }
  assert (Q : Forall (fun p => In p (raster (height rgb) (width rgb))) (filter (fun p => measuredb (pixel range (fst p) (snd p))) (raster (height rgb) (width rgb)))).
  { apply Forall_forall. intros p P. apply filter_In in P. tauto. }
  apply (NoDup_filter (fun p => measuredb (pixel range (fst p) (snd p)))) in ND.
  replace (points c) with (map fst (combine (points c) (colors c))).
  2: { revert L. generalize (points c) as a. generalize (colors c) as b. clear. intros b a. revert b.
       induction a as [|x a IH]; intros [|y b] L; cbn in *; try discriminate; [reflexivity|]. f_equal. apply IH. congruence. }
  revert F. generalize (combine (points c) (colors c)) as q. intros q F. revert ND Q.
  induction F as [|p t ps ts S F IH]; intros ND Q; [constructor|]. inversion ND as [|? ? NI ND']; subst. inversion Q as [|? ? QI Q']; subst.
  cbn. constructor; [|auto]. intros I. apply in_map_iff in I. destruct I as (t' & EQ & I).
  assert (X : exists p', In p' ps /\ sees dir rgb range p' t').
  { clear - F I. induction F as [|p' t'' ps ts S F IH]; [destruct I|]. destruct I as [->|I]; [exists p'; split; [left|]; auto|].
    destruct (IH I) as (p'' & A & B). exists p''. split; [right|]; auto. }
  destruct X as (p' & P' & S'). apply NI. rewrite Forall_forall in Q'. assert (QI' := Q' p' P').
  rewrite in_raster in QI, QI'. destruct S as (_ & _ & A), S' as (_ & _ & A').
  assert (AL : along (dir p) (dir p')).
  { rewrite <- EQ in A. apply along_sym in A'. destruct A as (s & SP & SE). destruct A' as (s' & SP' & SE').
    exists (s' * s). split; [nra|]. rewrite SE', SE. apply vec_eq; cbn; ring. }
  destruct p as [row col], p' as [row' col']. cbn [fst snd] in *.
  assert (EQ' : row = row' /\ col = col').
  { apply (C45_distinct (height rgb) row col row' col' (dir (row, col)) (dir (row', col'))); auto; try lia; apply D; lia. }
  destruct EQ' as (-> & ->). exact P'.
Qed.

(** Errors: different sizes raise ValueError; a measured pixel to the right of the sixth
    face ends the process, because the C++ exception is not translated. *)
Theorem C45_errors : forall debug rgb range all,
  (~ (height range = height rgb /\ width range = width rgb) -> create_point_cloud debug rgb range all = Err ValueError) /\
  (height range = height rgb -> width range = width rgb ->
   forall row col, (row < height rgb)%nat -> (6 * height rgb <= col < width rgb)%nat -> measured (pixel range row col) ->
   create_point_cloud debug rgb range all = Err Terminate).
Proof.
  intros debug rgb range all. split.
  - intros N. unfold create_point_cloud. destruct (Nat.eqb_spec (height rgb) (height range)); [|reflexivity].
    destruct (Nat.eqb_spec (width rgb) (width range)); [|reflexivity]. exfalso. apply N. auto.
  - intros H W row col R C M. unfold create_point_cloud. rewrite H, W, !Nat.eqb_refl. cbn [andb].
    assert (G := rows_good rgb range all ltac:(lia) (height rgb) 0 ([], []) ltac:(lia)).
    unfold createPointCloud. destruct (foldM _ _ _) as [x|e]; [|cbn in G; subst e; reflexivity].
    exfalso. cbn in G. destruct M as (x' & X & E).
    assert (L : (col < 6 * height rgb)%nat); [|lia]. apply (G row col); try lia.
    unfold measuredb. rewrite E. destruct (Rlt_dec 0 x'); [reflexivity | contradiction].
Qed.

(** The claim that clouds can be made of all images with ranges of the right size is
    false: a 1*7 image ends the process. *)
Theorem C45_any_size_refuted : exists rgb range, height range = height rgb /\ width range = width rgb /\
  create_point_cloud false rgb range false = Err Terminate.
Proof.
  exists (Image 1 7 (fun _ _ => black)), (Image 1 7 (fun _ _ => Fin 1)).
  split; [reflexivity|]. split; [reflexivity|].
  apply (proj2 (C45_errors false _ _ false)) with (row := 0%nat) (col := 6%nat); try reflexivity; cbn; try lia.
  exists 1. split; [lra | reflexivity].
Qed.

(** * C76: the joints *)

(** Going round the four faces at the sides, and within the faces, nearby places have
    nearby directions: each coordinate changes at most by two units per side length. *)
Definition near_by (e : R) (v w : vec) : Prop :=
  Rabs (vx v - vx w) <= e /\ Rabs (vy v - vy w) <= e /\ Rabs (vz v - vz w) <= e.

Lemma band : forall side x, (0 < side)%nat -> 0 <= x < INR (4 * side) ->
  exists k f, (k < 4)%nat /\ nth_error faces k = Some f /\ INR (k * side) <= x < INR (k * side) + INR side.
Proof.
  intros side x S X. assert (P := INR_pos _ S). rewrite mult_INR in X. replace (INR 4) with 4 in X by (cbn; ring).
  assert (I1 : INR (0 * side) = 0) by reflexivity.
  assert (I2 : INR (1 * side) = INR side) by (rewrite Nat.mul_1_l; reflexivity).
  assert (I3 : INR (2 * side) = 2 * INR side) by (rewrite mult_INR; reflexivity).
  assert (I4 : INR (3 * side) = 3 * INR side) by (rewrite mult_INR; cbn; ring).
  destruct (Rlt_dec x (INR side)); [exists 0%nat, Back | destruct (Rlt_dec x (2 * INR side)); [exists 1%nat, Left |
    destruct (Rlt_dec x (3 * INR side)); [exists 2%nat, Front | exists 3%nat, Right]]];
  (split; [lia|]); (split; [reflexivity|]); rewrite ?I1, ?I2, ?I3, ?I4; lra.
Qed.

Theorem C76_continuous : forall side x x' y y' v v', (0 < side)%nat ->
  0 <= x < INR (4 * side) -> 0 <= x' < INR (4 * side) -> 0 <= y <= INR side -> 0 <= y' <= INR side ->
  unproject side (x, y) = Ok v -> unproject side (x', y') = Ok v' ->
  near_by (2 / INR side * Rmax (Rabs (x - x')) (Rabs (y - y'))) v v'.
Proof.
  intros side x x' y y' v v' S X X' Y Y' U U'. assert (P := INR_pos _ S).
  destruct (band side x S X) as (k & f & K & F & B). destruct (band side x' S X') as (k' & f' & K' & F' & B').
  rewrite (unproject_face side k f x y S F B) in U. injection U as <-.
  rewrite (unproject_face side k' f' x' y' S F' B') in U'. injection U' as <-.
  assert (R1 := sensor_range side k x S B). assert (R2 := sensor_range side k' x' S B').
  assert (Ry : forall t, 0 <= t <= INR side -> -1 <= 2 * t / INR side - 1 <= 1).
  { intros t T. assert (Q : 0 <= t / INR side <= 1); [|unfold Rdiv in *; lra].
    split; apply Rmult_le_reg_r with (INR side); auto; unfold Rdiv; rewrite Rmult_assoc, Rinv_l by lra; lra. }
  assert (R3 := Ry _ Y). assert (R4 := Ry _ Y').
  set (i := / INR side). assert (I : 0 < i) by (apply Rinv_0_lt_compat; auto).
  assert (E1 : sensor side k x = 2 * (x * i) - 2 * INR k - 1) by (unfold sensor; rewrite mult_INR; subst i; field; lra).
  assert (E2 : sensor side k' x' = 2 * (x' * i) - 2 * INR k' - 1) by (unfold sensor; rewrite mult_INR; subst i; field; lra).
  assert (E3 : 2 * y / INR side - 1 = 2 * (y * i) - 1) by (subst i; field; lra).
  assert (E4 : 2 * y' / INR side - 1 = 2 * (y' * i) - 1) by (subst i; field; lra).
  assert (M : exists m, m = 2 / INR side * Rmax (Rabs (x - x')) (Rabs (y - y')) /\
     2 * (x * i - x' * i) <= m /\ 2 * (x' * i - x * i) <= m /\ 2 * (y * i - y' * i) <= m /\ 2 * (y' * i - y * i) <= m).
  { eexists. split; [reflexivity|]. replace (2 / INR side) with (2 * i) by (subst i; field; lra).
    assert (A := Rmax_l (Rabs (x - x')) (Rabs (y - y'))). assert (C := Rmax_r (Rabs (x - x')) (Rabs (y - y'))).
    set (mx := Rmax _ _) in *. assert (A1 := Rle_abs (x - x')). assert (A2 := Rle_abs (- (x - x'))). rewrite Rabs_Ropp in A2.
    assert (C1 := Rle_abs (y - y')). assert (C2 := Rle_abs (- (y - y'))). rewrite Rabs_Ropp in C2.
    repeat split; nra. }
  destruct M as (m & <- & M1 & M2 & M3 & M4). rewrite E1, E2, E3, E4 in *.
  set (u := x * i) in *. set (u' := x' * i) in *. set (t := y * i) in *. set (t' := y' * i) in *. clearbody u u' t t'.
  unfold near_by.
  destruct k as [|[|[|[|k]]]]; [| | | |lia]; (destruct k' as [|[|[|[|k']]]]; [| | | |lia]);
    cbn in F, F'; injection F as <-; injection F' as <-;
    cbn [INR face_dir vx vy vz] in *; repeat split; apply Rabs_le; lra.
Qed.

(** The left edge of the image joins the right edge of the fourth face, and is the
    direction given at the right edge of the image. *)
Theorem C76_around : forall side y, (0 < side)%nat ->
  unproject side (INR (6 * side), y) = unproject side (0, y) /\
  forall x v v', INR (3 * side) <= x < INR (4 * side) -> unproject side (x, y) = Ok v -> unproject side (0, y) = Ok v' ->
    near_by (2 / INR side * (INR (4 * side) - x)) v v'.
Proof.
  intros side y S. assert (P := INR_pos _ S).
  assert (Z : unproject side (0, y) = Ok (face_dir Back (sensor side 0 0) (2 * y / INR side - 1))).
  { apply unproject_face; auto. cbn. lra. }
  split.
  - rewrite Z. unfold unproject. cbn [fst snd]. destruct (Req_EM_T (INR (6 * side)) (INR (6 * side))); [|contradiction].
    unfold sensorOfPixel, half, sensor. cbn [fst snd face_dir Nat.mul INR]. do 2 f_equal; field; lra.
  - intros x v v' X U U'. rewrite Z in U'. injection U' as <-.
    assert (X' : INR (3 * side) <= x < INR (3 * side) + INR side) by (rewrite <- plus_INR; replace (3 * side + side)%nat with (4 * side)%nat by lia; exact X).
    rewrite (unproject_face side 3 Right x y S eq_refl X') in U. injection U as <-.
    assert (R1 := sensor_range side 3 x S X').
    set (i := / INR side). assert (I : 0 < i) by (apply Rinv_0_lt_compat; auto).
    assert (J : INR side * i = 1) by (subst i; field; lra).
    assert (E1 : sensor side 3 x = 2 * (x * i) - 7) by (unfold sensor; rewrite mult_INR; subst i; cbn [INR]; field; lra).
    assert (E2 : sensor side 0 0 = -1) by (unfold sensor; rewrite mult_INR; subst i; cbn [INR]; field; lra).
    assert (E3 : 2 / INR side * (INR (4 * side) - x) = 8 - 2 * (x * i)) by (rewrite mult_INR; subst i; cbn [INR]; field; lra).
    rewrite E1, E2, E3 in *. unfold near_by. cbn [face_dir vx vy vz]. repeat split; apply Rabs_le; lra.
Qed.

(** The lower edge of the face above and the upper edge of the face below join the front
    face. *)
Theorem C76_above_below : forall side t, (0 < side)%nat -> 0 <= t < INR side ->
  unproject side (INR (4 * side) + t, INR side) = unproject side (INR (2 * side) + t, 0) /\
  unproject side (INR (5 * side) + t, 0) = unproject side (INR (2 * side) + t, INR side).
Proof.
  intros side t S T. assert (P := INR_pos _ S).
  rewrite (unproject_face side 4 Up (INR (4 * side) + t)), (unproject_face side 5 Down (INR (5 * side) + t)),
    !(unproject_face side 2 Front (INR (2 * side) + t)); auto; try lra.
  unfold sensor, face_dir. split; apply f_equal; apply vec_eq; cbn [vx vy vz]; field; lra.
Qed.

(** * Example *)

(** A 1*6 image: one point straight ahead on each face. *)
Example C45_example :
  map (fun col => unproject 1 (pixelCoordinates 0 col)) (seq 0 6) = map (fun f => Ok (axis f)) faces.
Proof.
  cbn [seq map faces].
  assert (G : forall k f, nth_error faces k = Some f -> unproject 1 (pixelCoordinates 0 k) = Ok (axis f)).
  { intros k f F. assert (K : (k < 6)%nat) by (change 6%nat with (length faces); apply nth_error_Some; congruence).
    destruct (unproject_centre 1 0 k) as (f' & F' & ->); [lia | lia|]. rewrite Nat.div_1_r in F'. rewrite F in F'. injection F' as <-.
    assert (C : centre 1 (k mod 1) = 0) by (rewrite Nat.mod_1_r; unfold centre; cbn; field).
    assert (C' : centre 1 0 = 0) by (unfold centre; cbn; field). rewrite C, C'. destruct f; cbn; do 2 f_equal; ring. }
  rewrite (G 0%nat Back), (G 1%nat Left), (G 2%nat Front), (G 3%nat Right), (G 4%nat Up), (G 5%nat Down); reflexivity.
Qed.

(** Two faces seen, one of them not measured. *)
Example C45_cloud_example : exists c,
  create_point_cloud false (Image 1 2 (fun _ col => if Nat.eqb col 0 then Color 10 20 30 else black))
    (Image 1 2 (fun _ col => if Nat.eqb col 0 then Fin 3 else Inf)) false = Ok c /\
  points c = [V 0 0 (-3)] /\ colors c = [Color 10 20 30].
Proof.
  destruct (unproject_centre 1 0 0) as (f & F & U); [lia | lia|]. cbn in F. injection F as <-.
  assert (C : centre 1 (0 mod 1) = 0) by (unfold centre; cbn; field).
  assert (C' : centre 1 0 = 0) by (unfold centre; cbn; field). rewrite C, C' in U. cbn [face_dir] in U.
  eexists. split.
  - unfold create_point_cloud, createPointCloud. cbn [height width Nat.eqb andb seq foldM]. unfold step at 1. cbn [pixel Nat.eqb].
    destruct (Rlt_dec 0 3); [|lra]. unfold pointFromRange. rewrite U. cbn. reflexivity.
  - cbn. split; [|reflexivity]. f_equal.
    assert (N : norm (V (-0) 0 (-1)) = 1). { unfold norm, dot. cbn. replace (_ + _ + _) with 1 by ring. apply sqrt_1. }
    rewrite N. apply vec_eq; cbn; field.
Qed.

Print Assumptions C45_face.
Print Assumptions C45_distinct.
Print Assumptions C45_onto.
Print Assumptions C45_outside.
Print Assumptions C45_cloud.
Print Assumptions C45_cloud_distinct.
Print Assumptions C45_errors.
Print Assumptions C45_any_size_refuted.
Print Assumptions C76_continuous.
Print Assumptions C76_around.
Print Assumptions C76_above_below.
