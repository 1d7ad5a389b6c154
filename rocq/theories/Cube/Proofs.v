From Coq Require Import Reals List ZArith Lra Lia Bool.
From Verif.Base Require Import Py PyFacts Vec.
From Verif.Depth Require Import Model Proofs.
From Verif.Cloud Require Import Model.
From Verif.Cube Require Import Model Spec.
Import ListNotations.
Local Open Scope R_scope.

(** The direction on face [f] at sensor coordinates (a, b). *)
Definition face_dir (f : side_of) (a b : R) : vec :=
  match f with
  | Back => V (- a) b (-1) | Left => V (-1) b a | Front => V a b 1
  | Right => V 1 b (- a) | Up => V a (-1) b | Down => V a 1 (- b)
  end.

Definition sensor (side k : nat) (x : R) : R := 2 * (x - INR (k * side)) / INR side - 1.

Lemma INR_pos : forall n, (0 < n)%nat -> 0 < INR n.
Proof. intros n H. apply lt_0_INR. exact H. Qed.

Lemma unproject_face : forall side k f x y, (0 < side)%nat -> nth_error faces k = Some f ->
  INR (k * side) <= x < INR (k * side) + INR side ->
  unproject side (x, y) = Ok (face_dir f (sensor side k x) (2 * y / INR side - 1)).
Proof.
  intros side k f x y S F X. assert (P := INR_pos _ S).
  assert (K : (k < 6)%nat) by (change 6%nat with (length faces); apply nth_error_Some; congruence).
  unfold unproject. cbn [fst snd]. destruct (Req_EM_T x (INR (6 * side))) as [E|_].
  - exfalso. rewrite E in X. rewrite <- plus_INR in X. destruct X as (_ & X). apply INR_lt in X. nia.
  - destruct (Nat.eqb_spec side 0) as [->|_]; [lia|].
    assert (T : to_size (x / INR side) = Ok k).
    { unfold to_size. rewrite mult_INR in X.
      assert (A : INR k <= x / INR side < INR k + 1).
      { split; [apply Rmult_le_reg_r with (INR side) | apply Rmult_lt_reg_r with (INR side)]; auto;
        unfold Rdiv; rewrite Rmult_assoc, Rinv_l by lra; lra. }
      assert (N := pos_INR k). destruct (Rle_dec (x / INR side) (-1)); [lra|].
      unfold trunc. destruct (Rle_dec 0 (x / INR side)); [|lra].
      rewrite (Int_part_eq _ (Z.of_nat k)) by (rewrite <- INR_IZR_INZ; exact A). rewrite Nat2Z.id. reflexivity. }
    rewrite T. cbn [bind]. unfold offset_at. destruct (Nat.ltb_spec k 6); [|lia]. cbn [bind fst snd].
    unfold sensorOfPixel, sensor, half. cbn [fst snd]. rewrite (Nat.mul_comm side k).
    assert (Q : forall z, (z - INR side / 2) / (INR side / 2) = 2 * z / INR side - 1) by (intros z; field; lra).
    rewrite !Q. replace (y - 0) with y by ring.
    do 6 (destruct k as [|k]; [cbn in F; injection F as <-; reflexivity|]). lia.
Qed.

Lemma sensor_range : forall side k x, (0 < side)%nat -> INR (k * side) <= x < INR (k * side) + INR side ->
  -1 <= sensor side k x < 1.
Proof.
  intros side k x S X. assert (P := INR_pos _ S). unfold sensor.
  assert (A : 0 <= (x - INR (k * side)) / INR side < 1).
  { split; [apply Rmult_le_reg_r with (INR side) | apply Rmult_lt_reg_r with (INR side)]; auto;
    unfold Rdiv; rewrite Rmult_assoc, Rinv_l by lra; lra. }
  unfold Rdiv in *. lra.
Qed.

(** Pixel centres. *)
Definition centre (side i : nat) : R := 2 * (INR i + / 2) / INR side - 1.

Lemma centre_range : forall side i, (i < side)%nat -> -1 < centre side i < 1.
Proof.
  intros side i H. assert (P : 0 < INR side) by (apply INR_pos; lia). unfold centre.
  assert (A : 0 < (INR i + / 2) / INR side < 1).
  { assert (B : INR i + 1 <= INR side) by (rewrite <- S_INR; apply le_INR; lia). assert (N := pos_INR i).
    split; [apply Rmult_lt_reg_r with (INR side) | apply Rmult_lt_reg_r with (INR side)]; auto;
    unfold Rdiv; rewrite Rmult_assoc, Rinv_l by lra; lra. }
  unfold Rdiv in *. lra.
Qed.

Lemma centre_inj : forall side i j, (i < side)%nat -> centre side i = centre side j -> i = j.
Proof.
  intros side i j H E. assert (P : 0 < INR side) by (apply INR_pos; lia). unfold centre in E.
  assert (A : 2 * (INR i + / 2) / INR side * INR side = 2 * (INR j + / 2) / INR side * INR side) by (f_equal; lra).
  unfold Rdiv in A. rewrite !Rmult_assoc, Rinv_l in A by lra. apply INR_eq. lra.
Qed.

Definition face_no (side col : nat) : nat := (col / side)%nat.

Lemma unproject_centre : forall side row col, (row < side)%nat -> (col < 6 * side)%nat ->
  exists f, nth_error faces (col / side) = Some f /\
    unproject side (pixelCoordinates row col) = Ok (face_dir f (centre side (col mod side)) (centre side row)).
Proof.
  intros side row col R C. assert (S : (0 < side)%nat) by lia.
  assert (K : (col / side < 6)%nat) by (apply Nat.div_lt_upper_bound; lia).
  destruct (nth_error faces (col / side)) as [f|] eqn:F.
  2: { apply nth_error_None in F. cbn in F. lia. }
  exists f. split; [reflexivity|]. unfold pixelCoordinates.
  assert (D := Nat.div_mod col side ltac:(lia)). assert (M := Nat.mod_upper_bound col side ltac:(lia)).
  set (k := (col / side)%nat) in *. set (m := (col mod side)%nat) in *.
  assert (E : INR col = INR (k * side) + INR m) by (rewrite <- plus_INR; f_equal; lia).
  assert (B : INR m + 1 <= INR side) by (rewrite <- S_INR; apply le_INR; lia). assert (N := pos_INR m).
  rewrite (unproject_face side k f); auto; [|rewrite E; lra].
  unfold sensor, centre. rewrite E. replace (INR (k * side) + INR m + / 2 - INR (k * side)) with (INR m + / 2) by ring. reflexivity.
Qed.

Ltac axes := unfold dot, axis, vopp; cbn [vx vy vz].

Lemma face_dir_on : forall f a b, -1 < a < 1 -> -1 < b < 1 -> on_face f (face_dir f a b).
Proof.
  intros f a b A B. split; [destruct f; unfold dot; cbn; ring|].
  intros g G G'. destruct f, g; axes; cbn; try lra; exfalso; (apply G; reflexivity) || (apply G'; unfold vopp; cbn; f_equal; ring).
Qed.

Lemma face_dir_max : forall f a b, -1 <= a <= 1 -> -1 <= b <= 1 -> maxnorm (face_dir f a b) = 1.
Proof.
  intros f a b A B. assert (H : Rabs a <= 1) by (apply Rabs_le; lra). assert (H' : Rabs b <= 1) by (apply Rabs_le; lra).
  assert (O : Rabs (-1) = 1) by (unfold Rabs; destruct Rcase_abs; lra). assert (O' := Rabs_R1).
  unfold maxnorm. destruct f; cbn; rewrite ?Rabs_Ropp, ?O, ?O'; unfold Rmax; repeat destruct Rle_dec; lra.
Qed.

Lemma along_sym : forall v w, along v w -> along w v.
Proof.
  intros v w (t & T & E). exists (/ t). split; [apply Rinv_0_lt_compat; auto|]. rewrite E.
  apply vec_eq; cbn; field; lra.
Qed.

Lemma face_dir_inj : forall f g a b c d, -1 < a < 1 -> -1 < b < 1 -> -1 < c < 1 -> -1 < d < 1 ->
  along (face_dir f a b) (face_dir g c d) -> f = g /\ a = c /\ b = d.
Proof.
  intros f g a b c d A B C D (t & T & E).
  destruct f, g; cbn in E; unfold smul in E; cbn in E; injection E as E1 E2 E3;
    try (assert (t = 1) by lra; subst t; repeat split; lra); exfalso; nra.
Qed.

Lemma norm_pos : forall v, v <> vzero -> 0 < norm v.
Proof.
  intros v H. unfold norm. apply sqrt_lt_R0. unfold dot.
  destruct v as [x y z]. cbn. assert (X := Rle_0_sqr x). assert (Y := Rle_0_sqr y). assert (Z := Rle_0_sqr z). unfold Rsqr in *.
  destruct (Req_dec x 0) as [->|NX].
  - destruct (Req_dec y 0) as [->|NY].
    + destruct (Req_dec z 0) as [->|NZ]; [exfalso; apply H; reflexivity|]. assert (P := Rsqr_pos_lt _ NZ). unfold Rsqr in P. lra.
    + assert (P := Rsqr_pos_lt _ NY). unfold Rsqr in P. lra.
  - assert (P := Rsqr_pos_lt _ NX). unfold Rsqr in P. lra.
Qed.

Lemma face_dir_nz : forall f a b, face_dir f a b <> vzero.
Proof. intros f a b. destruct f; cbn; intros H; unfold vzero in H; injection H; lra. Qed.

(** * createPointCloud *)

Lemma in_raster : forall h w p, In p (raster h w) <-> (fst p < h)%nat /\ (snd p < w)%nat.
Proof.
  intros h' w' [a b]. unfold raster. rewrite in_prod_iff, !in_seq. cbn. lia.
Qed.

Section Cloud.
  Variables (rgb : image color) (range : image depth) (all : bool).
  Let h := height rgb.
  Let w := width rgb.
  Hypothesis narrow : forall row col, (row < h)%nat -> (col < w)%nat -> measuredb (pixel range row col) = true -> (col < 6 * h)%nat.

  Definition dir_of (side : nat) (p : nat * nat) : vec :=
    match unproject side (pixelCoordinates (fst p) (snd p)) with Ok v => v | Err _ => vzero end.

  Lemma dir_of_ok : forall row col, (row < h)%nat -> (col < 6 * h)%nat ->
    unproject h (pixelCoordinates row col) = Ok (dir_of h (row, col)) /\ dir_of h (row, col) <> vzero.
  Proof.
    intros row col R C. destruct (unproject_centre h row col R ltac:(lia)) as (f & _ & E).
    unfold dir_of. cbn [fst snd]. rewrite E. split; [reflexivity | apply face_dir_nz].
  Qed.

  Definition emit (p : nat * nat) : list (vec * color) :=
    match pixel range (fst p) (snd p) with
    | Fin x => if Rlt_dec 0 x then [(smul (x / norm (dir_of h p)) (dir_of h p), pixel rgb (fst p) (snd p))]
               else if all then [(vzero, black)] else []
    | Inf => if all then [(vzero, black)] else []
    end.

  Definition added (s : list vec * list color) (l : list (vec * color)) : list vec * list color :=
    (fst s ++ map fst l, snd s ++ map snd l).

  Lemma added_nil : forall s, added s [] = s.
  Proof. intros [a b]. unfold added. cbn. rewrite !app_nil_r. reflexivity. Qed.
  Lemma added_app : forall s l m, added (added s l) m = added s (l ++ m).
  Proof. intros [a b] l m. unfold added. cbn. rewrite !map_app, !app_assoc. reflexivity. Qed.

  Lemma step_ok : forall row col s, (row < h)%nat -> (col < w)%nat ->
    step h rgb range all row (pixelCoordinates row col, s) col = Ok (pixelCoordinates row (S col), added s (emit (row, col))).
  Proof.
    intros row col [a b] R C. assert (NC := narrow row col R C).
    assert (P : (fst (pixelCoordinates row col) + 1, snd (pixelCoordinates row col)) = pixelCoordinates row (S col)).
    { unfold pixelCoordinates. cbn [fst snd]. rewrite S_INR. f_equal. ring. }
    unfold step. rewrite P. unfold emit, added. cbn [fst snd].
    destruct (pixel range row col) as [x|].
    - destruct (Rlt_dec 0 x).
      + unfold measuredb in NC. destruct (Rlt_dec 0 x); [|contradiction].
        destruct (dir_of_ok row col R (NC eq_refl)) as (E & _). unfold pointFromRange. rewrite E. reflexivity.
      + destruct all; cbn; rewrite ?app_nil_r; reflexivity.
    - destruct all; cbn; rewrite ?app_nil_r; reflexivity.
  Qed.

  Lemma row_ok : forall row n c s, (row < h)%nat -> (c + n <= w)%nat ->
    foldM (step h rgb range all row) (pixelCoordinates row c, s) (seq c n) =
    Ok (pixelCoordinates row (c + n), added s (flat_map emit (map (pair row) (seq c n)))).
  Proof.
    intros row n. induction n as [|n IH]; intros c s R C.
    - cbn. rewrite Nat.add_0_r, added_nil. reflexivity.
    - cbn [seq foldM map flat_map]. rewrite step_ok by lia. cbn [bind]. rewrite IH by lia. rewrite added_app.
      replace (S c + n)%nat with (c + S n)%nat by lia. reflexivity.
  Qed.

  Lemma rows_ok : forall n r s, (r + n <= h)%nat ->
    foldM (fun s row => let* r := foldM (step h rgb range all row) (pixelCoordinates row 0, s) (seq 0 w) in Ok (snd r)) s (seq r n) =
    Ok (added s (flat_map emit (list_prod (seq r n) (seq 0 w)))).
  Proof.
    intros n. induction n as [|n IH]; intros r s R.
    - cbn. rewrite added_nil. reflexivity.
    - cbn [seq foldM list_prod]. rewrite row_ok by lia. cbn [bind snd]. rewrite IH by lia.
      rewrite added_app, flat_map_app. reflexivity.
  Qed.

  Definition emitted : list (vec * color) := flat_map emit (raster h w).

  Lemma createPointCloud_ok : forall debug,
    createPointCloud debug rgb range all = Ok (Cloud (map fst emitted) (map snd emitted)).
  Proof.
    intros debug. unfold createPointCloud. fold h w. rewrite rows_ok by lia. cbn [bind]. unfold added. cbn [fst snd app].
    fold (raster h w). fold emitted. unfold new_cloud. destruct (map snd emitted) as [|c l] eqn:E; [reflexivity|].
    rewrite <- E, !map_length, Nat.eqb_refl. unfold cpp_assert. rewrite andb_false_r. reflexivity.
  Qed.

  Lemma emit_seen : forall p, In p (raster h w) -> measuredb (pixel range (fst p) (snd p)) = true ->
    exists q, emit p = [q] /\ sees (dir_of h) rgb range p q.
  Proof.
    intros [row col] I M. apply in_raster in I. cbn [fst snd] in *. destruct I as (R & C).
    destruct (dir_of_ok row col R (narrow row col R C M)) as (_ & NZ).
    unfold measuredb in M. unfold emit. cbn [fst snd]. destruct (pixel range row col) as [x|] eqn:P; [|discriminate].
    destruct (Rlt_dec 0 x) as [X|]; [|discriminate]. eexists. split; [reflexivity|].
    assert (N := norm_pos _ NZ). set (d := dir_of h (row, col)) in *.
    unfold sees. cbn [fst snd]. split; [reflexivity|]. rewrite P.
    assert (T : 0 < x / norm d) by (apply Rdiv_lt_0_compat; auto). split; [|exists (x / norm d); auto].
    f_equal. unfold norm at 1. replace (dot (smul (x / norm d) d) (smul (x / norm d) d)) with (x * x).
    - apply sqrt_square. lra.
    - assert (D : dot (smul (x / norm d) d) (smul (x / norm d) d) = (x / norm d) * (x / norm d) * dot d d) by (unfold dot, smul; cbn; ring).
      rewrite D, <- norm_sqr. field. lra.
  Qed.

  Lemma emit_unseen : forall p, measuredb (pixel range (fst p) (snd p)) = false ->
    emit p = if all then [(vzero, black)] else [].
  Proof.
    intros p M. unfold measuredb in M. unfold emit. destruct (pixel range (fst p) (snd p)) as [x|]; [|reflexivity].
    destruct (Rlt_dec 0 x); [discriminate | reflexivity].
  Qed.

  Lemma combine_map : forall {A B} (l : list (A * B)), combine (map fst l) (map snd l) = l.
  Proof. intros A B l. induction l as [|[a b] l IH]; [reflexivity|]. cbn. rewrite IH. reflexivity. Qed.

  Lemma emitted_seen : all = false ->
    Forall2 (sees (dir_of h) rgb range) (filter (fun p => measuredb (pixel range (fst p) (snd p))) (raster h w)) emitted.
  Proof.
    intros A. unfold emitted. assert (I : incl (raster h w) (raster h w)) by apply incl_refl.
    revert I. generalize (raster h w) at 1 3 4 as l. intros l. induction l as [|p l IH]; intros I; [constructor|].
    cbn [filter flat_map]. assert (I' : incl l (raster h w)) by (intros q Q; apply I; right; exact Q).
    destruct (measuredb (pixel range (fst p) (snd p))) eqn:M.
    - destruct (emit_seen p (I p (or_introl eq_refl)) M) as (q & -> & S). cbn. constructor; auto.
    - rewrite (emit_unseen p M), A. cbn. auto.
  Qed.

  Lemma emitted_all : all = true ->
    Forall2 (fun p q => if measuredb (pixel range (fst p) (snd p)) then sees (dir_of h) rgb range p q else q = (vzero, black))
            (raster h w) emitted.
  Proof.
    intros A. unfold emitted. assert (I : incl (raster h w) (raster h w)) by apply incl_refl.
    revert I. generalize (raster h w) at 1 3 4 as l. intros l. induction l as [|p l IH]; intros I; [constructor|].
    cbn [flat_map]. assert (I' : incl l (raster h w)) by (intros q Q; apply I; right; exact Q).
    destruct (measuredb (pixel range (fst p) (snd p))) eqn:M.
    - destruct (emit_seen p (I p (or_introl eq_refl)) M) as (q & -> & S). cbn. constructor; auto. rewrite M. exact S.
    - rewrite (emit_unseen p M), A. cbn. constructor; auto. rewrite M. reflexivity.
  Qed.
End Cloud.

(** Columns past the sixth face. *)
Lemma unproject_outside : forall side x y, (0 < side)%nat -> INR (6 * side) < x -> unproject side (x, y) = Err IndexError.
Proof.
  intros side x y S X. assert (P := INR_pos _ S). unfold unproject. cbn [fst snd].
  destruct (Req_EM_T x (INR (6 * side))); [lra|]. destruct (Nat.eqb_spec side 0); [lia|].
  rewrite mult_INR in X. replace (INR 6) with 6 in X by (cbn; ring).
  assert (A : 6 <= x / INR side). { apply Rmult_le_reg_r with (INR side); auto. unfold Rdiv. rewrite Rmult_assoc, Rinv_l by lra. lra. }
  unfold to_size. destruct (Rle_dec (x / INR side) (-1)); [lra|]. cbn [bind]. unfold offset_at.
  unfold trunc. destruct (Rle_dec 0 (x / INR side)); [|lra].
  destruct (Nat.ltb_spec (Z.to_nat (Int_part (x / INR side))) 6) as [L|]; [|reflexivity].
  exfalso. destruct (base_Int_part (x / INR side)) as (_ & B).
  assert (C : (6 <= Int_part (x / INR side))%Z). { assert (D : IZR 5 < IZR (Int_part (x / INR side))) by lra. apply lt_IZR in D. lia. }
  lia.
Qed.

(** A measured pixel past the sixth face. *)
Section Wide.
  Variables (rgb : image color) (range : image depth) (all : bool).
  Let h := height rgb.
  Let w := width rgb.
  Hypothesis tall : (0 < h)%nat.

  Definition good_or {A} (P : A -> Prop) (r : res A) : Prop := match r with Ok x => P x | Err e => e = IndexError end.

  Lemma unproject_right : forall row col, (row < h)%nat ->
    good_or (fun _ => (col < 6 * h)%nat) (unproject h (pixelCoordinates row col)).
  Proof.
    intros row col R. destruct (Nat.lt_ge_cases col (6 * h)) as [C|C].
    - destruct (unproject_centre h row col R C) as (f & _ & ->). exact C.
    - unfold pixelCoordinates. rewrite unproject_outside; auto; [reflexivity|]. apply le_INR in C. lra.
  Qed.

  Lemma step_good : forall row col s, (row < h)%nat ->
    good_or (fun r => fst r = pixelCoordinates row (S col) /\ (measuredb (pixel range row col) = true -> (col < 6 * h)%nat))
      (step h rgb range all row (pixelCoordinates row col, s) col).
  Proof.
    intros row col [a b] R.
    assert (P : (fst (pixelCoordinates row col) + 1, snd (pixelCoordinates row col)) = pixelCoordinates row (S col)).
    { unfold pixelCoordinates. cbn [fst snd]. rewrite S_INR. f_equal. ring. }
    assert (U := unproject_right row col R).
    unfold step. rewrite P. unfold measuredb. destruct (pixel range row col) as [x|]; [|cbn; split; [reflexivity | discriminate]].
    destruct (Rlt_dec 0 x); [|cbn; split; [reflexivity | discriminate]].
    unfold pointFromRange. destruct (unproject h (pixelCoordinates row col)); cbn in *; auto.
  Qed.

  Lemma row_good : forall row n c s, (row < h)%nat ->
    good_or (fun _ => forall col, (c <= col < c + n)%nat -> measuredb (pixel range row col) = true -> (col < 6 * h)%nat)
      (foldM (step h rgb range all row) (pixelCoordinates row c, s) (seq c n)).
  Proof.
    intros row n. induction n as [|n IH]; intros c s R; [cbn; intros; lia|].
    cbn [seq foldM]. assert (G := step_good row c s R).
    destruct (step h rgb range all row (pixelCoordinates row c, s) c) as [[p s']|e]; [|exact G].
    cbn in G. destruct G as (-> & G). cbn [bind]. specialize (IH (S c) s' R).
    destruct (foldM _ _ _); [|exact IH]. cbn in *. intros col C M.
    destruct (Nat.eq_dec col c) as [->|]; [auto|]. apply IH; auto. lia.
  Qed.

  Lemma rows_good : forall n r s, (r + n <= h)%nat ->
    good_or (fun _ => forall row col, (r <= row < r + n)%nat -> (col < w)%nat -> measuredb (pixel range row col) = true -> (col < 6 * h)%nat)
      (foldM (fun s row => let* r := foldM (step h rgb range all row) (pixelCoordinates row 0, s) (seq 0 w) in Ok (snd r)) s (seq r n)).
  Proof.
    intros n. induction n as [|n IH]; intros r s R; [cbn; intros; lia|].
    cbn [seq foldM]. assert (G := row_good r w 0 s ltac:(lia)).
    destruct (foldM (step h rgb range all r) (pixelCoordinates r 0, s) (seq 0 w)) as [x|e]; [|exact G].
    cbn [bind]. specialize (IH (S r) (snd x) ltac:(lia)).
    destruct (foldM _ _ _); [|exact IH]. cbn in *. intros row col A C M.
    destruct (Nat.eq_dec row r) as [->|]; [apply G; auto; lia|]. apply (IH row); auto. lia.
  Qed.
End Wide.

Lemma NoDup_app_intro : forall A (l m : list A), NoDup l -> NoDup m -> (forall x, In x l -> ~ In x m) -> NoDup (l ++ m).
Proof.
  intros A l m L M D. induction L as [|x l N L IH]; [exact M|]. cbn. constructor.
  - intros I. apply in_app_or in I. destruct I as [I|I]; [contradiction|]. exact (D x (or_introl eq_refl) I).
  - apply IH. intros y Y. apply D. right. exact Y.
Qed.
