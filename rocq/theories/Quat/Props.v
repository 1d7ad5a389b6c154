(** C82, C83: quaternions, surreal poses, unitize and on_left. *)
From Coq Require Import Reals ZArith List Bool String Lra Lia.
From Verif.Base Require Import Py Vec.
From Verif.Geom Require Import Model Spec Proofs.
From Verif.Quat Require Import Model Spec Proofs.
Import ListNotations.
Local Open Scope list_scope.
Open Scope R_scope.

(** * C82: quaternions *)

(** Without argument: 1, the identity rotation. *)
Theorem C82_default : forall E, eigen_ok E ->
  exists q, quaternion E None = Ok q /\ shows_list (as_vector q) [1; 0; 0; 0] /\
    shows_matrix (to_rotation_matrix E q) mid.
Proof.
  intros E OK. exists (Q4 1 0 0 0). split; [reflexivity|]. split; [apply array1_shows|].
  apply to_matrix_shows_it; [exact OK|]. split; [apply unit_nonzero; unfold unit_quat; simpl; ring|].
  intros [x y z]. unfold qpure, qmul, qconj, qsq; simpl. f_equal; ring.
Qed.

(** From four numbers (w, x, y, z): they are kept; the matrix is the rotation
    v |-> q v q* / |q|^2, and the numbers are determined by it up to a factor. *)
Theorem C82_vector : forall E a q, eigen_ok E -> shows_list a (wxyz q) -> q <> qzero ->
  exists q' m, quaternion E (Some (Some a)) = Ok q' /\ shows_list (as_vector q') (wxyz q) /\
    shows_matrix (to_rotation_matrix E q') m /\ rotation m /\ turns q m.
Proof.
  intros E a q OK S N. exists q. destruct (to_matrix_shows E OK q N) as (m & Sm & T). exists m.
  split; [apply of_vector, S|]. split; [apply array1_shows|]. split; [exact Sm|].
  split; [apply (turns_rotation q), T|exact T].
Qed.

Theorem C82_same_rotation : forall E a b p q p' q', eigen_ok E ->
  shows_list a (wxyz p) -> shows_list b (wxyz q) -> p <> qzero -> q <> qzero ->
  quaternion E (Some (Some a)) = Ok p' -> quaternion E (Some (Some b)) = Ok q' ->
  ((exists m, shows_matrix (to_rotation_matrix E p') m /\ shows_matrix (to_rotation_matrix E q') m) <->
   exists c, c <> 0 /\ p = qscale c q).
Proof.
  intros E a b p q p' q' OK A B Np Nq Hp Hq.
  rewrite (of_vector E a p A) in Hp. rewrite (of_vector E b q B) in Hq. injection Hp as <-. injection Hq as <-.
  destruct (to_matrix_shows E OK p Np) as (m & Sm & Tm). destruct (to_matrix_shows E OK q Nq) as (n & Sn & Tn).
  rewrite <- (turns_same p q m n Tm Tn). split.
  - intros (r & Hr & Hs). rewrite (shows_matrix_unique _ _ _ Sm Hr). apply (shows_matrix_unique _ _ _ Hs Sn).
  - intros <-. exists m. split; assumption.
Qed.

(** From a rotation matrix, however it lies in memory: a unit quaternion that gives the
    matrix back. *)
Theorem C82_matrix : forall E a m, eigen_ok E -> shows_matrix a m -> rotation m ->
  exists q, quaternion E (Some (Some a)) = Ok q /\ unit_quat q /\ shows_list (as_vector q) (wxyz q) /\
    turns q m /\ shows_matrix (to_rotation_matrix E q) m.
Proof.
  intros E a m OK S R. destruct (of_rotation E OK a m S R) as (H & U & T). exists (of_matrix E m).
  split; [exact H|]. split; [exact U|]. split; [apply array1_shows|]. split; [exact T|]. apply to_matrix_shows_it; assumption.
Qed.

(** Through the matrix and back: the quaternion divided by its norm, up to sign. *)
Theorem C82_roundtrip : forall E a q, eigen_ok E -> shows_list a (wxyz q) -> q <> qzero ->
  exists q1 q2 c, quaternion E (Some (Some a)) = Ok q1 /\
    quaternion E (Some (Some (to_rotation_matrix E q1))) = Ok q2 /\
    shows_list (as_vector q2) (wxyz (qscale c q)) /\ c * c * qsq q = 1.
Proof.
  intros E a q OK S N. destruct (to_matrix_shows E OK q N) as (m & Sm & T).
  destruct (of_rotation E OK _ m Sm (turns_rotation q m T)) as (H & U & T2).
  destruct (proj1 (turns_same (of_matrix E m) q m m T2 T) eq_refl) as (c & C & Ec).
  exists q, (of_matrix E m), c. split; [apply of_vector, S|]. split; [exact H|]. split; [rewrite Ec; apply array1_shows|].
  rewrite Ec in U. unfold unit_quat, qscale in U; simpl in U. unfold qsq. rewrite <- U. ring.
Qed.

(** Four numbers with further axes of length 1, such as a column: the same four numbers. *)
Theorem C82_column : forall E a k w x y z, nd_shape a = 4%nat :: repeat 1%nat k -> nd_type a <> NotANumber ->
  (forall i, (i < 4)%nat -> item a (i :: repeat 0%nat k) = nth i [w; x; y; z] 0) ->
  exists q, quaternion E (Some (Some a)) = Ok q /\ shows_list (as_vector q) [w; x; y; z].
Proof.
  intros E a k w x y z S T H. exists (Q4 w x y z). split; [|apply array1_shows].
  assert (Z : map (fun _ => 0%nat) (repeat 1%nat k) = repeat 0%nat k) by (clear; induction k; simpl; congruence).
  assert (O : size (repeat 1%nat k) = 1%nat) by (clear; induction k as [|k IH]; [reflexivity|simpl in *; rewrite IH; reflexivity]).
  assert (En : forall i, (i < 4)%nat -> entry a (repeat 1%nat k) i = Ok (nth i [w; x; y; z] 0)).
  { intros i Hi. unfold entry. rewrite O, Z. cbn [Nat.eqb negb]. destruct (nd_type a); [| |congruence]; rewrite H by exact Hi; reflexivity. }
  unfold quaternion. rewrite S. cbn [Nat.eqb negb]. rewrite !En by lia. reflexivity.
Qed.

(** Every array: accepted, AssertionError, TypeError, or undefined. *)
Theorem C82_outcomes : forall E a,
  ((exists q, quaternion E (Some (Some a)) = Ok q) <->
     (nd_shape a = [3; 3]%nat /\ nd_type a = Double) \/
     (exists rest, nd_shape a = 4%nat :: rest /\ size rest = 1%nat /\ nd_type a <> NotANumber)) /\
  (quaternion E (Some (Some a)) = Err AssertionError <->
     (exists d rest, nd_shape a = d :: rest /\ d <> 3%nat /\ d <> 4%nat) \/
     (exists d rest, nd_shape a = 3%nat :: d :: rest /\ d <> 3%nat)) /\
  (quaternion E (Some (Some a)) = Err TypeError <->
     exists rest, nd_shape a = 4%nat :: rest /\ (size rest <> 1%nat \/ nd_type a = NotANumber)) /\
  (quaternion E (Some (Some a)) = Err Undefined <->
     nd_shape a = [] \/ nd_shape a = [3%nat] \/
     (exists rest, nd_shape a = 3%nat :: 3%nat :: rest /\ (rest <> [] \/ nd_type a <> Double))).
Proof.
  intros E a. unfold quaternion.
  destruct (nd_shape a) as [|d rest] eqn:S.
  { repeat split; intro H; try discriminate; try (left; reflexivity).
    - destruct H as (q & H). discriminate.
    - destruct H as [(H & _)|(r & H & _)]; discriminate.
    - destruct H as [(x & r & H & _)|(x & r & H & _)]; discriminate.
    - destruct H as (r & H & _). discriminate. }
  destruct (Nat.eqb_spec d 3) as [->|N3].
  - destruct rest as [|d1 rest].
    { repeat split; intro H; try discriminate; try (right; left; reflexivity).
      - destruct H as (q & H). discriminate.
      - destruct H as [(H & _)|(r & H & _)]; discriminate.
      - destruct H as [(x & r & H & A & _)|(x & r & H & _)]; [injection H; intros; congruence|discriminate].
      - destruct H as (r & H & _). discriminate. }
    destruct (Nat.eqb_spec d1 3) as [->|N1]; cbn [negb].
    + destruct rest as [|d2 rest].
      * destruct (nd_type a) eqn:T.
        -- assert (M : exists c, matrix3_of_array a = Ok c) by (unfold matrix3_of_array; rewrite S, T; simpl; eauto).
           destruct M as (c & ->). cbn [bind]. repeat split; intro H; try discriminate.
           ++ left. split; reflexivity.
           ++ eauto.
           ++ destruct H as [(x & r & H & A & _)|(x & r & H & A)]; [injection H; intros; congruence|injection H; intros; congruence].
           ++ destruct H as (r & H & _). discriminate.
           ++ destruct H as [H|[H|(r & H & [A|A])]]; try discriminate; [injection H as <-; congruence|congruence].
        -- assert (M : matrix3_of_array a = Err Undefined) by (unfold matrix3_of_array; rewrite S, T; reflexivity). rewrite M. cbn [bind].
           repeat split; intro H; try discriminate.
           ++ destruct H as (q & H). discriminate.
           ++ destruct H as [(_ & H)|(r & H & _)]; discriminate.
           ++ destruct H as [(x & r & H & A & _)|(x & r & H & A)]; [injection H; intros; congruence|injection H; intros; congruence].
           ++ destruct H as (r & H & _). discriminate.
           ++ right; right. exists []. split; [reflexivity|right; discriminate].
        -- assert (M : matrix3_of_array a = Err Undefined) by (unfold matrix3_of_array; rewrite S, T; reflexivity). rewrite M. cbn [bind].
           repeat split; intro H; try discriminate.
           ++ destruct H as (q & H). discriminate.
           ++ destruct H as [(_ & H)|(r & H & _)]; discriminate.
           ++ destruct H as [(x & r & H & A & _)|(x & r & H & A)]; [injection H; intros; congruence|injection H; intros; congruence].
           ++ destruct H as (r & H & _). discriminate.
           ++ right; right. exists []. split; [reflexivity|right; discriminate].
      * assert (M : matrix3_of_array a = Err Undefined) by (unfold matrix3_of_array; rewrite S; reflexivity). rewrite M. cbn [bind].
        repeat split; intro H; try discriminate.
        ++ destruct H as (q & H). discriminate.
        ++ destruct H as [(H & _)|(r & H & _)]; discriminate.
        ++ destruct H as [(x & r & H & A & _)|(x & r & H & A)]; [injection H; intros; congruence|injection H; intros; congruence].
        ++ destruct H as (r & H & _). discriminate.
        ++ right; right. exists (d2 :: rest). split; [reflexivity|left; discriminate].
    + repeat split; intro H; try discriminate.
      * destruct H as (q & H). discriminate.
      * destruct H as [(H & _)|(r & H & _)]; [injection H; intros; congruence|discriminate].
      * right. exists d1, rest. split; [reflexivity|exact N1].
      * destruct H as (r & H & _). discriminate.
      * destruct H as [H|[H|(r & H & A)]]; try discriminate. injection H; intros; congruence.
  - destruct (Nat.eqb_spec d 4) as [->|N4]; cbn [negb].
    + assert (K : (exists q, (let* w := entry a rest 0 in let* x := entry a rest 1 in let* y := entry a rest 2 in let* z := entry a rest 3 in Ok (Q4 w x y z)) = Ok q) /\ size rest = 1%nat /\ nd_type a <> NotANumber \/
                 (let* w := entry a rest 0 in let* x := entry a rest 1 in let* y := entry a rest 2 in let* z := entry a rest 3 in Ok (Q4 w x y z)) = Err TypeError /\ (size rest <> 1%nat \/ nd_type a = NotANumber)).
      { unfold entry. destruct (Nat.eqb_spec (size rest) 1) as [Z|Z]; cbn [negb]; [|right; split; [reflexivity|left; exact Z]].
        destruct (nd_type a); cbn [bind]; [left|left|right; split; [reflexivity|right; reflexivity]];
          (split; [eexists; reflexivity|split; [exact Z|discriminate]]). }
      destruct K as [((q & ->) & Z & T)|(-> & Z)]; repeat split; intro H; try discriminate.
      * right. exists rest. split; [reflexivity|split; assumption].
      * eauto.
      * destruct H as [(x & r & H & _ & A)|(x & r & H & A)]; [injection H; intros; congruence|discriminate].
      * destruct H as (r & H & A). injection H as <-. destruct A; contradiction.
      * destruct H as [H|[H|(r & H & A)]]; discriminate.
      * destruct H as (q & H). discriminate.
      * destruct H as [(H & _)|(r & H & A & B)]; [discriminate|]. injection H as <-. destruct Z; contradiction.
      * destruct H as [(x & r & H & _ & A)|(x & r & H & A)]; [injection H; intros; congruence|discriminate].
      * exists rest. split; [reflexivity|exact Z].
      * destruct H as [H|[H|(r & H & A)]]; discriminate.
    + repeat split; intro H; try discriminate.
      * destruct H as (q & H). discriminate.
      * destruct H as [(H & _)|(r & H & _)]; injection H; intros; congruence.
      * left. exists d, rest. split; [reflexivity|split; assumption].
      * destruct H as (r & H & _). injection H; intros; congruence.
      * destruct H as [H|[H|(r & H & A)]]; try discriminate; injection H; intros; congruence.
Qed.

(** The message "Quaternion takes 4-vector or 3*3 matrix" is not what a 3*3 array of
    another number type gets: the identity as integers is undefined behaviour. *)
Theorem C82_number_type_refuted : exists a, nd_shape a = [3; 3]%nat /\ nd_type a = OtherNumber /\
  (forall i j, (i < 3)%nat -> (j < 3)%nat -> item a [i; j] = entry_of mid i j) /\
  forall E, quaternion E (Some (Some a)) = Err Undefined.
Proof.
  exists (Nd OtherNumber [3; 3]%nat (nd_mem (array_from_matrix3 (cells_of mid))) 0 [3; 1]%Z).
  split; [reflexivity|]. split; [reflexivity|]. split; [|intro E; reflexivity].
  intros [|[|[|i]]] [|[|[|j]]] Hi Hj; try lia; reflexivity.
Qed.

(** A pose with a rotation and a translation goes through the surreal format: four
    numbers x, y, z, w of a unit quaternion of its rotation. *)
Theorem C82_surreal_roundtrip : forall E R t m, eigen_ok E -> shows_matrix R m -> rotation m -> nd_shape t <> [] ->
  exists qv q p, to_surreal E (APose R t) = Ok [("QuaternionXYZW", qv); ("Translation", t)]%string /\
    shows_list qv (xyzw q) /\ unit_quat q /\ turns q m /\
    from_surreal E [("QuaternionXYZW", qv); ("Translation", t)]%string = Ok p /\
    shows_matrix (ap_R p) m /\ ap_t p = t.
Proof.
  intros E R t m OK S Rm Nt. destruct (of_rotation E OK R m S Rm) as (H & U & T). set (q := of_matrix E m) in *.
  assert (X : shows_list (roll (-1) (as_vector q)) (xyzw q)) by (apply roll_left, array1_shows).
  exists (roll (-1) (as_vector q)), q, (APose (to_rotation_matrix E q) t).
  split.
  - unfold to_surreal. cbn [ap_R ap_t]. rewrite H. cbn [bind]. destruct (nd_shape t); [congruence|reflexivity].
  - split; [exact X|]. split; [exact U|]. split; [exact T|]. split; [|split; [apply to_matrix_shows_it; assumption|reflexivity]].
    unfold from_surreal. change (sgetE "QuaternionXYZW"%string [("QuaternionXYZW", roll (-1) (as_vector q)); ("Translation", t)]%string) with (Ok (roll (-1) (as_vector q))). cbn [bind].
    change (sgetE "Translation"%string [("QuaternionXYZW", roll (-1) (as_vector q)); ("Translation", t)]%string) with (Ok t). cbn [bind].
    rewrite (of_vector E _ q (roll_right _ _ X)). reflexivity.
Qed.

(** Reading: the first three numbers are x, y, z and the last one is w, with any factor;
    the translation is taken as it is. *)
Theorem C82_from_surreal : forall E d qv t q, eigen_ok E ->
  sget "QuaternionXYZW"%string d = Some qv -> sget "Translation"%string d = Some t -> shows_list qv (xyzw q) -> q <> qzero ->
  exists p m, from_surreal E d = Ok p /\ shows_matrix (ap_R p) m /\ turns q m /\ ap_t p = t.
Proof.
  intros E d qv t q OK Hq Ht S N. destruct (to_matrix_shows E OK q N) as (m & Sm & T).
  exists (APose (to_rotation_matrix E q) t), m. split; [|split; [exact Sm|split; [exact T|reflexivity]]].
  unfold from_surreal, dgetE. rewrite Hq, Ht. cbn [bind]. rewrite (of_vector E _ q (roll_right _ _ S)). reflexivity.
Qed.

Theorem C82_from_surreal_keys : forall E d,
  sget "QuaternionXYZW"%string d = None \/ sget "Translation"%string d = None -> from_surreal E d = Err KeyError.
Proof.
  intros E d H. unfold from_surreal, dgetE. destruct (sget "QuaternionXYZW"%string d); [|reflexivity].
  destruct H as [H|H]; [discriminate|]. rewrite H. reflexivity.
Qed.

(** "Translation": [0, 0] is accepted. *)
Theorem C82_surreal_translation_refuted : exists d t, sget "Translation"%string d = Some t /\ nd_shape t = [2%nat] /\
  forall E, exists p, from_surreal E d = Ok p /\ nd_shape (ap_t p) = [2%nat].
Proof.
  exists [("QuaternionXYZW", array1 [0; 0; 0; 1]); ("Translation", array1 [0; 0])]%string, (array1 [0; 0]).
  split; [reflexivity|]. split; [reflexivity|]. intro E. eexists. split; reflexivity.
Qed.

(** The contract can be met, and a quarter turn about z: as numbers, as a matrix in row
    order, in column order, and as a reversed view. *)
Definition metrics_eigen : eigen :=
  Eigen matrix_to_quat qnormalize quat_to_matrix.

Lemma metrics_eigen_ok : eigen_ok metrics_eigen.
Proof.
  split; [|split].
  - intros m H. destruct (matrix_to_quat_sound m H) as (U & M). split; [exact U|]. simpl of_matrix. rewrite <- M at 2. apply turns_unit, U.
  - intros q N. simpl normalized. assert (P : 0 < qsq q).
    { assert (Z := qsq_nonneg q). destruct Z as [Z|Z]; [exact Z|]. elim N. apply qsq_zero. symmetry. exact Z. }
    assert (S : 0 < sqrt (qsq q)) by (apply sqrt_lt_R0, P).
    assert (D : qnormalize q = qscale (/ sqrt (qsq q)) q) by (unfold qnormalize, qscale, qsq, Rdiv; simpl; f_equal; ring).
    split.
    + rewrite D. unfold unit_quat, qscale; simpl. set (k := / sqrt (qsq q)).
      replace (k * qw q * (k * qw q) + k * qx q * (k * qx q) + k * qy q * (k * qy q) + k * qz q * (k * qz q)) with (k * k * qsq q) by (unfold qsq; ring).
      rewrite <- (sqrt_sqrt (qsq q)) by lra. unfold k. field. lra.
    + exists (/ sqrt (qsq q)). split; [apply Rinv_0_lt_compat, S|exact D].
  - intros q U. apply turns_unit, U.
Qed.

Definition quarter : mat := M33 0 (-1) 0 1 0 0 0 0 1.
Definition cells (l : list R) (p : Z) : R := nth (Z.to_nat p) l 0.
Example C82_example :
  eigen_ok metrics_eigen /\ rotation quarter /\ turns (Q4 2 0 0 2) quarter /\
  shows_matrix (Nd Double [3; 3]%nat (cells [0; -1; 0; 1; 0; 0; 0; 0; 1]) 0 [3; 1]%Z) quarter /\
  shows_matrix (Nd Double [3; 3]%nat (cells [0; 1; 0; -1; 0; 0; 0; 0; 1]) 0 [1; 3]%Z) quarter /\
  shows_matrix (Nd Double [3; 3]%nat (cells [1; 0; 0; 0; 0; 1; 0; -1; 0]) 8 [-3; -1]%Z) quarter /\
  shows_list (Nd OtherNumber [4%nat] (cells [2; 9; 0; 9; 0; 9; 2]) 0 [2%Z]) (wxyz (Q4 2 0 0 2)) /\
  (forall E, quaternion E (Some (Some (array1 [1; 2; 3; 4; 5]))) = Err AssertionError) /\
  (forall E, quaternion E (Some (Some (array1 [1; 2; 3]))) = Err Undefined).
Proof.
  split; [apply metrics_eigen_ok|].
  split; [split; [apply mat_eq; simpl; ring|unfold det; simpl; ring]|].
  split; [split; [intro H; injection H; intros; lra|intros [x y z]; unfold qpure, qmul, qconj, qsq, quarter; simpl; f_equal; ring]|].
  do 3 (split; [split; [reflexivity|split; [reflexivity|intros [|[|[|i]]] [|[|[|j]]] Hi Hj; try lia; reflexivity]]|]).
  split; [split; [reflexivity|split; [discriminate|intros [|[|[|[|i]]]] Hi; simpl in Hi; try lia; reflexivity]]|].
  split; reflexivity.
Qed.

(** * C83: unitize and on_left *)

(** A vector of any length that is not zero becomes its positive multiple of norm 1, in
    a new array; a zero vector is returned itself. *)
Theorem C83_unitize : forall v,
  ((exists x, In x v /\ x <> 0) -> exists k, 0 < k /\ unitize v = New (scaled k v) /\ ssq (scaled k v) = 1) /\
  ((forall x, In x v -> x = 0) -> unitize v = Same).
Proof.
  intro v. split.
  - intros (x & Hx & Nx). assert (N : ssq v <> 0) by (intro H; apply Nx; rewrite ssq_zero in H; apply H, Hx).
    destruct (sqrt_ssq v N) as (P & Q). exists (/ sqrt (ssq v)). split; [apply Rinv_0_lt_compat, P|].
    split; [apply unitize_new, N|]. rewrite ssq_scaled. rewrite <- Q at 3. field. lra.
  - intro H. apply unitize_zero, ssq_zero, H.
Qed.

(** Only the direction counts: scaling by a positive number changes nothing, by a
    negative one the sign; a second time changes nothing. *)
Theorem C83_unitize_direction : forall v,
  (forall k, 0 < k -> value (scaled k v) (unitize (scaled k v)) = value v (unitize v)) /\
  (forall k, k < 0 -> value (scaled k v) (unitize (scaled k v)) = scaled (-1) (value v (unitize v))) /\
  (let u := value v (unitize v) in value u (unitize u) = u).
Proof.
  intro v. destruct (Req_dec (ssq v) 0) as [Z|Z].
  - assert (Zk : forall k, ssq (scaled k v) = 0) by (intro; rewrite ssq_scaled, Z; ring).
    rewrite (unitize_zero v Z). cbn [value]. repeat split.
    + intros k _. rewrite unitize_zero by apply Zk. apply scaled_zeros, Z.
    + intros k _. rewrite unitize_zero by apply Zk. cbn [value]. rewrite !scaled_zeros by exact Z. reflexivity.
    + rewrite (unitize_zero v Z). reflexivity.
  - destruct (sqrt_ssq v Z) as (P & Q). rewrite (unitize_new v Z). cbn [value].
    assert (Zk : forall k, k <> 0 -> ssq (scaled k v) <> 0).
    { intros k K. rewrite ssq_scaled. apply Rmult_integral_contrapositive_currified; [|exact Z]. apply Rmult_integral_contrapositive_currified; exact K. }
    assert (Sk : forall k, sqrt (ssq (scaled k v)) = Rabs k * sqrt (ssq v)).
    { intro k. rewrite ssq_scaled, sqrt_mult_alt by nra. f_equal. apply sqrt_Rsqr_abs. }
    repeat split.
    + intros k K. rewrite unitize_new by (apply Zk; lra). cbn [value]. rewrite scaled_scaled, Sk. f_equal. rewrite Rabs_right by lra. field. lra.
    + intros k K. rewrite unitize_new by (apply Zk; lra). cbn [value]. rewrite !scaled_scaled, Sk. f_equal. rewrite Rabs_left by lra. field. lra.
    + assert (K : / sqrt (ssq v) <> 0) by (apply Rinv_neq_0_compat; lra).
      rewrite unitize_new by (apply Zk; exact K). cbn [value]. rewrite scaled_scaled. f_equal.
      rewrite Sk, Rabs_right by (apply Rle_ge, Rlt_le, Rinv_0_lt_compat, P). field. lra.
Qed.

(** on_left: the point is not on the right, where left of the line is the direction of
    the line turned by 90 degrees about N. *)
Theorem C83_on_left : forall N p a b, exists r, on_left Flat N p a b = Ok r /\
  (r = true <-> 0 <= dot (leftward N (vsub b a)) (vsub p a)).
Proof.
  intros N p a b. unfold on_left. cbn [np_cross bind]. eexists. split; [reflexivity|].
  assert (D : dot N (cross (vsub b a) (vsub p a)) = dot (leftward N (vsub b a)) (vsub p a)) by (unfold leftward, dot, cross, vsub; simpl; ring).
  rewrite D. destruct (Rle_dec 0 _); split; intro; try assumption; try reflexivity; try discriminate; contradiction.
Qed.

(** Reversing the line or the view swaps the sides; both answers are yes exactly for
    points of the plane through the line along N. *)
Theorem C83_on_left_reverse : forall N p a b,
  on_left Flat N p b a = on_left Flat (vopp N) p a b /\
  exists r s, on_left Flat N p a b = Ok r /\ on_left Flat N p b a = Ok s /\ (r = true \/ s = true) /\
    (r = true /\ s = true <-> dot (leftward N (vsub b a)) (vsub p a) = 0).
Proof.
  intros N p a b.
  assert (D : dot N (cross (vsub a b) (vsub p b)) = - dot (leftward N (vsub b a)) (vsub p a)) by (unfold leftward, dot, cross, vsub; simpl; ring).
  assert (D2 : dot N (cross (vsub b a) (vsub p a)) = dot (leftward N (vsub b a)) (vsub p a)) by (unfold leftward, dot, cross, vsub; simpl; ring).
  split.
  - unfold on_left. cbn [np_cross bind]. replace (dot (vopp N) (cross (vsub b a) (vsub p a))) with (dot N (cross (vsub a b) (vsub p b))); [reflexivity|].
    unfold vopp, dot, cross, vsub; simpl; ring.
  - unfold on_left. cbn [np_cross bind]. rewrite D, D2. eexists. eexists. split; [reflexivity|]. split; [reflexivity|].
    set (t := dot _ _). destruct (Rle_dec 0 t), (Rle_dec 0 (- t)); (split; [tauto || lra|]); (split; [intros (A & B); try discriminate; lra|intro A; split; try reflexivity; lra]).
Qed.

(** A motion of everything changes nothing; nor does moving the point along the line or
    along N, or another positive length of N.  The points on the left form a half-space. *)
Theorem C83_on_left_invariant : forall N p a b,
  (forall m t, rotation m ->
     on_left Flat (mvec m N) (vadd (mvec m p) t) (vadd (mvec m a) t) (vadd (mvec m b) t) = on_left Flat N p a b) /\
  (forall i j, on_left Flat N (vadd p (vadd (smul i N) (smul j (vsub b a)))) a b = on_left Flat N p a b) /\
  (forall k, 0 < k -> on_left Flat (smul k N) p a b = on_left Flat N p a b) /\
  (forall q s, 0 <= s <= 1 -> on_left Flat N p a b = Ok true -> on_left Flat N q a b = Ok true ->
     on_left Flat N (vadd (smul (1 - s) p) (smul s q)) a b = Ok true).
Proof.
  intros N p a b. unfold on_left. cbn [np_cross bind]. repeat split.
  - intros m t R.
    replace (dot (mvec m N) (cross (vsub (vadd (mvec m b) t) (vadd (mvec m a) t)) (vsub (vadd (mvec m p) t) (vadd (mvec m a) t))))
      with (det m * dot N (cross (vsub b a) (vsub p a))).
    + rewrite (proj2 R), Rmult_1_l. reflexivity.
    + unfold det, dot, cross, mvec, vsub, vadd; simpl; ring.
  - intros i j. replace (dot N (cross (vsub b a) (vsub (vadd p (vadd (smul i N) (smul j (vsub b a)))) a))) with (dot N (cross (vsub b a) (vsub p a))); [reflexivity|].
    unfold dot, cross, vsub, vadd, smul; simpl; ring.
  - intros k K. replace (dot (smul k N) (cross (vsub b a) (vsub p a))) with (k * dot N (cross (vsub b a) (vsub p a))) by (unfold dot, smul; simpl; ring).
    set (t := dot _ _). destruct (Rle_dec 0 (k * t)), (Rle_dec 0 t); try reflexivity; exfalso; nra.
  - intros q s (S0 & S1).
    replace (dot N (cross (vsub b a) (vsub (vadd (smul (1 - s) p) (smul s q)) a)))
      with ((1 - s) * dot N (cross (vsub b a) (vsub p a)) + s * dot N (cross (vsub b a) (vsub q a))) by (unfold dot, cross, vsub, vadd, smul; simpl; ring).
    set (t := dot N (cross (vsub b a) (vsub p a))). set (u := dot N (cross (vsub b a) (vsub q a))).
    destruct (Rle_dec 0 t); [|discriminate]. destruct (Rle_dec 0 u); [|discriminate]. intros _ _.
    destruct (Rle_dec 0 ((1 - s) * t + s * u)) as [|X]; [reflexivity|]. exfalso. apply X.
    apply Rplus_le_le_0_compat; apply Rmult_le_pos; lra.
Qed.

(** Without a direction to be left of (a line along N, or a = b) every point is on the
    left, so "true iff on the left side" is no longer a side. *)
Theorem C83_on_left_degenerate : forall N a b,
  leftward N (vsub b a) = vzero <-> forall p, on_left Flat N p a b = Ok true.
Proof.
  intros N a b. split.
  - intros H p. destruct (C83_on_left N p a b) as (r & -> & R). f_equal. apply R. rewrite H. unfold dot, vzero; simpl. lra.
  - intro H. set (L := leftward N (vsub b a)) in *.
    specialize (H (vsub a L)). destruct (C83_on_left N (vsub a L) a b) as (r & E & R). rewrite E in H. injection H as ->.
    apply proj1 in R. specialize (R eq_refl). fold L in R.
    apply dot_self_zero. assert (P := dot_self_nonneg L).
    replace (dot L (vsub (vsub a L) a)) with (- dot L L) in R by (unfold dot, vsub; simpl; ring). lra.
Qed.

(** The docstring asks for 3x1 vectors; arrays of shape (3, 1) raise ValueError. *)
Theorem C83_on_left_columns_refuted : exists N p a b, forall r,
  on_left Flat N p a b = Ok true /\ on_left Column N p a b <> Ok r.
Proof.
  exists (V 0 0 1), (V 0 2 0), (V 0 0 0), (V 1 0 0). intro r. split; [|discriminate].
  unfold on_left, dot, cross, vsub; simpl. destruct (Rle_dec 0 _) as [|X]; [reflexivity|]. exfalso. apply X. lra.
Qed.

Example C83_example :
  unitize [3; 0; -4] = New [3 / 5; 0; -4 / 5] /\ unitize [0; 0] = Same /\
  on_left Flat (V 0 0 1) (V 5 2 7) (V 0 0 0) (V 1 0 0) = Ok true /\
  on_left Flat (V 0 0 1) (V 5 (-2) 7) (V 0 0 0) (V 1 0 0) = Ok false.
Proof.
  assert (S : ssq [3; 0; -4] = 5 * 5) by (unfold ssq; simpl; ring).
  split.
  - rewrite unitize_new by (rewrite S; lra). rewrite S, sqrt_square by lra. unfold scaled; simpl. f_equal. f_equal; [lra|f_equal; [lra|f_equal; lra]].
  - split; [apply unitize_zero; unfold ssq; simpl; ring|].
    unfold on_left, dot, cross, vsub; simpl. split; destruct (Rle_dec 0 _) as [X|X]; try reflexivity; exfalso; lra.
Qed.

Print Assumptions C82_default.
Print Assumptions C82_vector.
Print Assumptions C82_same_rotation.
Print Assumptions C82_matrix.
Print Assumptions C82_roundtrip.
Print Assumptions C82_column.
Print Assumptions C82_outcomes.
Print Assumptions C82_number_type_refuted.
Print Assumptions C82_surreal_roundtrip.
Print Assumptions C82_from_surreal.
Print Assumptions C82_from_surreal_keys.
Print Assumptions C82_surreal_translation_refuted.
Print Assumptions C83_unitize.
Print Assumptions C83_unitize_direction.
Print Assumptions C83_on_left.
Print Assumptions C83_on_left_reverse.
Print Assumptions C83_on_left_invariant.
Print Assumptions C83_on_left_degenerate.
Print Assumptions C83_on_left_columns_refuted.
