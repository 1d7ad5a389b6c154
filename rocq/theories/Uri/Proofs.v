From Coq Require Import List Bool ZArith Ascii String Lia.
From Verif.Base Require Import Py.
From Verif.Uri Require Import Model Spec.
Import ListNotations.
Local Open Scope Z_scope.

(** * Base 64 *)

(** Facts about single bytes and digits, by cases. *)
Definition upto (n : nat) : list Z := map Z.of_nat (seq 0 n).
Lemma in_upto : forall n z, 0 <= z < Z.of_nat n -> In z (upto n).
Proof.
  intros n z H. unfold upto. apply in_map_iff. exists (Z.to_nat z). split; [apply Z2Nat.id; lia|].
  apply in_seq. lia.
Qed.
Lemma cases : forall n (f : Z -> bool), forallb f (upto n) = true -> forall z, 0 <= z < Z.of_nat n -> f z = true.
Proof. intros n f H z Z. rewrite forallb_forall in H. apply H, in_upto, Z. Qed.

Lemma top6 : forall a, byte a -> Z.shiftr (Z.land a 252) 2 = a / 4.
Proof. intros a A. apply Z.eqb_eq. apply (cases 256 (fun a => Z.shiftr (Z.land a 252) 2 =? a / 4)); [vm_compute; reflexivity|exact A]. Qed.
Lemma low2 : forall a, byte a -> Z.shiftl (Z.land a 3) 4 = 16 * (a mod 4).
Proof. intros a A. apply Z.eqb_eq. apply (cases 256 (fun a => Z.shiftl (Z.land a 3) 4 =? 16 * (a mod 4))); [vm_compute; reflexivity|exact A]. Qed.
Lemma top4 : forall a, byte a -> Z.shiftr (Z.land a 240) 4 = a / 16.
Proof. intros a A. apply Z.eqb_eq. apply (cases 256 (fun a => Z.shiftr (Z.land a 240) 4 =? a / 16)); [vm_compute; reflexivity|exact A]. Qed.
Lemma low4 : forall a, byte a -> Z.shiftl (Z.land a 15) 2 = 4 * (a mod 16).
Proof. intros a A. apply Z.eqb_eq. apply (cases 256 (fun a => Z.shiftl (Z.land a 15) 2 =? 4 * (a mod 16))); [vm_compute; reflexivity|exact A]. Qed.
Lemma top2 : forall a, byte a -> Z.shiftr (Z.land a 192) 6 = a / 64.
Proof. intros a A. apply Z.eqb_eq. apply (cases 256 (fun a => Z.shiftr (Z.land a 192) 6 =? a / 64)); [vm_compute; reflexivity|exact A]. Qed.
Lemma low6 : forall a, byte a -> Z.land a 63 = a mod 64.
Proof. intros a A. apply Z.eqb_eq. apply (cases 256 (fun a => Z.land a 63 =? a mod 64)); [vm_compute; reflexivity|exact A]. Qed.

Definition sextet (z : Z) : Prop := 0 <= z < 64.

Lemma four_eq : forall a b c, byte a -> byte b -> byte c ->
  four a b c = (a / 4, 16 * (a mod 4) + b / 16, 4 * (b mod 16) + c / 64, c mod 64).
Proof.
  intros a b c A B C. unfold four, u8. rewrite top6, low2, top4, low4, top2, low6 by assumption.
  unfold byte in *. rewrite !(Z.mod_small _ 256) by (Z.to_euclidean_division_equations; lia). reflexivity.
Qed.

Lemma four_sextets : forall a b c, byte a -> byte b -> byte c ->
  sextet (a / 4) /\ sextet (16 * (a mod 4) + b / 16) /\ sextet (4 * (b mod 16) + c / 64) /\ sextet (c mod 64).
Proof. intros a b c A B C. unfold byte, sextet in *. repeat split; Z.to_euclidean_division_equations; lia. Qed.

Lemma d_high : forall q, sextet q -> Z.shiftr (Z.land q 48) 4 = q / 16.
Proof. intros a A. apply Z.eqb_eq. apply (cases 64 (fun a => Z.shiftr (Z.land a 48) 4 =? a / 16)); [vm_compute; reflexivity|exact A]. Qed.
Lemma d_low4 : forall q, sextet q -> Z.shiftl (Z.land q 15) 4 = 16 * (q mod 16).
Proof. intros a A. apply Z.eqb_eq. apply (cases 64 (fun a => Z.shiftl (Z.land a 15) 4 =? 16 * (a mod 16))); [vm_compute; reflexivity|exact A]. Qed.
Lemma d_high4 : forall q, sextet q -> Z.shiftr (Z.land q 60) 2 = q / 4.
Proof. intros a A. apply Z.eqb_eq. apply (cases 64 (fun a => Z.shiftr (Z.land a 60) 2 =? a / 4)); [vm_compute; reflexivity|exact A]. Qed.
Lemma d_low2 : forall q, sextet q -> Z.shiftl (Z.land q 3) 6 = 64 * (q mod 4).
Proof. intros a A. apply Z.eqb_eq. apply (cases 64 (fun a => Z.shiftl (Z.land a 3) 6 =? 64 * (a mod 4))); [vm_compute; reflexivity|exact A]. Qed.
Lemma d_all : forall q, Z.shiftl q 2 = 4 * q.
Proof. intros q. rewrite Z.shiftl_mul_pow2 by lia. lia. Qed.

Lemma first_eq : forall p q r s, sextet p -> sextet q -> fst (fst (three p q r s)) = 4 * p + q / 16.
Proof.
  intros p q r s P Q. unfold three, u8. cbn [fst]. rewrite d_all, d_high by assumption. unfold sextet in *.
  apply Z.mod_small. Z.to_euclidean_division_equations; lia.
Qed.
Lemma second_eq : forall p q r s, sextet q -> sextet r -> snd (fst (three p q r s)) = 16 * (q mod 16) + r / 4.
Proof.
  intros p q r s Q R. unfold three, u8. cbn [fst snd]. rewrite d_low4, d_high4 by assumption. unfold sextet in *.
  apply Z.mod_small. Z.to_euclidean_division_equations; lia.
Qed.
Lemma third_eq : forall p q r s, sextet r -> sextet s -> snd (three p q r s) = 64 * (r mod 4) + s.
Proof.
  intros p q r s R S. unfold three, u8. cbn [snd]. rewrite d_low2 by assumption. unfold sextet in *.
  apply Z.mod_small. Z.to_euclidean_division_equations; lia.
Qed.

(** Characters. *)
Lemma digit_char_at : forall k, sextet k -> digit (char_at k) = Some k /\ find (char_at k) = k /\
  is_base64 (char_at k) = true /\ Ascii.eqb (char_at k) "=" = false.
Proof.
  intros k K.
  assert (H : (match digit (char_at k) with Some z => z =? k | None => false end && (find (char_at k) =? k)
               && is_base64 (char_at k) && negb (Ascii.eqb (char_at k) "="))%bool = true).
  { apply (cases 64 (fun k => (match digit (char_at k) with Some z => z =? k | None => false end && (find (char_at k) =? k)
               && is_base64 (char_at k) && negb (Ascii.eqb (char_at k) "="))%bool)); [vm_compute; reflexivity|exact K]. }
  apply andb_prop in H. destruct H as [H E]. apply andb_prop in H. destruct H as [H B]. apply andb_prop in H. destruct H as [D F].
  destruct (digit (char_at k)) as [z|]; [|discriminate]. apply Z.eqb_eq in D, F. subst z.
  apply negb_true_iff in E. repeat split; assumption.
Qed.

Definition all_chars : list ascii := map ascii_of_nat (seq 0 256).
Lemma all_chars_in : forall c, In c all_chars.
Proof.
  intros c. unfold all_chars. apply in_map_iff. exists (nat_of_ascii c). split; [apply ascii_nat_embedding|].
  apply in_seq. pose proof (nat_ascii_bounded c). lia.
Qed.
Lemma char_cases : forall f : ascii -> bool, forallb f all_chars = true -> forall c, f c = true.
Proof. intros f H c. rewrite forallb_forall in H. apply H, all_chars_in. Qed.

(** is_base64, find and the value of a character agree, for every character. *)
Lemma digit_facts : forall c,
  match digit c with
  | Some k => sextet k /\ find c = k /\ (negb (Ascii.eqb c "=") && is_base64 c)%bool = true
  | None => (negb (Ascii.eqb c "=") && is_base64 c)%bool = false
  end.
Proof.
  intros c.
  assert (H : match digit c with
    | Some k => ((0 <=? k) && (k <? 64) && (find c =? k) && (negb (Ascii.eqb c "=") && is_base64 c))%bool
    | None => negb (negb (Ascii.eqb c "=") && is_base64 c) end = true).
  { apply (char_cases (fun c => match digit c with
    | Some k => ((0 <=? k) && (k <? 64) && (find c =? k) && (negb (Ascii.eqb c "=") && is_base64 c))%bool
    | None => negb (negb (Ascii.eqb c "=") && is_base64 c) end)). vm_compute. reflexivity. }
  destruct (digit c) as [k|].
  - apply andb_prop in H. destruct H as [H B]. apply andb_prop in H. destruct H as [H F]. apply andb_prop in H. destruct H as [L U].
    apply Z.leb_le in L. apply Z.ltb_lt in U. apply Z.eqb_eq in F. repeat split; assumption.
  - apply negb_true_iff in H. exact H.
Qed.

Lemma readable_digits : forall s ds rest, digits s ds -> ends rest -> readable (s ++ rest) = s.
Proof.
  induction s as [|c s IH]; intros ds rest D E.
  - destruct rest as [|c rest]; [reflexivity|]. cbn [app readable]. cbn in E.
    pose proof (digit_facts c) as F. rewrite E in F. rewrite F. reflexivity.
  - destruct ds as [|d ds]; [discriminate|]. unfold digits in D. cbn [map] in D. injection D as D1 D2.
    cbn [app readable]. pose proof (digit_facts c) as F. rewrite D1 in F. destruct F as (_ & _ & F). rewrite F.
    f_equal. apply (IH ds); assumption.
Qed.

(** Decoding digits. *)
Fixpoint bytes_of (ds : list Z) : list Z :=
  match ds with
  | [] => []
  | [_] => []
  | [p; q] => [4 * p + q / 16]
  | [p; q; r] => [4 * p + q / 16; 16 * (q mod 16) + r / 4]
  | p :: q :: r :: s :: ds => (4 * p + q / 16) :: (16 * (q mod 16) + r / 4) :: (64 * (r mod 4) + s) :: bytes_of ds
  end.

Lemma digits_cons : forall c s d ds, digits (c :: s) (d :: ds) -> (sextet d /\ find c = d) /\ digits s ds.
Proof.
  intros c s d ds D. unfold digits in D. cbn [map] in D. injection D as D1 D2. split; [|exact D2].
  pose proof (digit_facts c) as F. rewrite D1 in F. tauto.
Qed.

Lemma decode_digits : forall s ds, digits s ds -> decode_blocks s = bytes_of ds.
Proof.
  fix IH 1. intros s ds D. destruct s as [|c s].
  - destruct ds; [reflexivity|discriminate].
  - destruct ds as [|p ds]; [discriminate|]. apply digits_cons in D. destruct D as [[P EP] D]. destruct s as [|d s].
    + destruct ds; [reflexivity|discriminate].
    + destruct ds as [|q ds]; [discriminate|]. apply digits_cons in D. destruct D as [[Q EQ] D].
      assert (X1 : forall r s, fst (fst (three (find c) (find d) r s)) = 4 * p + q / 16)
        by (intros; rewrite EP, EQ; apply first_eq; assumption).
      destruct s as [|e s].
      * destruct ds; [|discriminate]. cbn [decode_blocks bytes_of].
        specialize (X1 (find zero) (find zero)). destruct (three (find c) (find d) (find zero) (find zero)) as [[x y] z].
        cbn [fst] in X1. rewrite X1. reflexivity.
      * destruct ds as [|r ds]; [discriminate|]. apply digits_cons in D. destruct D as [[R ER] D].
        assert (X2 : forall t, snd (fst (three (find c) (find d) (find e) t)) = 16 * (q mod 16) + r / 4)
          by (intros; rewrite ER, EQ; apply second_eq; assumption).
        destruct s as [|f s].
        -- destruct ds; [|discriminate]. cbn [decode_blocks bytes_of].
           specialize (X1 (find e) (find zero)). specialize (X2 (find zero)).
           destruct (three (find c) (find d) (find e) (find zero)) as [[x y] z]. cbn [fst snd] in X1, X2. rewrite X1, X2. reflexivity.
        -- destruct ds as [|t ds]; [discriminate|]. apply digits_cons in D. destruct D as [[T ET] D].
           cbn [decode_blocks bytes_of]. specialize (X1 (find e) (find f)). specialize (X2 (find f)).
           assert (X3 : snd (three (find c) (find d) (find e) (find f)) = 64 * (r mod 4) + t)
             by (rewrite ER, ET; apply third_eq; assumption).
           destruct (three (find c) (find d) (find e) (find f)) as [[x y] z]. cbn [fst snd] in X1, X2, X3.
           rewrite X1, X2, X3, (IH s ds D). reflexivity.
Qed.

Lemma digits_sextets : forall s ds, digits s ds -> Forall sextet ds.
Proof.
  induction s as [|c s IH]; intros [|d ds] D; try discriminate; constructor.
  - apply digits_cons in D. tauto.
  - apply IH. apply digits_cons in D. tauto.
Qed.

Lemma digits_length : forall s ds, digits s ds -> List.length ds = List.length s.
Proof. intros s ds D. rewrite <- (map_length Some ds), <- D. apply map_length. Qed.

(** Encoding to digits. *)
Fixpoint sextets_of (bs : list Z) : list Z :=
  match bs with
  | [] => []
  | [a] => [a / 4; 16 * (a mod 4)]
  | [a; b] => [a / 4; 16 * (a mod 4) + b / 16; 4 * (b mod 16)]
  | a :: b :: c :: bs => (a / 4) :: (16 * (a mod 4) + b / 16) :: (4 * (b mod 16) + c / 64) :: (c mod 64) :: sextets_of bs
  end.
Fixpoint padding (bs : list Z) : text :=
  match bs with
  | [] => []
  | [_] => ["="; "="]%char
  | [_; _] => ["="]%char
  | _ :: _ :: _ :: bs => padding bs
  end.

Lemma char_digits : forall k s ds, sextet k -> digits s ds -> digits (char_at k :: s) (k :: ds).
Proof. intros k s ds K D. unfold digits. cbn [map]. rewrite (proj1 (digit_char_at k K)). f_equal. exact D. Qed.

Lemma byte0 : byte 0.
Proof. unfold byte. lia. Qed.

Lemma encode_digits : forall bs, Forall byte bs -> exists s, base64_encode bs = s ++ padding bs /\ digits s (sextets_of bs).
Proof.
  fix IH 1. intros bs F. destruct bs as [|a bs]; [exists []; split; reflexivity|].
  assert (A : byte a) by (inversion F; assumption). destruct bs as [|b bs].
  - cbn [base64_encode padding sextets_of]. rewrite four_eq by (exact A || exact byte0).
    pose proof (four_sextets a 0 0 A byte0 byte0) as (P & Q & _).
    change (0 / 16) with 0 in *. rewrite Z.add_0_r in *.
    exists [char_at (a / 4); char_at (16 * (a mod 4))]. split; [reflexivity|].
    apply char_digits, char_digits; [exact P|exact Q|reflexivity].
  - assert (B : byte b) by (inversion F as [|? ? ? F']; inversion F'; assumption). destruct bs as [|c bs].
    + cbn [base64_encode padding sextets_of]. rewrite four_eq by (exact A || exact B || exact byte0).
      pose proof (four_sextets a b 0 A B byte0) as (P & Q & R & _).
      change (0 / 64) with 0 in *. rewrite (Z.add_0_r (4 * (b mod 16))) in *.
      exists [char_at (a / 4); char_at (16 * (a mod 4) + b / 16); char_at (4 * (b mod 16))]. split; [reflexivity|].
      apply char_digits, char_digits, char_digits; [exact P|exact Q|exact R|reflexivity].
    + assert (C : byte c) by (inversion F as [|? ? ? F']; inversion F' as [|? ? ? F'']; inversion F''; assumption).
      assert (T : Forall byte bs) by (inversion F as [|? ? ? F']; inversion F' as [|? ? ? F'']; inversion F''; assumption).
      cbn [base64_encode padding sextets_of]. rewrite four_eq by assumption.
      pose proof (four_sextets a b c A B C) as (P & Q & R & S). destruct (IH bs T) as (s & E & D).
      eexists (_ :: _ :: _ :: _ :: s). rewrite E. split; [reflexivity|].
      apply char_digits, char_digits, char_digits, char_digits; assumption.
Qed.

Lemma bytes_of_sextets : forall bs, Forall byte bs -> bytes_of (sextets_of bs) = bs.
Proof.
  fix IH 1. intros bs F. destruct bs as [|a bs]; [reflexivity|].
  assert (A : byte a) by (inversion F; assumption). destruct bs as [|b bs].
  - cbn [sextets_of bytes_of]. f_equal. unfold byte in *. Z.to_euclidean_division_equations; lia.
  - assert (B : byte b) by (inversion F as [|? ? ? F']; inversion F'; assumption). destruct bs as [|c bs].
    + cbn [sextets_of bytes_of]. f_equal; [|f_equal]; unfold byte in *; Z.to_euclidean_division_equations; lia.
    + assert (C : byte c) by (inversion F as [|? ? ? F']; inversion F' as [|? ? ? F'']; inversion F''; assumption).
      assert (T : Forall byte bs) by (inversion F as [|? ? ? F']; inversion F' as [|? ? ? F'']; inversion F''; assumption).
      cbn [sextets_of bytes_of]. rewrite (IH bs T). unfold byte in *.
      f_equal; [|f_equal; [|f_equal]]; Z.to_euclidean_division_equations; lia.
Qed.

Lemma padding_ends : forall bs, ends (padding bs).
Proof.
  fix IH 1. intros [|a [|b [|c bs]]]; [exact I|reflexivity|reflexivity|]. cbn [padding]. apply IH.
Qed.

(** Numbers. *)
Lemma number_from : forall base ds n, fold_left (fun n d => base * n + d) ds n = n * base ^ Z.of_nat (List.length ds) + number base ds.
Proof.
  intros base. unfold number. induction ds as [|d ds IH]; intros n; cbn [fold_left List.length].
  - change (base ^ Z.of_nat 0) with 1. lia.
  - rewrite IH, (IH (base * 0 + d)). rewrite Nat2Z.inj_succ, Z.pow_succ_r by lia. ring.
Qed.

Lemma number_app : forall base a b, number base (a ++ b) = number base a * base ^ Z.of_nat (List.length b) + number base b.
Proof. intros base a b. unfold number. rewrite fold_left_app. apply number_from. Qed.

Lemma number_cons : forall base d ds, number base (d :: ds) = d * base ^ Z.of_nat (List.length ds) + number base ds.
Proof. intros base d ds. change (d :: ds) with ([d] ++ ds). rewrite number_app. unfold number at 1. cbn [fold_left]. ring. Qed.

Lemma number_bound : forall base ds, 0 < base -> Forall (fun d => 0 <= d < base) ds ->
  0 <= number base ds < base ^ Z.of_nat (List.length ds).
Proof.
  intros base ds B F. induction F as [|d ds D F IH]; [cbn; lia|]. rewrite number_cons. cbn [List.length].
  rewrite Nat2Z.inj_succ, Z.pow_succ_r by lia. nia.
Qed.

Lemma pow64 : forall n, 64 ^ Z.of_nat n = 2 ^ (6 * Z.of_nat n).
Proof. intros n. rewrite Z.pow_mul_r by lia. reflexivity. Qed.
Lemma pow256 : forall n, 256 ^ Z.of_nat n = 2 ^ (8 * Z.of_nat n).
Proof. intros n. rewrite Z.pow_mul_r by lia. reflexivity. Qed.

(** The number of bytes of [n] digits. *)
Definition decoded_length (n : nat) : nat := (n * 3 / 4)%nat.
Lemma bytes_of_length : forall ds, List.length (bytes_of ds) = decoded_length (List.length ds).
Proof.
  fix IH 1. intros [|p [|q [|r [|s ds]]]]; try reflexivity. cbn [bytes_of List.length]. rewrite IH. unfold decoded_length.
  replace (S (S (S (S (List.length ds)))) * 3)%nat with (List.length ds * 3 + 3 * 4)%nat by lia.
  rewrite Nat.div_add by lia. lia.
Qed.

Lemma bytes_of_number : forall ds, Forall sextet ds ->
  number 256 (bytes_of ds) = number 64 ds / 2 ^ (6 * Z.of_nat (List.length ds) - 8 * Z.of_nat (List.length (bytes_of ds))) /\
  0 <= 6 * Z.of_nat (List.length ds) - 8 * Z.of_nat (List.length (bytes_of ds)) <= 6.
Proof.
  fix IH 1. intros ds F. destruct ds as [|p ds]; [split; [reflexivity|cbn; lia]|].
  assert (P : sextet p) by (inversion F; assumption). destruct ds as [|q ds].
  { split; [|cbn; lia]. cbn [bytes_of List.length]. change (2 ^ (6 * Z.of_nat 1 - 8 * Z.of_nat 0)) with 64.
    unfold number, sextet in *. cbn [fold_left].
    rewrite Z.div_small by lia. reflexivity. }
  assert (Q : sextet q) by (inversion F as [|? ? ? F']; inversion F'; assumption). destruct ds as [|r ds].
  { split; [|cbn; lia]. cbn [bytes_of List.length]. change (2 ^ (6 * Z.of_nat 2 - 8 * Z.of_nat 1)) with 16.
    unfold number, sextet in *. cbn [fold_left].
    Z.to_euclidean_division_equations; lia. }
  assert (R : sextet r) by (inversion F as [|? ? ? F']; inversion F' as [|? ? ? F'']; inversion F''; assumption). destruct ds as [|s ds].
  { split; [|cbn; lia]. cbn [bytes_of List.length]. change (2 ^ (6 * Z.of_nat 3 - 8 * Z.of_nat 2)) with 4.
    unfold number, sextet in *. cbn [fold_left].
    Z.to_euclidean_division_equations; lia. }
  assert (S : sextet s) by (inversion F as [|? ? ? F']; inversion F' as [|? ? ? F'']; inversion F'' as [|? ? ? F3]; inversion F3; assumption).
  assert (T : Forall sextet ds) by (inversion F as [|? ? ? F']; inversion F' as [|? ? ? F'']; inversion F'' as [|? ? ? F3]; inversion F3; assumption).
  destruct (IH ds T) as [E L]. cbn [bytes_of].
  set (k := 6 * Z.of_nat (List.length ds) - 8 * Z.of_nat (List.length (bytes_of ds))) in *.
  assert (K : 6 * Z.of_nat (List.length (p :: q :: r :: s :: ds)) - 8 * Z.of_nat (List.length ((4 * p + q / 16) :: (16 * (q mod 16) + r / 4) :: (64 * (r mod 4) + s) :: bytes_of ds)) = k)
    by (subst k; cbn [List.length]; lia).
  rewrite K. split; [|exact L].
  rewrite !number_cons, E. cbn [List.length]. rewrite !Nat2Z.inj_succ, !Z.pow_succ_r by lia.
  set (X := 256 ^ Z.of_nat (List.length (bytes_of ds))). set (Y := 64 ^ Z.of_nat (List.length ds)).
  assert (XY : Y = X * 2 ^ k).
  { subst X Y k. rewrite pow64, pow256, <- Z.pow_add_r by lia. f_equal. lia. }
  rewrite XY.
  replace (p * (64 * (64 * (64 * (X * 2 ^ k)))) + (q * (64 * (64 * (X * 2 ^ k))) + (r * (64 * (X * 2 ^ k)) + (s * (X * 2 ^ k) + number 64 ds))))
    with (number 64 ds + (X * (262144 * p + 4096 * q + 64 * r + s)) * 2 ^ k) by ring.
  rewrite Z.div_add by (apply Z.pow_nonzero; lia).
  assert (N : 65536 * (4 * p + q / 16) + 256 * (16 * (q mod 16) + r / 4) + (64 * (r mod 4) + s) = 262144 * p + 4096 * q + 64 * r + s)
    by (unfold sextet in *; Z.to_euclidean_division_equations; lia).
  rewrite <- N. ring.
Qed.

Lemma sextets_of_number : forall bs, Forall byte bs ->
  number 64 (sextets_of bs) = number 256 bs * 4 ^ Z.of_nat (List.length (padding bs)) /\
  (List.length (sextets_of bs) + List.length (padding bs) = 4 * ((List.length bs + 2) / 3))%nat.
Proof.
  fix IH 1. intros bs F. destruct bs as [|a bs]; [split; reflexivity|].
  assert (A : byte a) by (inversion F; assumption). destruct bs as [|b bs].
  { split; [|reflexivity]. cbn [sextets_of padding List.length]. change (4 ^ Z.of_nat 2) with 16. unfold number, byte in *. cbn [fold_left]. Z.to_euclidean_division_equations; lia. }
  assert (B : byte b) by (inversion F as [|? ? ? F']; inversion F'; assumption). destruct bs as [|c bs].
  { split; [|reflexivity]. cbn [sextets_of padding List.length]. change (4 ^ Z.of_nat 1) with 4. unfold number, byte in *. cbn [fold_left]. Z.to_euclidean_division_equations; lia. }
  assert (C : byte c) by (inversion F as [|? ? ? F']; inversion F' as [|? ? ? F'']; inversion F''; assumption).
  assert (T : Forall byte bs) by (inversion F as [|? ? ? F']; inversion F' as [|? ? ? F'']; inversion F''; assumption).
  destruct (IH bs T) as [E L]. cbn [sextets_of padding List.length]. split.
  - rewrite !number_cons, E. cbn [List.length]. rewrite !Nat2Z.inj_succ, !Z.pow_succ_r by lia.
    set (k := Z.of_nat (List.length (padding bs))) in *.
    assert (XY : 64 ^ Z.of_nat (List.length (sextets_of bs)) = 256 ^ Z.of_nat (List.length bs) * 4 ^ k).
    { subst k. rewrite pow64, pow256. change 4 with (2 ^ 2). rewrite <- Z.pow_mul_r, <- Z.pow_add_r by lia. f_equal.
      clear -bs. revert bs. fix IH 1. intros [|x [|y [|z bs]]]; try reflexivity. cbn [sextets_of padding List.length].
      specialize (IH bs). lia. }
    rewrite XY. set (X := 256 ^ Z.of_nat (List.length bs) * 4 ^ k). set (W := 256 ^ Z.of_nat (List.length bs)) in *.
    assert (N : 262144 * (a / 4) + 4096 * (16 * (a mod 4) + b / 16) + 64 * (4 * (b mod 16) + c / 64) + c mod 64 = 65536 * a + 256 * b + c)
      by (unfold byte in *; Z.to_euclidean_division_equations; lia).
    replace (a / 4 * (64 * (64 * (64 * X))) + ((16 * (a mod 4) + b / 16) * (64 * (64 * X)) + ((4 * (b mod 16) + c / 64) * (64 * X) + (c mod 64 * X + number 256 bs * 4 ^ k))))
      with ((262144 * (a / 4) + 4096 * (16 * (a mod 4) + b / 16) + 64 * (4 * (b mod 16) + c / 64) + c mod 64) * X + number 256 bs * 4 ^ k) by ring.
    rewrite N. subst X. ring.
  - replace (S (S (S (List.length bs))) + 2)%nat with (List.length bs + 2 + 1 * 3)%nat by lia.
    rewrite Nat.div_add by lia. lia.
Qed.
