(** Doubles and rounding, independently of how [round] finds them. *)
From Coq Require Import List Bool QArith Qabs ZArith.
From Verif.AP Require Import Model Spec.
Import ListNotations.
Local Open Scope Q_scope.

(** m * 2^e with at most 53 bits (IEEE 754 binary64 without its upper limit). *)
Definition double (x : Q) : Prop :=
  exists m e : Z, (Z.abs m < 2 ^ 53)%Z /\ (-1074 <= e)%Z /\ x == inject_Z m * 2 ^ e.

(** y is the nearest double to x; of two nearest ones the one that is an even multiple of
    their distance. *)
Definition rounds_to (x y : Q) : Prop :=
  double y /\
  (forall z, double z -> Qabs (x - y) <= Qabs (x - z)) /\
  (forall z, double z -> ~ z == y -> Qabs (x - z) == Qabs (x - y) ->
     exists m : Z, y == inject_Z (2 * m) * Qabs (z - y)).

(** Precision without the epsilon, for position j (from 0). *)
Definition exact_precision (ranked : list bool) (j : nat) : Q := Qnat (correct_upto (S j) ranked) / Qnat (S j).
(** Average precision with it: each correct detection counts with the best precision at
    its recall or beyond. *)
Definition exact_best (ranked : list bool) (best : nat -> Q) : Prop :=
  forall k, (1 <= k <= correct_upto (List.length ranked) ranked)%nat ->
    is_max (List.length ranked) (fun j => (k <= correct_upto (S j) ranked)%nat) (exact_precision ranked) (best k).
Definition exact_ap (ranked : list bool) (n_gt : nat) (ap : Q) : Prop :=
  exists best, exact_best ranked best /\
    ap == Qsum (map best (seq 1 (correct_upto (List.length ranked) ranked))) / Qnat n_gt.

(** At most 2^48. *)
Definition moderate (n : nat) : Prop := (Z.of_nat n <= 2 ^ 48)%Z.

(** The precision that the code computes at position j: exact up to rounding, except that
    the first is the double below 1 by 2^-52 when the first detection is correct. *)
Definition computed_precision (ranked : list bool) (j : nat) (q : Q) : Prop :=
  match j with
  | O => q == if nth 0 ranked false then 1 - 2 ^ (-52) else 0
  | S _ => rounds_to (exact_precision ranked j) q
  end.

(** a / b reaches the default threshold number i, 0.25 + i * 0.05. *)
Definition reaches_threshold (i a b : nat) : Prop :=
  if Nat.eqb i 7 then (12 * b < 20 * a)%nat else ((5 + i) * b <= 20 * a)%nat.
(** a / b reaches the default recall sample number i, i / 10. *)
Definition reaches_sample (i a b : nat) : Prop :=
  if Nat.eqb i 3 || Nat.eqb i 6 || Nat.eqb i 7 then (i * b < 10 * a)%nat else (i * b <= 10 * a)%nat.
