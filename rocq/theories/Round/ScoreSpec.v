(** What the scores in double arithmetic should be. *)
From Coq Require Import List QArith Qabs ZArith Permutation.
From Verif.AP Require Import Model Spec.
From Verif.Scores Require Import Spec.
From Verif.Round Require Import Model Spec.
Import ListNotations.
Local Open Scope Q_scope.

(** np.mean adds n numbers in some order, each once. *)
Definition adds_each_once (order : nat -> sum_tree) : Prop :=
  forall n, (0 < n)%nat -> Permutation (entries (order n)) (seq 0 n).

(** [r], None for NaN, is the mean of [aps] up to k units of 2^-49. *)
Definition near_mean (k : nat) (aps : list Q) (r : option Q) : Prop :=
  match r with
  | None => aps = []
  | Some s => double s /\ 0 <= s /\ exists m, is_mean aps m /\ Qabs (s - m) <= Qnat k * 2 ^ (-49)
  end.
