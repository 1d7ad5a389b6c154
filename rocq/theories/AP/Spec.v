(** What the precision-recall curve and AP of a ranked list are, stated directly
    on the list of verdicts from the best-scored detection to the worst. *)
From Coq Require Import List Bool QArith ZArith Permutation Sorting.Sorted Arith.
From Verif.AP Require Import Model.
Import ListNotations.

(** np.argsort's contract: a permutation of the indices that lists the values
    in ascending order. *)
Definition argsort_ok (argsort : list Q -> list nat) : Prop :=
  forall l, Permutation (argsort l) (seq 0 (List.length l)) /\
    StronglySorted (fun i j => nth i l 0 <= nth j l 0) (argsort l).

(** Number of correct detections among the first [k]. *)
Definition correct_upto (k : nat) (ranked : list bool) : nat :=
  List.length (filter (fun b => b) (firstn k ranked)).

(** A ranking of detections given by verdicts and scores: the verdicts in some
    order of descending score. *)
Definition ranking (verdicts : list bool) (scores : list Q) (ranked : list bool) : Prop :=
  exists order, Permutation order (seq 0 (List.length scores)) /\
    StronglySorted (fun i j => nth j scores 0 <= nth i scores 0) order /\
    ranked = map (fun i => nth i verdicts false) order.

(** Precision and recall after the first [j+1] detections. *)
Definition raw_precision (ranked : list bool) (j : nat) : Q :=
  Qnat (correct_upto (S j) ranked) / (Qnat (S j) + epsilon).
Definition recall_at (ranked : list bool) (n_gt j : nat) : Q :=
  Qnat (correct_upto (S j) ranked) / Qnat n_gt.

(** [q] is the largest value of [f] on the indices below [n] satisfying [P]. *)
Definition is_max (n : nat) (P : nat -> Prop) (f : nat -> Q) (q : Q) : Prop :=
  (exists j, (j < n)%nat /\ P j /\ q == f j) /\
  (forall j, (j < n)%nat -> P j -> f j <= q).

(** Verdict of an entry of det_matches. *)
Definition verdict (m : Z) : bool := negb (Z.eqb m 0).

(** [best] gives, for each recall level k/n, the best precision at that recall or
    beyond. *)
Definition best_precision (ranked : list bool) (n_gt : nat) (best : nat -> Q) : Prop :=
  forall k, (1 <= k <= correct_upto (List.length ranked) ranked)%nat ->
    is_max (List.length ranked) (fun j => Qnat k / Qnat n_gt <= recall_at ranked n_gt j)
      (raw_precision ranked) (best k).

(** Average precision: the area under the step curve that gives each recall level
    the best precision at that recall or beyond; each correct detection raises
    recall by 1/n_gt. *)
Definition ap_of (ranked : list bool) (n_gt : nat) (ap : Q) : Prop :=
  exists best, best_precision ranked n_gt best /\
    ap == Qsum (map best (seq 1 (correct_upto (List.length ranked) ranked))) / Qnat n_gt.

(** [r'] ranks at least as well as [r]: every non-trivial prefix of [r] is matched
    by a prefix of [r'] that is no longer and has at least as many correct ones. *)
Definition at_least_as_good (r' r : list bool) : Prop :=
  forall j, (j < List.length r)%nat -> (0 < correct_upto (S j) r)%nat ->
    exists j', (j' <= j)%nat /\ (j' < List.length r')%nat /\
      (correct_upto (S j) r <= correct_upto (S j') r')%nat.

(** No two detections have the same score. *)
Definition distinct (ss : list Q) : Prop :=
  forall i j, (i < List.length ss)%nat -> (j < List.length ss)%nat -> nth i ss 0 == nth j ss 0 -> i = j.

