(** Precision-recall curves and average precision of sumo/metrics/utils.py
    (lines 216-363).

    Floats are rationals: rounding is not modelled.  [n_gt] is assumed positive
    (numpy would return nan/inf for 0; both callers guard against it). *)
From Coq Require Import List Bool String QArith ZArith.
From Verif.Base Require Import Py Sort.
From Verif.Assoc Require Import Model.
Import ListNotations.

(** np.spacing(1) = 2^-52, utils.py 290 and 346. *)
Definition epsilon : Q := 1 # 4503599627370496.

Definition Qnat (n : nat) : Q := inject_Z (Z.of_nat n).

(** np.cumsum of a boolean vector, utils.py 286-287. *)
Fixpoint cumsum_from (acc : nat) (l : list bool) : list nat :=
  match l with
  | [] => []
  | b :: t => let a := (acc + if b then 1 else 0)%nat in a :: cumsum_from a t
  end.
Definition cumsum (l : list bool) : list nat := cumsum_from 0 l.

(** Elementwise operation on two vectors of the same length. *)
Fixpoint map2 {A B C} (f : A -> B -> C) (l : list A) (m : list B) : list C :=
  match l, m with
  | x :: l', y :: m' => f x y :: map2 f l' m'
  | _, _ => []
  end.

(** [l[i]] and [l[i] = v] on vectors; indices in this file are in range. *)
Definition get (i : nat) (l : list Q) : Q := nth i l 0.
Fixpoint upd (i : nat) (v : Q) (l : list Q) : list Q :=
  match l, i with
  | [], _ => []
  | _ :: t, O => v :: t
  | x :: t, S j => x :: upd j v t
  end.

(** np.mean; [None] stands for NaN (mean of an empty vector). *)
Definition Qsum (l : list Q) : Q := fold_right Qplus 0 l.
Definition np_mean (l : list Q) : option Q :=
  match l with [] => None | _ => Some (Qsum l / Qnat (List.length l)) end.

Section AP.
  (** np.argsort: any function returning an ascending ordering (numpy's default
      sort is not stable). *)
  Variable argsort : list Q -> list nat.

  (** Fancy indexing [v[indices]]; IndexError when an index is out of range. *)
  Definition fancy {A} (v : list A) (idx : list nat) : res (list A) :=
    mapM (fun i => match nth_error v i with Some x => Ok x | None => Err IndexError end) idx.

  (** Lines 277-278 and 333-334: sort by descending score. *)
  Definition sorted_matches (det_matches : list Z) (det_scores : list Q) : res (list Z) :=
    fancy det_matches (argsort (map Qopp det_scores)).

  (** Lines 281-293 and 337-349: precision and recall vectors. *)
  Definition basic_pr (sorted : list Z) (n_gt : nat) : list Q * list Q :=
    let tps := map (fun m => negb (Z.eqb m 0)) sorted in
    let fps := map (fun m => Z.eqb m 0) sorted in
    let tp_sum := cumsum tps in
    let fp_sum := cumsum fps in
    (map2 (fun tp fp => Qnat tp / (Qnat tp + Qnat fp + epsilon)) tp_sum fp_sum,
     map (fun tp => Qnat tp / Qnat n_gt) tp_sum).

  (** Body of the interpolation loop, lines 297-299 and 355-356. *)
  Definition interp_step (i : nat) (precision : list Q) : list Q :=
    if Qltb (get (i - 1) precision) (get i precision)
    then upd (i - 1) (get i precision) precision else precision.

  (** for i in range(len(precision) - 1, 0, -1), lines 297-299. *)
  Fixpoint interp_loop (i : nat) (precision : list Q) : list Q :=
    match i with
    | O => precision
    | S j => interp_loop j (interp_step i precision)
    end.

  (** np.searchsorted(recall, s, side='left') on an ascending vector: the number
      of leading entries below [s]. *)
  Fixpoint searchsorted (recall : list Q) (s : Q) : nat :=
    match recall with
    | [] => 0
    | r :: t => if Qltb r s then S (searchsorted t s) else 0
    end.

  (** Lines 308-317: precision at the sample points. *)
  Definition sample_precision (precision recall samples : list Q) : list Q :=
    map (fun s =>
      let i := searchsorted recall s in
      if Nat.ltb i (List.length precision) then get i precision else 0) samples.

  (** compute_pr, utils.py 251-317. *)
  Definition compute_pr (det_matches : list Z) (det_scores : list Q) (n_gt : nat)
    (recall_samples : option (list Q)) (interp : bool) : res (list Q * list Q) :=
    let* sorted := sorted_matches det_matches det_scores in
    let '(precision, recall) := basic_pr sorted n_gt in
    let precision := if interp then interp_loop (List.length precision - 1) precision
                     else precision in
    match recall_samples with
    | Some samples => Ok (sample_precision precision recall samples, samples)
    | None => Ok (precision, recall)
    end.

  (** The loop of compute_auc_ap, lines 354-357. *)
  Fixpoint auc_loop (i : nat) (precision recall : list Q) (ap : Q) : list Q * Q :=
    match i with
    | O => (precision, ap)
    | S j =>
        let precision' := interp_step i precision in
        auc_loop j precision' recall
          (ap + get i precision' * (get i recall - get (i - 1) recall))
    end.

  (** compute_auc_ap, utils.py 320-363. *)
  Definition compute_auc_ap (det_matches : list Z) (det_scores : list Q) (n_gt : nat)
    : res (Q * list Q * list Q) :=
    let* sorted := sorted_matches det_matches det_scores in
    let '(precision, recall) := basic_pr sorted n_gt in
    match precision with
    | [] => Ok (0, precision, recall)
    | _ =>
      let '(precision', ap) := auc_loop (List.length precision - 1) precision recall 0 in
      Ok (ap + get 0 precision' * get 0 recall, precision', recall)
    end.

  (** compute_ap, utils.py 216-248. *)
  Definition compute_ap (det_matches : list Z) (det_scores : list Q) (n_gt : nat)
    (recall_samples : option (list Q)) (interp area_under_curve : bool)
    : res (option Q * list Q * list Q) :=
    if area_under_curve then
      let* r := compute_auc_ap det_matches det_scores n_gt in
      let '(ap, precision, recall) := r in Ok (Some ap, precision, recall)
    else
      let* r := compute_pr det_matches det_scores n_gt recall_samples interp in
      let '(precision, recall) := r in Ok (np_mean precision, precision, recall).
End AP.
