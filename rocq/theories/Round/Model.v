(** The precision-recall code of sumo/metrics/utils.py (216-363) and np.linspace in double
    arithmetic: every operation is rounded.  Values are rationals.  The numbers here are
    far below 2^1024, so overflow is not modelled. *)
From Coq Require Import List Bool QArith Qround Qabs ZArith.
From Verif.Base Require Import Py.
From Verif.Assoc Require Import Model.
From Verif.AP Require Import Model.
Import ListNotations.
Local Open Scope Q_scope.

(** * Rounding to double: nearest, ties to even *)
Definition two (e : Z) : Q := Qpower 2 e.
(** The integer k with 2^k <= |x| < 2^(k+1), for x other than 0. *)
Definition magnitude (x : Q) : Z :=
  let k := (Z.log2 (Z.abs (Qnum x)) - Z.log2 (Zpos (Qden x)))%Z in
  if Qle_bool (two k) (Qabs x) then k else (k - 1)%Z.
(** The distance of the doubles around x is 2 to this power. *)
Definition spacing_exponent (x : Q) : Z := Z.max (magnitude x - 52) (-1074).
(** The nearest integer, the even one of two. *)
Definition nearest_even (x : Q) : Z :=
  let f := Qfloor x in
  let r := x - inject_Z f in
  if Qltb r (1 # 2) then f else if Qltb (1 # 2) r then (f + 1)%Z else if Z.even f then f else (f + 1)%Z.
Definition round (x : Q) : Q :=
  if Qeq_bool x 0 then 0
  else let e := spacing_exponent x in Qred (inject_Z (nearest_even (x * two (- e))) * two e).

Definition fadd (x y : Q) : Q := round (x + y).
Definition fsub (x y : Q) : Q := round (x - y).
Definition fmul (x y : Q) : Q := round (x * y).
Definition fdiv (x y : Q) : Q := round (x / y).
(** An integer array as an operand of a float operation. *)
Definition of_int (n : nat) : Q := round (Qnat n).

(** * Average precision *)

(** Lines 281-293 and 337-349: the counts are int64. *)
Definition f_basic_pr (sorted : list Z) (n_gt : nat) : list Q * list Q :=
  let tps := map (fun m => negb (Z.eqb m 0)) sorted in
  let fps := map (fun m => Z.eqb m 0) sorted in
  let tp_sum := cumsum tps in
  let fp_sum := cumsum fps in
  (map2 (fun tp fp => fdiv (of_int tp) (fadd (of_int (tp + fp)) epsilon)) tp_sum fp_sum,
   map (fun tp => fdiv (of_int tp) (of_int n_gt)) tp_sum).

(** The loop of compute_auc_ap, lines 354-357.  Comparing and copying does not round. *)
Fixpoint f_auc_loop (i : nat) (precision recall : list Q) (ap : Q) : list Q * Q :=
  match i with
  | O => (precision, ap)
  | S j =>
      let precision' := interp_step i precision in
      f_auc_loop j precision' recall
        (fadd ap (fmul (get i precision') (fsub (get i recall) (get (i - 1) recall))))
  end.

(** np.mean of a vector: the entries are added in the order of a tree (numpy adds blocks
    pairwise; which tree is left open), then divided by the length. *)
Inductive sum_tree := Entry (i : nat) | Plus (a b : sum_tree).
Fixpoint f_sum (t : sum_tree) (l : list Q) : Q :=
  match t with
  | Entry i => get i l
  | Plus a b => fadd (f_sum a l) (f_sum b l)
  end.
Fixpoint entries (t : sum_tree) : list nat :=
  match t with Entry i => [i] | Plus a b => entries a ++ entries b end.
Definition f_mean (t : sum_tree) (l : list Q) : Q := fdiv (f_sum t l) (of_int (List.length l)).

Section AP.
  (** np.argsort. *)
  Variable argsort : list Q -> list nat.

  (** compute_auc_ap, utils.py 320-363. *)
  Definition f_compute_auc_ap (det_matches : list Z) (det_scores : list Q) (n_gt : nat)
    : res (Q * list Q * list Q) :=
    let* sorted := sorted_matches argsort det_matches det_scores in
    let '(precision, recall) := f_basic_pr sorted n_gt in
    match precision with
    | [] => Ok (0, precision, recall)
    | _ =>
      let '(precision', ap) := f_auc_loop (List.length precision - 1) precision recall 0 in
      Ok (fadd ap (fmul (get 0 precision') (get 0 recall)), precision', recall)
    end.

  (** compute_pr, utils.py 251-317, with interp and recall_samples. *)
  Definition f_compute_pr (det_matches : list Z) (det_scores : list Q) (n_gt : nat)
    (recall_samples : option (list Q)) (interp : bool) : res (list Q * list Q) :=
    let* sorted := sorted_matches argsort det_matches det_scores in
    let '(precision, recall) := f_basic_pr sorted n_gt in
    let precision := if interp then interp_loop (List.length precision - 1) precision
                     else precision in
    match recall_samples with
    | Some samples => Ok (sample_precision precision recall samples, samples)
    | None => Ok (precision, recall)
    end.

  (** compute_ap with area_under_curve=False, utils.py 243-246. *)
  Definition f_sampled_ap (tree : sum_tree) (det_matches : list Z) (det_scores : list Q) (n_gt : nat)
    (recall_samples : option (list Q)) (interp : bool) : res Q :=
    let* r := f_compute_pr det_matches det_scores n_gt recall_samples interp in
    Ok (f_mean tree (fst r)).
End AP.

(** * np.linspace(lo, hi, n + 1), evaluator.py 87-88: arange(n + 1) * step + lo, and the
    last entry is hi. *)
Definition f_linspace (lo hi : Q) (n : nat) : list Q :=
  let step := fdiv (fsub hi lo) (of_int n) in
  map (fun i => fadd (fmul (of_int i) step) lo) (seq 0 n) ++ [hi].
Definition default_thresholds : list Q := f_linspace (1 # 4) (3 # 4) 10.
Definition default_recall_samples : list Q := f_linspace 0 1 10.
(** The quotient of two counts, as IoU in voxel_evaluator.py and utils: intersection over
    union of two sets of voxels or points. *)
Definition f_ratio (a b : nat) : Q := fdiv (of_int a) (of_int b).
