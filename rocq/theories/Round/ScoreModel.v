(** shape_score and semantics_score of sumo/metrics/evaluator.py in double arithmetic.  The
    association only compares (Assoc/Model.v), so it is the same as without rounding. *)
From Coq Require Import List Bool String QArith ZArith.
From Verif.Base Require Import Py.
From Verif.Assoc Require Import Model.
From Verif.AP Require Import Model.
From Verif.Scores Require Import Model.
From Verif.Round Require Import Model.
Import ListNotations.

Section Scores.
  Context {A : Type}.
  (** np.argsort, and the order in which np.mean adds n numbers. *)
  Variable argsort : list Q -> list nat.
  Variable order : nat -> sum_tree.

  (** np.mean; None is NaN. *)
  Definition f_np_mean (aps : list Q) : option Q :=
    match aps with [] => None | _ => Some (f_mean (order (List.length aps)) aps) end.

  (** One iteration of the loop of shape_score, lines 289-318. *)
  Definition f_shape_step (ev : @evaluator A) (t : Q) : res (list Q) :=
    let* data_assoc := dgetE Qeq_bool t (ev_agnostic ev) in
    let n_gt := count_evaluated (dvalues (ev_ground_truth ev)) in
    let '(ms, ss) := det_vectors data_assoc (dvalues (ev_submission ev)) in
    if Nat.ltb 0 n_gt then
      let* r := f_compute_auc_ap argsort ms ss n_gt in
      Ok [fst (fst r)]
    else Ok [].
  (** shape_score, evaluator.py 277-319. *)
  Definition f_shape_score (ev : @evaluator A) : res (option Q) :=
    let* aps := mapM (f_shape_step ev) (ev_thresholds ev) in
    Ok (f_np_mean (List.concat aps)).

  (** Lines 527-532. *)
  Definition f_cat_ap (ev : @evaluator A) (cv : string * (list Z * list Q)) : res (list Q) :=
    let '(cat, (ms, ss)) := cv in
    let n_gt := cat_count ev cat in
    if Nat.ltb 0 n_gt then
      let* r := f_compute_auc_ap argsort ms ss n_gt in
      Ok [fst (fst r)]
    else Ok [].
  (** Lines 496-532. *)
  Definition f_semantics_step (ev : @evaluator A) (t : Q) : res (list Q) :=
    let* vs := mapM (cat_vectors ev t) (ev_categories ev) in
    let* aps := mapM (f_cat_ap ev) (combine (ev_categories ev) vs) in
    Ok (List.concat aps).
  (** semantics_score, evaluator.py 475-533. *)
  Definition f_semantics_score (ev : @evaluator A) : res (option Q) :=
    let* aps := mapM (f_semantics_step ev) (ev_thresholds ev) in
    Ok (f_np_mean (List.concat aps)).
End Scores.
