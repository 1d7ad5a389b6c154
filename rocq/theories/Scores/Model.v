(** shape_score and semantics_score of sumo/metrics/evaluator.py. *)
From Coq Require Import List Bool String QArith ZArith.
From Verif.Base Require Import Py Sort.
From Verif.Assoc Require Import Model.
From Verif.AP Require Import Model.
Import ListNotations.

Section Scores.
  Context {A : Type}.
  (** np.argsort, see AP/Model.v. *)
  Variable argsort : list Q -> list nat.

  (** Line 286: number of elements with evaluated == True. *)
  Definition count_evaluated (els : list (elem A)) : nat :=
    List.length (filter e_evaluated els).

  (** Loop body of lines 296-308 (and 513-525): what one detection appends to
      (det_matches, det_scores). *)
  Definition det_entry (data_assoc : sdict corr) (e : elem A) : list (Z * Q) :=
    match sget (e_id e) data_assoc with
    | Some c => if c_eval c then [(1%Z, e_score e)] else []
    | None => [(0%Z, e_score e)]
    end.

  (** Lines 294-308: (det_matches, det_scores) for one threshold. *)
  Definition det_vectors (data_assoc : sdict corr) (els : list (elem A)) : list Z * list Q :=
    let l := flat_map (det_entry data_assoc) els in (map fst l, map snd l).

  (** One iteration of the loop of shape_score, lines 289-318: the APs appended. *)
  Definition shape_step (ev : @evaluator A) (t : Q) : res (list (option Q)) :=
    let* data_assoc := dgetE Qeq_bool t (ev_agnostic ev) in
    let n_gt := count_evaluated (dvalues (ev_ground_truth ev)) in
    let '(ms, ss) := det_vectors data_assoc (dvalues (ev_submission ev)) in
    if Nat.ltb 0 n_gt then
      let* r := compute_ap argsort ms ss n_gt None true true in
      Ok [fst (fst r)]
    else Ok [].

  (** np.mean of a list of APs; NaN ([None]) if the list is empty or holds one. *)
  Definition mean_opt (aps : list (option Q)) : option Q :=
    if existsb (fun a => match a with None => true | _ => false end) aps then None
    else np_mean (flat_map (fun a => match a with Some q => [q] | None => [] end) aps).

  (** shape_score, evaluator.py 277-319.  The recall_samples argument is passed on
      by the code but compute_ap ignores it when area_under_curve is left at its
      default True, so it is given as None here. *)
  Definition shape_score (ev : @evaluator A) : res (option Q) :=
    let* aps := mapM (shape_step ev) (ev_thresholds ev) in
    Ok (mean_opt (List.concat aps)).

  (** Lines 489-494: n_gt[cat] for a listed category. *)
  Definition cat_count (ev : @evaluator A) (cat : string) : nat :=
    count_evaluated (filter (fun e => String.eqb (e_category e) cat) (dvalues (ev_ground_truth ev))).

  (** Lines 507-525: (det_matches[cat], det_scores[cat]).  The code fills all
      categories in one pass over the submission; the entry of [cat] receives the
      detections of that category in order.  _category_data_assoc[cat][t] is
      looked up only when there is such a detection. *)
  Definition cat_vectors (ev : @evaluator A) (t : Q) (cat : string) : res (list Z * list Q) :=
    match filter (fun e => String.eqb (e_category e) cat) (dvalues (ev_submission ev)) with
    | [] => Ok ([], [])
    | els =>
        let* tables := sgetE cat (ev_category ev) in
        let* data_assoc := dgetE Qeq_bool t tables in
        Ok (det_vectors data_assoc els)
    end.

  (** Lines 527-532: the AP of one category, if it has evaluated elements. *)
  Definition cat_ap (ev : @evaluator A) (cv : string * (list Z * list Q)) : res (list (option Q)) :=
    let '(cat, (ms, ss)) := cv in
    let n_gt := cat_count ev cat in
    if Nat.ltb 0 n_gt then
      let* r := compute_ap argsort ms ss n_gt None false true in
      Ok [fst (fst r)]
    else Ok [].

  (** One iteration over the thresholds, lines 496-532. *)
  Definition semantics_step (ev : @evaluator A) (t : Q) : res (list (option Q)) :=
    let* vs := mapM (cat_vectors ev t) (ev_categories ev) in
    let* aps := mapM (cat_ap ev) (combine (ev_categories ev) vs) in
    Ok (List.concat aps).

  (** semantics_score, evaluator.py 475-533. *)
  Definition semantics_score (ev : @evaluator A) : res (option Q) :=
    let* aps := mapM (semantics_step ev) (ev_thresholds ev) in
    Ok (mean_opt (List.concat aps)).
End Scores.
