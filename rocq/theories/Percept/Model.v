(** The perceptual score of sumo/metrics/evaluator.py.

    Floats are reals.  An element's information is its bounding box (in its own
    coordinates) and its pose. *)
From Coq Require Import Reals List Bool String QArith.
From Verif.Base Require Import Py Vec.
From Verif.Geom Require Import Model.
From Verif.Box Require Import Model.
From Verif.Assoc Require Import Model.
Import ListNotations.
Local Open Scope string_scope.
Local Open Scope list_scope.
Local Open Scope R_scope.

(** The dictionaries of settings["perceptual"], evaluator.py 227-255. *)
Record gaussian := Gaussian { weight : R; mean : R; std_dev : R }.
Record perceptual := Perceptual {
  p_room_scale : gaussian; p_true_obj_scale : gaussian; p_relative_obj_scale : gaussian;
  p_translation : gaussian; p_elevation : gaussian; p_missed_weight : R; p_extra_weight : R }.
Definition default_perceptual : perceptual :=
  Perceptual (Gaussian 100 1 (15 / 100)) (Gaussian 5 1 (18 / 100)) (Gaussian 5 1 (18 / 100))
             (Gaussian 5 0 (5 / 10)) (Gaussian 5 0 (5 / 1000)) 25 25.

Definition solid := elem (box * pose).
Definition e_bounds (e : solid) : box := fst (e_info e).
Definition e_t (e : solid) : vec := pt (snd (e_info e)).

(** _gaussian_function, 914-940.  A deviation of 0 is the error of Python's floats;
    numpy's would give nan or 0. *)
Definition _gaussian_function (s : gaussian) (x : R) : res R :=
  if Req_EM_T (std_dev s) 0 then Err ZeroDivisionError
  else Ok (weight s * exp (- (1 / 2) * (x - mean s) ^ 2 / std_dev s ^ 2)).

(** x_size * z_size, 883-885 and 897-899. *)
Definition area (e : solid) : R :=
  (vx (max_corner (e_bounds e)) - vx (min_corner (e_bounds e))) * (vz (max_corner (e_bounds e)) - vz (min_corner (e_bounds e))).

(** _room_scale, 864-908. *)
Definition _room_scale (ev : @evaluator (box * pose)) : R :=
  let gt_floor_area := fold_left (fun a e =>
    if (String.eqb (e_category e) "floor" && e_evaluated e)%bool then a + area e else a) (dvalues (ev_ground_truth ev)) 0 in
  let sub_floor_area := fold_left (fun a e =>
    if String.eqb (e_category e) "floor" then a + area e else a) (dvalues (ev_submission ev)) 0 in
  if Rlt_dec 0 gt_floor_area then sub_floor_area / gt_floor_area else 0.

(** The body of the loop over the matches, 802-840; the state is perceptual_score and
    max_score. *)
Definition match_step (ev : @evaluator (box * pose)) (params : perceptual) (room_scale : R) (st : R * R) (c : corr) : res (R * R) :=
  let* gt_element := sgetE (c_gt c) (ev_ground_truth ev) in
  let* det_element := sgetE (c_det c) (ev_submission ev) in
  if negb (e_evaluated gt_element) then Ok st
  else
    let gt_volume := volume (e_bounds gt_element) in
    let gt_roomscale_volume := gt_volume * room_scale in
    let det_volume := volume (e_bounds det_element) in
    let* st :=
      if Rlt_dec 0 gt_volume then
        let* g := _gaussian_function (p_true_obj_scale params) (det_volume / gt_volume) in
        Ok (fst st + g, snd st + weight (p_true_obj_scale params))
      else Ok st in
    let* st :=
      if Rlt_dec 0 gt_roomscale_volume then
        let* g := _gaussian_function (p_relative_obj_scale params) (det_volume / gt_roomscale_volume) in
        Ok (fst st + g, snd st + weight (p_relative_obj_scale params))
      else Ok st in
    let d := vsub (e_t det_element) (e_t gt_element) in
    let* g := _gaussian_function (p_translation params) (sqrt (vx d * vx d + vz d * vz d)) in
    let st := (fst st + g, snd st + weight (p_translation params)) in
    let* g := _gaussian_function (p_elevation params) (vy d) in
    Ok (fst st + g, snd st + weight (p_elevation params)).

(** _perceptual_score_1, 768-862. *)
Definition _perceptual_score_1 (ev : @evaluator (box * pose)) (params : perceptual) (matched : sdict corr)
    (missed extra : list string) (normalized : bool) : res R :=
  let room_scale := _room_scale ev in
  let* g := _gaussian_function (p_room_scale params) room_scale in
  let* (score, max_score) := foldM (match_step ev params room_scale) (g, weight (p_room_scale params)) (dvalues matched) in
  let* score := foldM (fun s gt_id =>
      let* e := sgetE gt_id (ev_ground_truth ev) in
      Ok (if e_evaluated e then s - p_missed_weight params * volume (e_bounds e) else s)) score missed in
  let* score := foldM (fun s det_id =>
      let* e := sgetE det_id (ev_submission ev) in
      Ok (s - p_extra_weight params * volume (e_bounds e))) score extra in
  if normalized then
    if Rle_dec score 0 then Ok 0
    else if Req_EM_T max_score 0 then Err ZeroDivisionError else Ok (score / max_score)
  else Ok score.

(** One turn of the loop of perceptual_score, 547-556.  The sets are lists in the order
    of the dictionaries; the order only matters for rounding. *)
Definition perceptual_step (ev : @evaluator (box * pose)) (params : perceptual) (t : Q) : res R :=
  let* table := dgetE Qeq_bool t (ev_agnostic ev) in
  let matched_det_ids := map c_det (dvalues table) in
  let matched_gt_ids := map c_gt (dvalues table) in
  let missed := filter (fun k => negb (str_in k matched_gt_ids)) (dkeys (ev_ground_truth ev)) in
  let extra := filter (fun k => negb (str_in k matched_det_ids)) (dkeys (ev_submission ev)) in
  _perceptual_score_1 ev params table missed extra true.

(** perceptual_score, 535-558.  np.mean of no numbers is nan: None. *)
Definition perceptual_score (ev : @evaluator (box * pose)) (params : perceptual) : res (option R) :=
  let* scores := mapM (perceptual_step ev params) (ev_thresholds ev) in
  Ok (match scores with [] => None | _ => Some (fold_right Rplus 0 scores / INR (List.length scores)) end).
