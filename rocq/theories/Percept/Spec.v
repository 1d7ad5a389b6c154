(** What the perceptual score should be: every measured quantity is scored by a bell
    curve, missed and extra objects cost their volume, and the result is compared with
    the best possible one. *)
From Coq Require Import Reals List String QArith.
From Verif.Base Require Import Py Vec.
From Verif.Geom Require Import Model.
From Verif.Box Require Import Model Spec.
From Verif.Assoc Require Import Model Spec.
From Verif.Percept Require Import Model.
Import ListNotations.
Local Open Scope string_scope.
Local Open Scope list_scope.
Local Open Scope R_scope.

(** The list has exactly the objects with the property, each once. *)
Definition enumerates {A} (l : list A) (P : A -> Prop) : Prop := NoDup l /\ forall x, In x l <-> P x.

Definition total {A} (f : A -> R) (l : list A) : R := fold_right (fun x s => f x + s) 0 l.

(** The bell curve. *)
Definition bell (g : gaussian) (x : R) : R := weight g * exp (- ((x - mean g) * (x - mean g)) / (2 * (std_dev g * std_dev g))).

(** Floor area on the ground plane (x and z). *)
Definition footprint (b : box) : R := let d := vsub (max_corner b) (min_corner b) in vx d * vz d.
Definition floor_area (l : list solid) : R :=
  total (fun e => if string_dec (e_category e) "floor" then footprint (e_bounds e) else 0) l.
Definition size_of (e : solid) : R := let d := vsub (max_corner (e_bounds e)) (min_corner (e_bounds e)) in vx d * vy d * vz d.

(** Submitted by true floor area; 0 without one. *)
Definition room_ratio (sub gt : list solid) : R :=
  if Rlt_dec 0 (floor_area (filter e_evaluated gt)) then floor_area sub / floor_area (filter e_evaluated gt) else 0.

(** Distance on the ground plane. *)
Definition ground_distance (p q : vec) : R := sqrt ((vx p - vx q) ^ 2 + (vz p - vz q) ^ 2).

(** What is measured for a matched pair: size, size relative to the room, place and
    elevation.  Sizes are not measured against an empty box. *)
Definition pair_terms (params : perceptual) (room : R) (p : solid * solid) : list (gaussian * R) :=
  let (d, g) := p in
  (if Rlt_dec 0 (size_of g) then [(p_true_obj_scale params, size_of d / size_of g)] else []) ++
  (if Rlt_dec 0 (size_of g * room) then [(p_relative_obj_scale params, size_of d / (size_of g * room))] else []) ++
  [(p_translation params, ground_distance (e_t d) (e_t g)); (p_elevation params, vy (e_t d) - vy (e_t g))].
Definition all_terms (params : perceptual) (room : R) (matched : list (solid * solid)) : list (gaussian * R) :=
  (p_room_scale params, room) :: flat_map (pair_terms params room) matched.

Definition raw_score (params : perceptual) (room : R) (matched : list (solid * solid)) (missed extra : list solid) : R :=
  total (fun t => bell (fst t) (snd t)) (all_terms params room matched)
  - p_missed_weight params * total size_of missed - p_extra_weight params * total size_of extra.
Definition best_score (params : perceptual) (room : R) (matched : list (solid * solid)) : R :=
  total (fun t => weight (fst t)) (all_terms params room matched).
Definition final_score (params : perceptual) (room : R) (matched : list (solid * solid)) (missed extra : list solid) : R :=
  if Rle_dec (raw_score params room matched missed extra) 0 then 0
  else raw_score params room matched missed extra / best_score params room matched.

(** The matched pairs with evaluated truth, the evaluated objects without and the
    detections without a partner. *)
Definition parts (sub gt : list solid) (assoc : sdict corr) (matched : list (solid * solid)) (missed extra : list solid) : Prop :=
  enumerates matched (fun p => pairs sub gt assoc (fst p) (snd p) /\ e_evaluated (snd p) = true) /\
  enumerates missed (fun g => In g gt /\ e_evaluated g = true /\ forall d, ~ pairs sub gt assoc d g) /\
  enumerates extra (fun d => In d sub /\ forall g, ~ pairs sub gt assoc d g).
Definition scored (params : perceptual) (sub gt : list solid) (assoc : sdict corr) (s : R) : Prop :=
  exists matched missed extra, parts sub gt assoc matched missed extra /\
    s = final_score params (room_ratio sub gt) matched missed extra.

(** Settings that make sense. *)
Definition curves (params : perceptual) : list gaussian :=
  [p_room_scale params; p_true_obj_scale params; p_relative_obj_scale params; p_translation params; p_elevation params].
Definition sane (params : perceptual) : Prop :=
  (forall g, In g (curves params) -> 0 <= weight g /\ std_dev g <> 0) /\ 0 <= p_missed_weight params /\ 0 <= p_extra_weight params.
(** Equal sizes and places are best. *)
Definition centred (params : perceptual) : Prop :=
  mean (p_room_scale params) = 1 /\ mean (p_true_obj_scale params) = 1 /\ mean (p_relative_obj_scale params) = 1 /\
  mean (p_translation params) = 0 /\ mean (p_elevation params) = 0.

(** The submission has the same objects; scores and "evaluated" do not matter. *)
Definition same_object (d g : solid) : Prop := e_id d = e_id g /\ e_category d = e_category g /\ e_info d = e_info g.
Definition same_objects (sub gt : list solid) : Prop := Forall2 same_object sub gt.

(** Every quantity is at its best value and no missed or extra object costs anything. *)
Definition perfect (params : perceptual) (sub gt : list solid) (assoc : sdict corr) : Prop :=
  exists matched missed extra, parts sub gt assoc matched missed extra /\
    (forall t, In t (all_terms params (room_ratio sub gt) matched) -> snd t = mean (fst t)) /\
    (forall g, In g missed -> p_missed_weight params * size_of g = 0) /\ (forall d, In d extra -> p_extra_weight params * size_of d = 0).

(** Box3d never has its corners the wrong way round. *)
Definition proper (l : list solid) : Prop := forall e, In e l -> normalized (e_bounds e).

(** An object is recognised: it is close enough to itself and closer than to any other. *)
Definition recognises (sim : solid -> solid -> Q) (sub gt : list solid) (ts : list Q) : Prop :=
  forall d g, In d sub -> In g gt -> same_object d g ->
    (forall t, In t ts -> (t <= sim d g)%Q) /\ (forall g', In g' gt -> g' <> g -> (sim d g' < sim d g)%Q).
