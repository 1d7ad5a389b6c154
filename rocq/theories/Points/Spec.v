(** Nearest neighbours, overlap counts and errors, stated on point sets. *)
From Coq Require Import Reals List String QArith ZArith.
From Verif.Base Require Import Py Vec.
From Verif.Assoc Require Import Model Spec.
From Verif.Box Require Import Model Spec.
From Verif.Points Require Import Model.
Import ListNotations.
Open Scope R_scope.

(** Contract of BallTree.query with k=1 on a non-empty tree: the index is in range,
    the distance is that of the point at the index, and no point is closer. *)
Definition query_ok (query : list vec -> vec -> R * nat) : Prop :=
  forall tree q, tree <> [] ->
    let '(d, i) := query tree q in
    (i < List.length tree)%nat /\ d = dist q (nth i tree vzero) /\
    forall p, In p tree -> d <= dist q p.

(** [p] has a point of [ps] within [thresh]. *)
Definition near (thresh : R) (ps : list vec) (p : vec) : Prop :=
  exists q, In q ps /\ dist p q <= thresh.

(** [n] of the entries of [l] satisfy [P]. *)
Inductive counts {A} (P : A -> Prop) : list A -> nat -> Prop :=
| counts_nil : counts P [] 0
| counts_yes x l n : P x -> counts P l n -> counts P (x :: l) (S n)
| counts_no x l n : ~ P x -> counts P l n -> counts P (x :: l) n.

(** [d] is the distance from [p] to the set [ps]. *)
Definition set_distance (ps : list vec) (p : vec) (d : R) : Prop :=
  (exists q, In q ps /\ d = dist p q) /\ (forall q, In q ps -> d <= dist p q).

(** [r'] is a point of [rs] nearest to [r]. *)
Definition nearest_row (rs : list row) (r r' : row) : Prop :=
  In r' rs /\ forall q, In q rs -> dist (r_pos r) (r_pos r') <= dist (r_pos r) (r_pos q).

(** Root of the mean of squares. *)
Definition rms (l : list R) (x : R) : Prop :=
  0 <= x /\ x * x * INR (List.length l) = fold_right Rplus 0 (map (fun d => d * d) l).

(** Squared distance of two colors. *)
Fixpoint color_gap (a b : list R) : R :=
  match a, b with
  | x :: a', y :: b' => (x - y) * (x - y) + color_gap a' b'
  | _, _ => 0
  end.

(** Surface error of two point sets: RMS of the distances from each point to the
    other set; 0 by convention when one of them is empty. *)
Definition surface_error (ps qs : list vec) (v : R) : Prop :=
  ((ps = [] \/ qs = []) /\ v = 0) \/
  (ps <> [] /\ qs <> [] /\ exists d12 d21,
     Forall2 (set_distance qs) ps d12 /\ Forall2 (set_distance ps) qs d21 /\ rms (d12 ++ d21) v).

(** Color error of two non-empty sets: RMS over the points of both of the color
    difference to a nearest point of the other. *)
Definition color_error (rs ss : list row) (v : R) : Prop :=
  exists n12 n21,
    Forall2 (nearest_row ss) rs n12 /\ Forall2 (nearest_row rs) ss n21 /\ 0 <= v /\
    v * v * INR (List.length rs + List.length ss) =
      fold_right Rplus 0 (map (fun p => color_gap (r_col (fst p)) (r_col (snd p))) (combine rs n12)) +
      fold_right Rplus 0 (map (fun p => color_gap (r_col (fst p)) (r_col (snd p))) (combine ss n21)).

(** The values an evaluator averages when nothing is cached: one per threshold and
    correspondence, in the order of the tables. *)
Definition direct_values {A} (pts : A -> list row) (pair : list row -> list row -> res R)
  (ev : @evaluator A) : res (list R) :=
  let* per := mapM (fun t =>
      let* table := dgetE Qeq_bool t (ev_agnostic ev) in
      mapM (fun kc =>
        let* d := sgetE (fst kc) (ev_submission ev) in
        let* g := sgetE (c_gt (snd kc)) (ev_ground_truth ev) in
        pair (pts (e_info d)) (pts (e_info g))) table) (ev_thresholds ev) in
  Ok (List.concat per).

(** Mean, with [None] for infinity when there is nothing to average. *)
Definition mean_or_inf (l : list R) : option R :=
  match l with [] => None | _ => Some (fold_right Rplus 0 l / INR (List.length l)) end.
