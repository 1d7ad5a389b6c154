(** Angles between rotations and symmetry groups. *)
From Coq Require Import Reals List Bool String QArith.
From Verif.Base Require Import Py Vec.
From Verif.Assoc Require Import Model.
From Verif.Geom Require Import Model.
From Verif.Symm Require Import Model.
From Verif.PoseErr Require Import Model.
Import ListNotations.
Open Scope R_scope.

(** Contract of the logarithm: the logarithm of a rotation by [a] in [0, pi] about
    the unit axis [d] is a times the skew matrix of [d], of norm sqrt 2 * a. *)
Definition lognorm_ok (lognorm : mat -> R) : Prop :=
  forall d a, dot d d = 1 -> 0 <= a <= PI -> lognorm (AxisAngle d a) = sqrt 2 * a.

(** Turning [r] by [a] in [0, pi] about some axis gives [s]. *)
Definition angle_between (r s : mat) (a : R) : Prop :=
  0 <= a <= PI /\ exists d, dot d d = 1 /\ s = mmul r (AxisAngle d a).

(** Axis [axis] of a symmetry description. *)
Definition sym_of (s : symmetry) (axis : nat) : symmetry_type :=
  match axis with O => x_symmetry s | S O => y_symmetry s | _ => z_symmetry s end.

(** Rotations of the body that its symmetry makes indistinguishable: generated by
    half turns about two-fold axes, quarter turns about four-fold axes, any turn
    about cylindrical axes. *)
Inductive symmetry_group (s : symmetry) : mat -> Prop :=
| sg_id : symmetry_group s mid
| sg_two h axis : (axis < 3)%nat -> symmetry_group s h -> sym_of s axis = twoFold ->
    symmetry_group s (mmul h (axis_rot axis PI))
| sg_four h axis : (axis < 3)%nat -> symmetry_group s h -> sym_of s axis = fourFold ->
    symmetry_group s (mmul h (axis_rot axis (PI / 2)))
| sg_cyl h axis t : (axis < 3)%nat -> symmetry_group s h -> sym_of s axis = cylindrical ->
    symmetry_group s (mmul h (axis_rot axis t)).

(** Only two-fold and four-fold axes. *)
Definition discrete (s : symmetry) : Prop :=
  forall axis, (axis < 3)%nat -> sym_of s axis = none \/ sym_of s axis = twoFold \/ sym_of s axis = fourFold.

(** [a] is the least angle between the detection and the ground truth turned by a
    symmetry of the body. *)
Definition least_angle (s : symmetry) (det_rot gt_rot : mat) (a : R) : Prop :=
  (exists h, symmetry_group s h /\ angle_between det_rot (mmul gt_rot h) a) /\
  (forall h b, symmetry_group s h -> angle_between det_rot (mmul gt_rot h) b -> a <= b).

(** The evaluated correspondences of one threshold's table, as pairs of elements. *)
Definition evaluated_pairs (ev : @evaluator (pose * symmetry)) (table : sdict corr) (l : list (placed * placed)) : Prop :=
  exists flags : list (list (placed * placed)),
    Forall2 (fun kc pairs => exists d g,
      sget (c_det (snd kc)) (ev_submission ev) = Some d /\ sget (c_gt (snd kc)) (ev_ground_truth ev) = Some g /\
      pairs = if e_evaluated g then [(d, g)] else []) table flags /\
    l = List.concat flags.

(** [m] is the mean of the values [f] takes on [l]. *)
Definition mean_of {A} (l : list A) (f : A -> R -> Prop) (m : R) : Prop :=
  l <> [] /\ exists vs, Forall2 f l vs /\ m * INR (List.length l) = fold_right Rplus 0 vs.

(** Errors of a pair (detection, ground truth). *)
Definition rot_value (lognorm : mat -> R) (p : placed * placed) (v : R) : Prop :=
  rotation_error_1 lognorm (pR (fst (e_info (fst p)))) (pR (fst (e_info (snd p)))) (snd (e_info (snd p))) = Ok v.
Definition trans_value (p : placed * placed) (v : R) : Prop :=
  v = dist (pt (fst (e_info (fst p)))) (pt (fst (e_info (snd p)))).

Definition nonempty {A} (l : list A) : bool := match l with [] => false | _ => true end.
