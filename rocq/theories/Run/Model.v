(** Evaluating a scene: evaluate_all of the three tracks (bb_evaluator.py 48-69,
    mesh_evaluator.py 151-174, voxel_evaluator.py 53-76) and the program
    tools/evaluate-one.py. *)
From Coq Require Import Reals List Bool String QArith Qreals.
From Verif.Base Require Import Py Vec Fs.
From Verif.Geom Require Import Model.
From Verif.Box Require Import Model.
From Verif.Symm Require Import Model.
From Verif.Assoc Require Import Model.
From Verif.AP Require Import Model.
From Verif.Scores Require Import Model.
From Verif.Points Require Import Model.
From Verif.PoseErr Require Import Model.
From Verif.Percept Require Import Model.
From Verif.Voxel Require Import Model.
From Verif.Settings Require Import Model.
Import ListNotations.
Local Open Scope string_scope.
Local Open Scope list_scope.

(** A number of the result: the scores computed with rationals and with reals, nan
    (np.mean of nothing) and math.inf. *)
Inductive number := Rat (q : Q) | Num (r : R) | Nan | Inf.

(** An element as the evaluators prepare it: the attributes of a ProjectObject that the
    metrics read, and posed_points and posed_bbox (bb_evaluator.py 38-44,
    mesh_evaluator.py 142-147, voxel_evaluator.py 38-49).  The box track sets no points. *)
Record prepared := Prepared {
  pr_pose : pose; pr_symmetry : symmetry; pr_bounds : box; pr_points : list row; pr_box : box }.

(** The same evaluator seen by a method that reads only some attributes. *)
Definition project_elem {A B} (f : A -> B) (e : elem A) : elem B :=
  mkElem (e_id e) (e_category e) (e_score e) (e_evaluated e) (f (e_info e)).
Definition project_scene {A B} (f : A -> B) (s : @scene A) : @scene B :=
  map (fun kv => (fst kv, project_elem f (snd kv))) s.
Definition project {A B} (f : A -> B) (ev : @evaluator A) : @evaluator B :=
  mkEvaluator (ev_thresholds ev) (ev_categories ev) (project_scene f (ev_submission ev)) (project_scene f (ev_ground_truth ev))
    (ev_cache ev) (ev_agnostic ev) (ev_category ev).
Definition placed_part (p : prepared) : pose * symmetry := (pr_pose p, pr_symmetry p).
Definition solid_part (p : prepared) : box * pose := (pr_bounds p, pr_pose p).

(** np.mean of possibly nothing, and inf for no correspondences. *)
Definition of_score (s : option Q) : number := match s with Some q => Rat q | None => Nan end.
Definition of_mean (s : option R) : number := match s with Some r => Num r | None => Nan end.
Definition of_error (e : option R) : number := match e with Some r => Num r | None => Inf end.

(** One entry of the perceptual settings as evaluator.py 790-796 and 928-935 read it. *)
Definition as_dict (v : value) : res settings := match v with Dict d => Ok d | _ => Err TypeError end.
Definition number_at (k : string) (d : settings) : res R :=
  let* v := sgetE k d in let* q := as_number v in Ok (Q2R q).
Definition gaussian_at (k : string) (d : settings) : res gaussian :=
  let* v := sgetE k d in
  let* c := as_dict v in
  let* w := number_at "weight" c in
  let* m := number_at "mean" c in
  let* s := number_at "std_dev" c in
  Ok (Gaussian w m s).
(** settings["perceptual"], evaluator.py 788-796. *)
Definition perceptual_at (d : settings) : res perceptual :=
  let* v := sgetE "perceptual" d in
  let* p := as_dict v in
  let* a := gaussian_at "room_scale" p in
  let* b := gaussian_at "true_obj_scale" p in
  let* c := gaussian_at "relative_obj_scale" p in
  let* e := gaussian_at "translation" p in
  let* f := gaussian_at "elevation" p in
  let* m := number_at "missed_weight" p in
  let* x := number_at "extra_weight" p in
  Ok (Perceptual a b c e f m x).

Section Run.
  (** np.argsort, the norm of the rotation vector, the k-d tree. *)
  Variable argsort : list Q -> list nat.
  Variable lognorm : mat -> R.
  Variable query : list vec -> vec -> R * nat.

  (** perceptual_score, evaluator.py 535-558; the settings are read once per threshold. *)
  Definition perceptual_with (d : settings) (ev : @evaluator prepared) : res (option R) :=
    match ev_thresholds ev with
    | [] => Ok None
    | _ => let* params := perceptual_at d in perceptual_score (project solid_part ev) params
    end.

  (** BBEvaluator.evaluate_all, bb_evaluator.py 48-69. *)
  Definition evaluate_all_bb (d : settings) (ev : @evaluator prepared) : res (sdict number) :=
    let* shape := shape_score argsort ev in
    let* pe := pose_error lognorm (project placed_part ev) in
    let* semantics := semantics_score argsort ev in
    let* percept := perceptual_with d ev in
    Ok [("shape_score", of_score shape); ("rotation_error", of_error (option_map fst pe));
        ("translation_error", of_error (option_map snd pe)); ("semantics_score", of_score semantics);
        ("perceptual_score", of_mean percept)].

  (** MeshEvaluator.evaluate_all, mesh_evaluator.py 151-174, and
      VoxelEvaluator.evaluate_all, voxel_evaluator.py 53-76: the same lines.  The
      argument [voxels=True] the voxel track gives to the two distances is not used
      there (utils.py 470-590). *)
  Definition evaluate_all_surface (d : settings) (ev : @evaluator prepared) : res (sdict number) :=
    let* shape := shape_score argsort ev in
    let* pe := pose_error lognorm (project placed_part ev) in
    let* points := points_rmsssd query pr_points ev in
    let* color := color_rmsssd query pr_points ev in
    let* semantics := semantics_score argsort ev in
    let* percept := perceptual_with d ev in
    Ok [("shape_score", of_score shape); ("rotation_error", of_error (option_map fst pe));
        ("translation_error", of_error (option_map snd pe)); ("rms_points_error", of_error points);
        ("rms_color_error", of_error color); ("semantics_score", of_score semantics);
        ("perceptual_score", of_mean percept)].

  (** * tools/evaluate-one.py *)

  (** A loaded ProjectScene: its type and elements.  [S] is what the mesh and voxel
      tracks look at. *)
  Context {S : Type}.
  Record object := Object { ob_pose : pose; ob_symmetry : symmetry; ob_bounds : box; ob_shape : S }.
  Record loaded := Loaded { l_type : string; l_elements : @scene object }.
  (** ProjectScene.load; modelled in Scene, where it is shown to change no file. *)
  Variable load : path -> string -> res loaded.
  (** sample_element (modelled in Sample); random, hence a function of the element, which
      is in one scene only. *)
  Variable sample : Q -> elem object -> res (list row).
  (** The voxel grid of an object. *)
  Variable grid_of : S -> grid.
  (** _shape_similarity of the box track, a quotient of volumes computed by pymesh. *)
  Variable box_similarity : elem prepared -> elem prepared -> Q.

  (** What the constructors store, bb_evaluator.py 38-44, mesh_evaluator.py 142-147,
      voxel_evaluator.py 38-49. *)
  Definition bb_prepare (e : elem object) : res prepared :=
    let o := e_info e in
    Ok (Prepared (ob_pose o) (ob_symmetry o) (ob_bounds o) [] (posed_bbox (ob_pose o) (ob_bounds o))).
  Definition mesh_sample (density : Q) (e : elem object) : res prepared :=
    let o := e_info e in
    let* points := sample density e in
    Ok (Prepared (ob_pose o) (ob_symmetry o) (ob_bounds o) points (mesh_bbox points)).
  Definition voxel_prepare (e : elem object) : res prepared :=
    let o := e_info e in
    let* pb := prepare (ob_pose o) (grid_of (ob_shape o)) in
    Ok (Prepared (ob_pose o) (ob_symmetry o) (ob_bounds o) (fst pb) (snd pb)).
  (** _shape_similarity of the mesh and voxel tracks, mesh_evaluator.py 206-221 and
      voxel_evaluator.py 110-125. *)
  Definition surface_similarity (tol : Q) (e1 e2 : elem prepared) : Q :=
    points_iou query (pr_points (e_info e1)) (pr_box (e_info e1)) (pr_points (e_info e2)) (pr_box (e_info e2)) (Q2R tol).

  (** evaluator_lut[project_type](sub, gt, settings), 37-43, and the call of
      evaluate_all, 44.  [None] for a type that is not in the table. *)
  Definition evaluator_lut (ty : string) :
    option ((@scene object -> @scene object -> option nat -> list (nat * settings) -> list (nat * settings) * res (instance prepared)) *
            (settings -> @evaluator prepared -> res (sdict number))) :=
    if String.eqb ty "meshes" then Some (mesh_init mesh_sample surface_similarity, evaluate_all_surface)
    else if String.eqb ty "voxels" then Some (voxel_init voxel_prepare surface_similarity, evaluate_all_surface)
    else if String.eqb ty "bounding_box" then Some (bb_init bb_prepare box_similarity, evaluate_all_bb)
    else None.

  (** main, 21-55: the lines printed, a label and a number each.  The settings are a new
      dictionary.  Left out: argparse; a path is split at its last component. *)
  Definition main (gt_path sub_path : path) : res (list (string * number)) :=
    let* gt_scene := load (dirname gt_path) (basename gt_path) in
    let* sub_scene := load (dirname sub_path) (basename sub_path) in
    if negb (String.eqb (l_type gt_scene) (l_type sub_scene)) then Err ValueError
    else
      match evaluator_lut (l_type gt_scene) with
      | None => Err KeyError
      | Some (eval_class, evaluate_all) =>
          let '(st, out) := eval_class (l_elements sub_scene) (l_elements gt_scene) (Some 0%nat) [(0%nat, default_settings)] in
          let* o := out in
          let* ev := current o st in
          let* d := look (i_settings o) st in
          let* result := evaluate_all d ev in
          let* shape := sgetE "shape_score" result in
          let* translation := sgetE "translation_error" result in
          let* rotation := sgetE "rotation_error" result in
          let* semantics := sgetE "semantics_score" result in
          let* percept := sgetE "perceptual_score" result in
          Ok [("Shape Score (1 is best)", shape); ("Translation Error (0 is best)", translation);
              ("Rotation Error (0 is best)", rotation); ("Semantics Score (1 is best)", semantics);
              ("Perceptual Score (1 is best)", percept)]
      end.
End Run.
Arguments object S : clear implicits. Arguments loaded S : clear implicits.
