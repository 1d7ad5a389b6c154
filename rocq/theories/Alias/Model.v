(** Which arrays the poses of a program share: Rot3 and Pose3 keep the arrays they are
    given, return them from their accessors, and use one array for all calls without
    arguments (geometry/rot3.pyx, geometry/pose3.pyx, semantic/project_object.py).
    And the settings dictionaries of scenes (semantic/project_scene.py). *)
From Coq Require Import Reals List Bool String Arith.
From Verif.Base Require Import Py Vec.
From Verif.Geom Require Import Model.
From Verif.Scene Require Import Model.
Import ListNotations.
Local Open Scope R_scope.

(** * Memory *)

(** The numbers in memory; [next] is the first unused cell. *)
Record heap := Heap { cells : nat -> R; next : nat }.
(** A new array. *)
Definition alloc (h : heap) (vals : list R) : list nat * heap :=
  (seq (next h) (List.length vals),
   Heap (fun a => if Nat.leb (next h) a && Nat.ltb a (next h + List.length vals) then nth (a - next h) vals 0 else cells h a)
        (next h + List.length vals)).
(** Assignment to one cell. *)
Definition store (h : heap) (a : nat) (v : R) : heap := Heap (fun x => if Nat.eqb x a then v else cells h x) (next h).

(** A view of an array is the list of its cells: a 3*3 matrix row by row, a vector. *)
Definition cell (l : list nat) (k : nat) : nat := nth k l 0%nat.
Definition mat_at (h : heap) (l : list nat) : mat :=
  let c k := cells h (cell l k) in M33 (c 0%nat) (c 1%nat) (c 2%nat) (c 3%nat) (c 4%nat) (c 5%nat) (c 6%nat) (c 7%nat) (c 8%nat).
Definition vec_at (h : heap) (l : list nat) : vec :=
  let c k := cells h (cell l k) in V (c 0%nat) (c 1%nat) (c 2%nat).
Definition mat_list (m : mat) : list R := [m00 m; m01 m; m02 m; m10 m; m11 m; m12 m; m20 m; m21 m; m22 m].
Definition vec_list (v : vec) : list R := [vx v; vy v; vz v].
(** np.transpose of a 3*3 matrix: a view of the same cells. *)
Definition transposed (l : list nat) : list nat := map (cell l) [0; 3; 6; 1; 4; 7; 2; 5; 8]%nat.
(** T[:3,:3] and T[:3,3] of a 3*4 matrix: views. *)
Definition left_part (l : list nat) : list nat := map (cell l) [0; 1; 2; 4; 5; 6; 8; 9; 10]%nat.
Definition last_column (l : list nat) : list nat := map (cell l) [3; 7; 11]%nat.

(** A Pose3: the cells of pose.R.R and of pose.t. *)
Record pref := PRef { r_cells : list nat; t_cells : list nat }.
Definition pose_at (h : heap) (p : pref) : pose := Pose (mat_at h (r_cells p)) (vec_at h (t_cells p)).

(** The default arguments, created when the modules are loaded: R and t of Pose3.__init__
    (pose3.pyx 25-26), position of ENU_camera and Maya_camera (pose3.pyx 112, 126). *)
Definition default_R : list nat := seq 0 9.
Definition default_t : list nat := seq 9 3.
Definition enu_position : list nat := seq 12 3.
Definition maya_position : list nat := seq 15 3.
Definition initial_heap : heap := Heap (fun a => nth a (mat_list mid) 0) 18.

(** * Programs *)

(** The variables of a program: poses, and arrays of shape (3,4) it made itself. *)
Record state := State { mem : heap; poses : list pref; arrays : list (list nat) }.
Definition initial : state := State initial_heap [] [].

Inductive op :=
  | NewPose                                (** Pose3(); ProjectObject without a pose, project_object.py 86 *)
  | NewFrom (r : mat) (t : vec)            (** Pose3(R, t) of two new arrays; from_xml, from_json, from_surreal *)
  | Share (i j : nat)                      (** Pose3(p.rotation(), q.translation()) *)
  | ENUCamera (roll pitch yaw : R)         (** without position, pose3.pyx 110-121 *)
  | MayaCamera (roll pitch yaw : R)        (** without position, pose3.pyx 123-135 *)
  | Compose (i j : nat)                    (** p.compose(q), 43-44; ProjectObject.transform_pose *)
  | Inverse (i : nat)                      (** p.inverse(), 46-48; rot3.pyx 42-44 *)
  | DeepCopy (i : nat)                     (** deepcopy(p), as in ProjectConverter *)
  | NewArray (c0 c1 c2 c3 : vec)           (** a new 3*4 array with these columns *)
  | FromArray (k : nat)                    (** Pose3.FromMatrix34(T), 103-107 *)
  | WriteR (i a b : nat) (v : R)           (** p.rotation().matrix()[a, b] = v *)
  | WriteT (i a : nat) (v : R)             (** p.translation()[a] = v *)
  | WriteArray (k a b : nat) (v : R).      (** T[a, b] = v *)

Definition var {A} (l : list A) (i : nat) : res A := match nth_error l i with Some x => Ok x | None => Err UnboundLocalError end.
Definition within (n i : nat) : res unit := if Nat.ltb i n then Ok tt else Err IndexError.

(** A pose with two new arrays. *)
Definition fresh_pose (h : heap) (r : mat) (t : vec) : pref * heap :=
  let '(rc, h) := alloc h (mat_list r) in
  let '(tc, h) := alloc h (vec_list t) in (PRef rc tc, h).

Definition add_pose (s : state) (h : heap) (p : pref) : state := State h (poses s ++ [p]) (arrays s).

Definition step (s : state) (o : op) : res state :=
  let h := mem s in
  match o with
  | NewPose => Ok (add_pose s h (PRef default_R default_t))
  | NewFrom r t => let '(p, h) := fresh_pose h r t in Ok (add_pose s h p)
  | Share i j =>
      let* p := var (poses s) i in
      let* q := var (poses s) j in
      Ok (add_pose s h (PRef (r_cells p) (t_cells q)))
  | ENUCamera roll pitch yaw =>
      let '(rc, h) := alloc h (mat_list (ENU_camera roll pitch yaw)) in Ok (add_pose s h (PRef rc enu_position))
  | MayaCamera roll pitch yaw =>
      let '(rc, h) := alloc h (mat_list (Maya_camera roll pitch yaw)) in Ok (add_pose s h (PRef rc maya_position))
  | Compose i j =>
      let* p := var (poses s) i in
      let* q := var (poses s) j in
      let pq := compose (pose_at h p) (pose_at h q) in
      let '(r, h) := fresh_pose h (pR pq) (pt pq) in Ok (add_pose s h r)
  | Inverse i =>
      let* p := var (poses s) i in
      let Rt := transposed (r_cells p) in
      let '(tc, h') := alloc h (vec_list (vopp (mvec (mat_at h Rt) (vec_at h (t_cells p))))) in
      Ok (add_pose s h' (PRef Rt tc))
  | DeepCopy i =>
      let* p := var (poses s) i in
      let '(r, h') := fresh_pose h (mat_at h (r_cells p)) (vec_at h (t_cells p)) in Ok (add_pose s h' r)
  | NewArray c0 c1 c2 c3 =>
      let '(l, h) := alloc h [vx c0; vx c1; vx c2; vx c3; vy c0; vy c1; vy c2; vy c3; vz c0; vz c1; vz c2; vz c3] in
      Ok (State h (poses s) (arrays s ++ [l]))
  | FromArray k => let* l := var (arrays s) k in Ok (add_pose s h (PRef (left_part l) (last_column l)))
  | WriteR i a b v =>
      let* p := var (poses s) i in
      let* _ := within 3 a in
      let* _ := within 3 b in
      Ok (State (store h (cell (r_cells p) (3 * a + b)) v) (poses s) (arrays s))
  | WriteT i a v =>
      let* p := var (poses s) i in
      let* _ := within 3 a in
      Ok (State (store h (cell (t_cells p) a) v) (poses s) (arrays s))
  | WriteArray k a b v =>
      let* l := var (arrays s) k in
      let* _ := within 3 a in
      let* _ := within 4 b in
      Ok (State (store h (cell l (4 * a + b)) v) (poses s) (arrays s))
  end.
Definition run (ops : list op) : res state := foldM step initial ops.

(** * Settings of scenes, project_scene.py 16-20 and 29-49 *)

Definition settings := list (string * option string).
(** The dictionaries in memory, by identity; 0 is DEFAULT_SETTINGS.  [scenes] tells which
    one each scene has. *)
Record scenes_state := Scenes { dicts : list settings; scenes : list nat }.
Definition scenes_initial : scenes_state := Scenes [default_settings] [].
Inductive scene_op :=
  | NewScene                               (** ProjectScene(type), 48 *)
  | NewSceneWith (d : settings)            (** with a new dictionary; load, 168 *)
  | ShareSettings (i : nat)                (** ProjectScene(type, settings=scene.settings) *)
  | TransformScene (i : nat)               (** transform_pose, 51-61: passes no settings *)
  | ConvertScene (i : nat)                 (** ProjectConverter.run: deepcopy(project.settings) *)
  | Set_ (i : nat) (k : string) (v : option string).   (** scene.settings[k] = v *)
Fixpoint put {A} (l : list A) (i : nat) (x : A) : list A :=
  match l, i with
  | [], _ => []
  | _ :: l, O => x :: l
  | y :: l, S i => y :: put l i x
  end.
Definition scene_step (s : scenes_state) (o : scene_op) : res scenes_state :=
  match o with
  | NewScene => Ok (Scenes (dicts s) (scenes s ++ [0%nat]))
  | NewSceneWith d => Ok (Scenes (dicts s ++ [d]) (scenes s ++ [List.length (dicts s)]))
  | ShareSettings i => let* d := var (scenes s) i in Ok (Scenes (dicts s) (scenes s ++ [d]))
  | TransformScene i => let* _ := var (scenes s) i in Ok (Scenes (dicts s) (scenes s ++ [0%nat]))
  | ConvertScene i =>
      let* d := var (scenes s) i in
      let* c := var (dicts s) d in
      Ok (Scenes (dicts s ++ [c]) (scenes s ++ [List.length (dicts s)]))
  | Set_ i k v =>
      let* d := var (scenes s) i in
      let* c := var (dicts s) d in
      Ok (Scenes (put (dicts s) d (sset k v c)) (scenes s))
  end.
Definition scene_run (ops : list scene_op) : res scenes_state := foldM scene_step scenes_initial ops.
Definition scene_settings (s : scenes_state) (i : nat) : res settings :=
  let* d := var (scenes s) i in var (dicts s) d.
