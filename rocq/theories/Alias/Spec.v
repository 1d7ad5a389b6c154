(** Poses as values, and where the arrays of a pose come from. *)
From Coq Require Import Reals List Bool String Arith.
From Verif.Base Require Import Py Vec.
From Verif.Geom Require Import Model.
From Verif.Alias Require Import Model.
Import ListNotations.
Local Open Scope R_scope.

(** * Values: what a program computes if poses were values that never change *)
Definition columns := (vec * vec * vec * vec)%type.
Record vstate := VState { v_poses : list pose; v_arrays : list columns }.
Definition v_add (s : vstate) (p : pose) : vstate := VState (v_poses s ++ [p]) (v_arrays s).
Definition v_step (s : vstate) (o : op) : res vstate :=
  match o with
  | NewPose => Ok (v_add s pose_id)
  | NewFrom r t => Ok (v_add s (Pose r t))
  | Share i j => let* p := var (v_poses s) i in let* q := var (v_poses s) j in Ok (v_add s (Pose (pR p) (pt q)))
  | ENUCamera roll pitch yaw => Ok (v_add s (Pose (ENU_camera roll pitch yaw) vzero))
  | MayaCamera roll pitch yaw => Ok (v_add s (Pose (Maya_camera roll pitch yaw) vzero))
  | Compose i j => let* p := var (v_poses s) i in let* q := var (v_poses s) j in Ok (v_add s (compose p q))
  | Inverse i => let* p := var (v_poses s) i in Ok (v_add s (inverse p))
  | DeepCopy i => let* p := var (v_poses s) i in Ok (v_add s p)
  | NewArray c0 c1 c2 c3 => Ok (VState (v_poses s) (v_arrays s ++ [(c0, c1, c2, c3)]))
  | FromArray k => let* l := var (v_arrays s) k in Ok (v_add s (FromMatrix34 l))
  | WriteR _ _ _ _ | WriteT _ _ _ | WriteArray _ _ _ _ => Ok s
  end.
Definition v_run (ops : list op) : res vstate := foldM v_step (VState [] []) ops.
Definition no_write (o : op) : Prop := match o with WriteR _ _ _ _ | WriteT _ _ _ | WriteArray _ _ _ _ => False | _ => True end.

(** * Origins: the operation (by its number) that made the array, or a default argument *)
Inductive origin := Default | EnuPosition | MayaPosition | Made (n : nat).
(** Of the rotation (and whether it is seen transposed) and of the translation. *)
Record made := From { r_origin : origin; flipped : bool; t_origin : origin }.
Record pstate := PState { p_count : nat; p_poses : list made; p_arrays : list origin }.
Definition p_add (s : pstate) (m : made) : pstate := PState (S (p_count s)) (p_poses s ++ [m]) (p_arrays s).
Definition p_step (s : pstate) (o : op) : res pstate :=
  let own := Made (p_count s) in
  match o with
  | NewPose => Ok (p_add s (From Default false Default))
  | NewFrom _ _ => Ok (p_add s (From own false own))
  | Share i j => let* p := var (p_poses s) i in let* q := var (p_poses s) j in Ok (p_add s (From (r_origin p) (flipped p) (t_origin q)))
  | ENUCamera _ _ _ => Ok (p_add s (From own false EnuPosition))
  | MayaCamera _ _ _ => Ok (p_add s (From own false MayaPosition))
  | Compose i j => let* _ := var (p_poses s) i in let* _ := var (p_poses s) j in Ok (p_add s (From own false own))
  | Inverse i => let* p := var (p_poses s) i in Ok (p_add s (From (r_origin p) (negb (flipped p)) own))
  | DeepCopy i => let* _ := var (p_poses s) i in Ok (p_add s (From own false own))
  | NewArray _ _ _ _ => Ok (PState (S (p_count s)) (p_poses s) (p_arrays s ++ [own]))
  | FromArray k => let* a := var (p_arrays s) k in Ok (p_add s (From a false a))
  | WriteR _ _ _ _ | WriteT _ _ _ | WriteArray _ _ _ _ => Ok (PState (S (p_count s)) (p_poses s) (p_arrays s))
  end.
Definition p_run (ops : list op) : res pstate := foldM p_step (PState 0 [] []) ops.

(** One entry of a matrix or vector changed. *)
Definition entry (m : mat) (a b : nat) : R := coord a (rot_column m b).
Definition set_entry (m m' : mat) (a b : nat) (v : R) : Prop :=
  forall a' b', (a' < 3)%nat -> (b' < 3)%nat -> entry m' a' b' = if (Nat.eqb a' a && Nat.eqb b' b)%bool then v else entry m a' b'.
Definition set_coord (u u' : vec) (a : nat) (v : R) : Prop :=
  forall a', (a' < 3)%nat -> coord a' u' = if Nat.eqb a' a then v else coord a' u.

(** * What a program sees *)
Definition pose_of (ops : list op) (j : nat) : res pose :=
  let* s := run ops in let* p := var (poses s) j in Ok (pose_at (mem s) p).
Definition made_of (ops : list op) (j : nat) : res made := let* s := p_run ops in var (p_poses s) j.
Definition array_made_of (ops : list op) (k : nat) : res origin := let* s := p_run ops in var (p_arrays s) k.

(** No assignment goes to an array of a default argument of Pose3.__init__. *)
Fixpoint spares_default (p : pstate) (ops : list op) : Prop :=
  match ops with
  | [] => True
  | o :: ops =>
      match o with
      | WriteR i _ _ _ => forall m, var (p_poses p) i = Ok m -> r_origin m <> Default
      | WriteT i _ _ => forall m, var (p_poses p) i = Ok m -> t_origin m <> Default
      | _ => True
      end /\ forall p', p_step p o = Ok p' -> spares_default p' ops
  end.

(** * Scenes: whose settings dictionary a scene has *)
Definition group := option nat.            (** None: DEFAULT_SETTINGS; Some n: made by operation number n *)
Definition g_step (s : nat * list group) (o : scene_op) : res (nat * list group) :=
  let '(n, l) := s in
  match o with
  | NewScene => Ok (S n, l ++ [None])
  | NewSceneWith _ => Ok (S n, l ++ [Some n])
  | ShareSettings i => let* g := var l i in Ok (S n, l ++ [g])
  | TransformScene i => let* _ := var l i in Ok (S n, l ++ [None])
  | ConvertScene i => let* _ := var l i in Ok (S n, l ++ [Some n])
  | Set_ i _ _ => let* _ := var l i in Ok (S n, l)
  end.
Definition group_of (ops : list scene_op) (i : nat) : res group := let* s := foldM g_step (0%nat, []) ops in var (snd s) i.
(** The settings a program sees. *)
Definition settings_of (ops : list scene_op) (i : nat) : res settings := let* s := scene_run ops in scene_settings s i.
(** No assignment to the settings of a scene that has the default ones. *)
Definition spares_settings (ops : list scene_op) : Prop :=
  forall before i k v after, ops = before ++ Set_ i k v :: after -> group_of before i <> Ok None.
