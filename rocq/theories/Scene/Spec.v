(** Vocabulary for the scene properties: the contract of the number, XML, voxel and
    model formats; when two objects are the same; file systems. *)
From Coq Require Import Reals List String Ascii ZArith.
From Verif.Voxel Require Import Model Spec.
From Verif.Base Require Import Py Vec Xml Fs.
From Verif.Geom Require Import Model.
From Verif.Box Require Import Model Spec.
From Verif.Symm Require Import Model Spec.
From Verif.Sample Require Import Model Spec.
From Verif.Glb Require Import Spec.
From Verif.Scene Require Import Model.
Import ListNotations.
Local Open Scope string_scope.
Local Open Scope list_scope.
Local Open Scope R_scope.

(** ** Numbers: np.array2string keeps eight decimals *)

Definition close (a b : R) : Prop := Rabs (a - b) <= 1 / 200000000 * Rmax 1 (Rabs b).
Definition near (v u : vec) : Prop := close (vx v) (vx u) /\ close (vy v) (vy u) /\ close (vz v) (vz u).
Definition pose_near (p q : pose) : Prop :=
  near (pt p) (pt q) /\ forall j, (j < 3)%nat -> near (rot_column (pR p) j) (rot_column (pR q) j).
Definition box_near (a b : box) : Prop := near (min_corner a) (min_corner b) /\ near (max_corner a) (max_corner b).

(** The 64-bit floats. *)
Definition is_float (x : R) : Prop :=
  exists m e : Z, (Z.abs m < 2 ^ 53)%Z /\ (-1074 <= e <= 971)%Z /\ x = IZR m * powerRZ 2 e.

(** ** Text *)

(** Printable ASCII. *)
Definition printable (c : ascii) : bool := (Nat.leb 32 (nat_of_ascii c) && Nat.leb (nat_of_ascii c) 126)%bool.
Definition plain (s : string) : Prop := forallb printable (list_ascii_of_string s) = true.
Definition plain_text (s : option string) : Prop := match s with Some s => plain s | None => True end.
Definition no_slash (s : string) : Prop := ~ In "/"%char (list_ascii_of_string s).

(** Letters, digits and underscores, starting with a letter. *)
Definition letter (c : ascii) : bool :=
  let n := nat_of_ascii c in ((Nat.leb 65 n && Nat.leb n 90) || (Nat.leb 97 n && Nat.leb n 122))%bool.
Definition name_char (c : ascii) : bool :=
  let n := nat_of_ascii c in (letter c || (Nat.leb 48 n && Nat.leb n 57) || Nat.eqb n 95)%bool.
Definition xml_name (s : string) : Prop :=
  match s with EmptyString => False | String c s => letter c = true /\ forallb name_char (list_ascii_of_string s) = true end.

Inductive plain_tree : xml -> Prop :=
| plain_elem t s cs : xml_name t -> plain_text s -> Forall plain_tree cs -> plain_tree (Elem t s cs).

(** An empty text is read as none. *)
Definition no_empty (s : option string) : option string := match s with Some "" => None | _ => s end.
Fixpoint reread (e : xml) : xml := let 'Elem t s cs := e in Elem t (no_empty s) (map reread cs).

(** ** File systems *)

(** Everything lies in a folder; no place is both a file and a folder. *)
Definition tree {A} (s : fs A) : Prop :=
  (forall l, isfile_at s l = true -> l <> [] /\ isdir_at s (removelast l) = true /\ isdir_at s l = false) /\
  (forall l, isdir_at s l = true -> isdir_at s (removelast l) = true).

(** There is nothing at [l], and no file in the way. *)
Definition free {A} (s : fs A) (l : list string) : Prop :=
  isdir_at s l = false /\ forall l', above l' l = true -> isfile_at s l' = false.

(** [s'] is [s] with a new folder [dir] (and the folders above it), and in it the files
    [fs] and nothing else. *)
Definition new_folder {A} (s s' : fs A) (dir : list string) (names : list string) : Prop :=
  cwd s' = cwd s /\
  (forall l, above dir l = false -> dget loc_eqb l (files s') = dget loc_eqb l (files s)) /\
  (forall l, above dir l = true -> isfile_at s' l = true <-> exists n, In n names /\ l = dir ++ [n]) /\
  (forall l, isdir_at s' l = true <-> isdir_at s l = true \/ above l dir = true).

(** ** Formats *)
Section Formats.
  Context {M : Type}.
  Variable w : world M.

  Definition numbers_ok : Prop :=
    (forall v, exists u, fromstring w (array2string w v) = [vx u; vy u; vz u] /\ near u v /\
       plain (array2string w v) /\ array2string w v <> "") /\
    (forall x, is_float x -> float_of w (str_float w x) = Some x /\ plain (str_float w x) /\ str_float w x <> "").

  Definition xml_ok : Prop := forall e, plain_tree e -> xml_parse w (xml_write w e) = Some (reread e).

  (** Coordinates that are 32-bit integers; size and corner are floats. *)
  Definition small_grid (g : grid) : Prop :=
    is_float (g_scale g) /\ is_float (vx (g_corner g)) /\ is_float (vy (g_corner g)) /\ is_float (vz (g_corner g)) /\
    Forall (fun v => Forall (fun c => -2147483648 <= c < 2147483648)%Z [ix v; iy v; iz v]) (g_voxels g).
  Definition h5_ok : Prop := forall g, small_grid g -> h5_read w (h5_write w g) = Some g.

  (** Saving a model of the kind [saveable] to an absolute path, with a folder [tmp] for
      temporary files, changes only that file, which holds a model related by [kept]. *)
  Definition glb_ok (tmp : list string) (saveable : M -> Prop) (kept : M -> M -> Prop) : Prop :=
    forall m l s root, saveable m -> sane s -> isdir_at s tmp = true -> can_write s l -> glb_name (last l "") root ->
      exists s' b m', save_as_glb w m (Abs l) s = (s', Ok tt) /\ same_but l s s' /\
        dget loc_eqb l (files s') = Some b /\ decode_glb w b = Ok m' /\ kept m m'.

  Definition formats_ok tmp saveable kept : Prop := numbers_ok /\ xml_ok /\ h5_ok /\ glb_ok tmp saveable kept.
End Formats.

(** ** Objects *)
Section Objects.
  Context {M : Type}.
  Variables (w : world M) (saveable : M -> Prop) (kept : M -> M -> Prop).

  (** The box around the vertices of a model; every mesh has some. *)
  Definition model_box (m : M) (b : box) : Prop :=
    exists ms, primitive_meshes w m = Ok ms /\ ms <> [] /\ Forall (fun x => s_vertices x <> []) ms /\
      tight b (List.concat (map s_vertices ms)).

  (** The box around the geometry of an object (the box of a grid is described in C23). *)
  Definition true_box (o : pobject M) (b : box) : Prop :=
    match o_bounds o, o_voxels o, o_meshes o with
    | _, _, Some m => model_box m b
    | _, Some g, None => bounds g = Ok b
    | Some c, None, None => b = c
    | None, None, None => False
    end.

  (** The object has the geometry of the type, and only that (as the constructor has
      it), in a form that can be saved. *)
  Definition has_geometry (ty : string) (o : pobject M) : Prop :=
    (ty = "bounding_box" /\ o_voxels o = None /\ o_meshes o = None /\ exists b, o_bounds o = Some b /\ normalized b) \/
    (ty = "voxels" /\ o_meshes o = None /\ exists g, o_voxels o = Some g /\ small_grid g /\ exists b, bounds g = Ok b) \/
    (ty = "meshes" /\ o_voxels o = None /\ exists m, o_meshes o = Some m /\ saveable m /\ exists b, model_box m b).

  Definition good_object (ty : string) (o : pobject M) : Prop :=
    o_type o = ty /\ has_geometry ty o /\
    documented (x_symmetry (o_symmetry o)) (y_symmetry (o_symmetry o)) (z_symmetry (o_symmetry o)) /\
    plain (o_id o) /\ o_id o <> "" /\ no_slash (o_id o) /\ (ty = "meshes" -> exists c, In c (list_ascii_of_string (o_id o)) /\ c <> "."%char) /\
    plain_text (o_category o) /\ o_category o <> Some "" /\ is_float (o_score o).

  (** Same annotations and geometry; pose and bounds up to rounding. *)
  Definition same_object (o o' : pobject M) : Prop :=
    o_id o' = o_id o /\ o_type o' = o_type o /\ o_category o' = o_category o /\ o_symmetry o' = o_symmetry o /\
    o_score o' = o_score o /\ o_evaluated o' = o_evaluated o /\ pose_near (o_pose o') (o_pose o) /\
    o_voxels o' = o_voxels o /\
    match o_meshes o, o_meshes o' with Some m, Some m' => kept m m' | None, None => True | _, _ => False end /\
    exists b b', true_box o b /\ o_bounds o' = Some b' /\ box_near b' b.

  (** Three settings, none of them empty (an empty one would be read as None). *)
  Definition good_settings (st : list (string * option string)) : Prop :=
    forall k, In k ["version"; "categories_id"; "categories_url"] -> exists v, sget k st = Some v /\ plain_text v /\ v <> Some "".

  Definition good_scene (sc : pscene M) : Prop :=
    In (sc_type sc) ["bounding_box"; "voxels"; "meshes"] /\ good_settings (sc_settings sc) /\
    is_object_dict (sc_elements sc) = true /\
    Forall (fun kv => good_object (sc_type sc) (snd kv)) (items (sc_elements sc)) /\
    NoDup (map (fun kv => o_id (snd kv)) (items (sc_elements sc))).

  (** The loaded scene: the three settings, and the objects under their ids. *)
  Definition same_scene (sc sc' : pscene M) : Prop :=
    sc_type sc' = sc_type sc /\
    (forall k, In k ["version"; "categories_id"; "categories_url"] -> sget k (sc_settings sc') = sget k (sc_settings sc)) /\
    (forall k, ~ In k ["version"; "categories_id"; "categories_url"] -> sget k (sc_settings sc') = None) /\
    is_object_dict (sc_elements sc') = true /\
    Forall2 (fun kv kv' => fst kv' = o_id (snd kv) /\ same_object (snd kv) (snd kv')) (items (sc_elements sc)) (items (sc_elements sc')).
End Objects.

(** The files of a saved scene. *)
Definition scene_files {M} (sc : pscene M) (name : string) : list string :=
  (name ++ ".xml")%string ::
  (if String.eqb (sc_type sc) "meshes" then map (fun kv => (o_id (snd kv) ++ ".glb")%string) (items (sc_elements sc))
   else if String.eqb (sc_type sc) "voxels" then map (fun kv => (o_id (snd kv) ++ ".h5")%string) (items (sc_elements sc))
   else []).

(** ** XML *)

(** The last child with tag [t]. *)
Definition last_elem (t : string) (cs : list xml) (e : xml) : Prop :=
  exists a b, cs = a ++ e :: b /\ tag e = t /\ Forall (fun e' => tag e' <> t) b.
Definition no_elem (t : string) (cs : list xml) : Prop := Forall (fun e => tag e <> t) cs.

(** The value of field [t]: what the last such child says, or the default. *)
Definition field {A} (t : string) (h : xml -> A -> Prop) (d : A) (cs : list xml) (v : A) : Prop :=
  (exists e, last_elem t cs e /\ h e v) \/ (no_elem t cs /\ v = d).

Section Xml.
  Context {M : Type}.
  Variable w : world M.
  (** The text of [e] is the three numbers of [v]. *)
  Definition holds3 (e : xml) (v : vec) : Prop := exists t, text e = Some t /\ fromstring w t = [vx v; vy v; vz v].
  (** ... or one number, three times. *)
  Definition holds31 (e : xml) (v : vec) : Prop :=
    holds3 e v \/ exists t, text e = Some t /\ fromstring w t = [vx v] /\ v = V (vx v) (vx v) (vx v).

  Definition tags_in (ts : list string) (cs : list xml) : Prop := Forall (fun e => In (tag e) ts) cs.
  (** What the last child with tag [t] says. *)
  Definition says {A} (h : xml -> A -> Prop) (t : string) (cs : list xml) (v : A) : Prop := exists e, last_elem t cs e /\ h e v.

  (** A rotation, pose and box element. *)
  Definition rot_element (e : xml) (r : mat) : Prop :=
    tag e = "rotation" /\ tags_in ["c1"; "c2"; "c3"] (children e) /\ Forall (fun c => exists v, holds31 c v) (children e) /\
    says holds31 "c1" (children e) (rot_column r 0) /\ says holds31 "c2" (children e) (rot_column r 1) /\ says holds31 "c3" (children e) (rot_column r 2).
  Definition pose_element (e : xml) (p : pose) : Prop :=
    tag e = "pose" /\ tags_in ["translation"; "rotation"] (children e) /\
    Forall (fun c => (tag c = "translation" -> exists v, holds3 c v) /\ (tag c = "rotation" -> exists r, rot_element c r)) (children e) /\
    says holds3 "translation" (children e) (pt p) /\ says rot_element "rotation" (children e) (pR p).
  Definition box_element (t : string) (e : xml) (b : box) : Prop :=
    tag e = t /\ tags_in ["corner1"; "corner2"] (children e) /\ Forall (fun c => exists v, holds3 c v) (children e) /\
    exists u v, says holds3 "corner1" (children e) u /\ says holds3 "corner2" (children e) v /\ normalized b /\
      forall axis, (axis < 3)%nat ->
        (coord axis (min_corner b) = coord axis u /\ coord axis (max_corner b) = coord axis v) \/
        (coord axis (min_corner b) = coord axis v /\ coord axis (max_corner b) = coord axis u).

  Definition score_element (e : xml) (x : R) : Prop := exists t, text e = Some t /\ float_of w t = Some x.
  Definition evaluated_element (e : xml) (v : bool) : Prop := v = true <-> text e = Some "True" \/ text e = Some "true".
  (** An allowed symmetry, or None. *)
  Definition symmetry_element (e : xml) (s : option symmetry) : Prop :=
    match s with
    | Some s => describes e (x_symmetry s) (y_symmetry s) (z_symmetry s) /\ documented (x_symmetry s) (y_symmetry s) (z_symmetry s)
    | None => forall x y z, describes e x y z -> ~ documented x y z
    end.

  (** A child that is read without error. *)
  Definition readable_child (e : xml) : Prop :=
    (tag e = "pose" -> exists p, pose_element e p) /\
    (tag e = "bounds" -> exists b, box_element "bounds" e b) /\
    (tag e = "detectionScore" -> exists x, score_element e x).

  (** The element of an object. *)
  Definition object_element (e : xml) (i : string) (b : box) (p : pose) (c : option string) (sy : option symmetry) (x : R) (v : bool) : Prop :=
    tag e = "element" /\ Forall readable_child (children e) /\
    says (fun e i => text e = Some i) "id" (children e) i /\ says (box_element "bounds") "bounds" (children e) b /\
    field "pose" pose_element pose_id (children e) p /\
    field "category" (fun e c => text e = c) (Some "unknown") (children e) c /\
    field "symmetry" symmetry_element (Some (Symmetry none none none)) (children e) sy /\
    field "detectionScore" score_element (-1) (children e) x /\
    field "evaluated" evaluated_element true (children e) v.
End Xml.

(** ** Loaded scenes.  [file] gives the contents of the files in the folder. *)
Section Loaded.
  Context {M : Type}.
  Variable w : world M.

  (** The object that an element stands for. *)
  Definition object_at (ty : string) (file : string -> option bytes) (e : xml) (o : pobject M) : Prop :=
    exists b sy, object_element w e (o_id o) b (o_pose o) (o_category o) sy (o_score o) (o_evaluated o) /\
      o_symmetry o = match sy with Some s => s | None => Symmetry none none none end /\
      o_type o = ty /\ o_bounds o = Some b /\
      ((ty = "bounding_box" /\ o_voxels o = None /\ o_meshes o = None) \/
       (ty = "voxels" /\ o_meshes o = None /\ exists data g, file (o_id o ++ ".h5")%string = Some data /\ h5_read w data = Some g /\ o_voxels o = Some g) \/
       (ty = "meshes" /\ o_voxels o = None /\ exists data m, file (o_id o ++ ".glb")%string = Some data /\ decode_glb w data = Ok m /\ o_meshes o = Some m)).

  (** A dictionary with, under each id, the last object that has it. *)
  Definition last_with_id (os : list (pobject M)) (k : string) (o : pobject M) : Prop :=
    exists a b, os = a ++ o :: b /\ o_id o = k /\ Forall (fun o' => o_id o' <> k) b.
  Definition dict_of (os : list (pobject M)) (d : odict M) : Prop :=
    is_object_dict d = true /\ NoDup (map fst (items d)) /\ forall k o, In (k, o) (items d) <-> last_with_id os k o.

  Definition elements_at (ty : string) (file : string -> option bytes) (e : xml) (d : odict M) : Prop :=
    exists os, Forall2 (object_at ty file) (filter (fun c => String.eqb (tag c) "element") (children e)) os /\ dict_of os d.

  (** The scene that a tree stands for. *)
  Definition scene_at (file : string -> option bytes) (root : xml) (sc : pscene M) : Prop :=
    tag root = "scene" /\ says (fun e t => text e = Some t) "project_type" (children root) (sc_type sc) /\
    In (sc_type sc) ["bounding_box"; "voxels"; "meshes"] /\
    Forall (fun e => tag e = "elements" -> exists d, elements_at (sc_type sc) file e d) (children root) /\
    says (elements_at (sc_type sc) file) "elements" (children root) (sc_elements sc) /\
    (let header := List.concat (map children (filter (fun e => String.eqb (tag e) "categories") (children root))) in
     let last_text := fun e (v : option (option string)) => v = Some (text e) in
     field "version" last_text None (children root) (sget "version" (sc_settings sc)) /\
     field "id" last_text None header (sget "categories_id" (sc_settings sc)) /\
     field "url" last_text None header (sget "categories_url" (sc_settings sc)) /\
     forall k, ~ In k ["version"; "categories_id"; "categories_url"] -> sget k (sc_settings sc) = None).
End Loaded.

(** ** Conversion *)

(** An object of one of the three types, without the geometry of the other ones. *)
Definition typed {M} (o : pobject M) : Prop :=
  (o_type o = "bounding_box" /\ o_voxels o = None /\ o_meshes o = None) \/
  (o_type o = "voxels" /\ o_meshes o = None) \/
  (o_type o = "meshes" /\ o_voxels o = None).

Definition same_annotations {M} (o o' : pobject M) : Prop :=
  o_id o' = o_id o /\ o_pose o' = o_pose o /\ o_category o' = o_category o /\ o_symmetry o' = o_symmetry o /\
  o_score o' = o_score o /\ o_evaluated o' = o_evaluated o.

Section Convert.
  Context {M : Type}.
  Variable w : world M.

  (** Points on the triangles of the meshes, 625 for each unit of area and at least one
      for each triangle. *)
  Definition sampled (ms : list surface) (points : list vec) : Prop :=
    exists groups, points = List.concat groups /\
      Forall2 (fun t g => exists a b c x, has_corners pose_id t a b c /\ tri_area a b c x /\ n_samples 625 x (List.length g) /\ Forall (in_triangle a b c) g)
              (all_triangles ms) groups.

  (** The grid of cubes of side 0.1 whose cells are those with a point. *)
  Definition grid_of (g : grid) (points : list vec) : Prop :=
    (forall p, In p points -> exists v, In v (g_voxels g) /\ in_cell (1 / 10) (g_corner g) v p) /\
    (forall v, In v (g_voxels g) -> exists p, In p points /\ in_cell (1 / 10) (g_corner g) v p).

  Definition converted (target : string) (o o' : pobject M) : Prop :=
    same_annotations o o' /\ o_type o' = target /\ o_meshes o' = None /\
    ((target = "bounding_box" /\ o_voxels o' = None /\ exists b, true_box w o b /\ o_bounds o' = Some b) \/
     (target = "voxels" /\ exists m ms points g b, o_meshes o = Some m /\ primitive_meshes w m = Ok ms /\ sampled ms points /\ grid_of g points /\
        o_voxels o' = Some g /\ bounds g = Ok b /\ o_bounds o' = Some b)).

  (** An object with geometry that can be converted. *)
  Definition convertible (source target : string) (o : pobject M) : Prop :=
    o_type o = source /\
    ((source = "voxels" /\ target = "bounding_box" /\ o_meshes o = None /\ exists g b, o_voxels o = Some g /\ bounds g = Ok b) \/
     (source = "meshes" /\ o_voxels o = None /\ exists m ms, o_meshes o = Some m /\ primitive_meshes w m = Ok ms /\ ms <> [] /\
        Forall (fun x => s_vertices x <> []) ms /\
        (target = "bounding_box" \/ (target = "voxels" /\ Forall sound ms /\ all_triangles ms <> [])))).
End Convert.
