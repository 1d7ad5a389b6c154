(** Project scenes: semantic/project_object.py, project_object_dict.py,
    project_scene.py, project_converter.py; the XML of Rot3, Pose3 and Box3d; saving
    and loading of VoxelGrid (threedee/voxel_grid.py) and Voxelizer
    (threedee/voxelizer.pyx).

    Floats are reals.  Objects are values: sharing of attributes between objects is
    not modelled.  Ids, dictionary keys and settings are strings; an id is one path
    component (no "/").  What is done by numpy, h5py, ElementTree's text format and
    GltfModel is the record [world]; its contract is in Scene/Spec.v. *)
From Coq Require Import Reals List Bool String ZArith.
From Verif.Base Require Import Py Vec Xml Fs.
From Verif.Geom Require Import Model.
From Verif.Box Require Import Model.
From Verif.Voxel Require Import Model.
From Verif.Symm Require Import Model.
From Verif.Sample Require Import Model.
Import ListNotations.
Local Open Scope string_scope.
Local Open Scope list_scope.

Definition bytes := list Z.

Record world (M : Type) := World {
  (** re.sub('[\[\]]', '', np.array2string(v, separator=', ')) and
      np.fromstring(text, sep=',') *)
  array2string : vec -> string;
  fromstring : string -> list R;
  (** str(x) and float(text), [None] for ValueError *)
  str_float : R -> string;
  float_of : string -> option R;
  (** GltfModel.primitive_meshes (vertices in object coordinates), save_as_glb, and
      load_from_glb on the bytes of the file *)
  primitive_meshes : M -> res (list surface);
  save_as_glb : M -> path -> io bytes unit;
  decode_glb : bytes -> res M;
  (** the h5 file of a grid, and reading one; [None] if it is no h5 file *)
  h5_write : grid -> bytes;
  h5_read : bytes -> option grid;
  (** ElementTree.write and ET.parse; [None] for ParseError *)
  xml_write : xml -> bytes;
  xml_parse : bytes -> option xml }.
Arguments World {M}. Arguments array2string {M}. Arguments fromstring {M}. Arguments str_float {M}. Arguments float_of {M}.
Arguments primitive_meshes {M}. Arguments save_as_glb {M}. Arguments decode_glb {M}. Arguments h5_write {M}. Arguments h5_read {M}.
Arguments xml_write {M}. Arguments xml_parse {M}.

Section Scene.
  Context {M : Type}.
  Variable w : world M.

  (** * XML of poses and boxes *)

  (** to_xml, rot3.pyx 177-193 *)
  Definition rot_to_xml (r : mat) : xml :=
    Elem "rotation" None [leaf "c1" (array2string w (rot_column r 0)); leaf "c2" (array2string w (rot_column r 1)); leaf "c3" (array2string w (rot_column r 2))].

  (** R[:, c] = np.fromstring(elem.text, sep=','), rot3.pyx 169: one number fills the
      column.  np.fromstring(None) is a TypeError; every error becomes ValueError. *)
  Definition column (e : xml) : res vec :=
    match text e with
    | None => Err ValueError
    | Some t => match fromstring w t with
                | [x; y; z] => Ok (V x y z)
                | [x] => Ok (V x x x)
                | _ => Err ValueError
                end
    end.
  (** from_xml, rot3.pyx 149-175.  The columns found so far. *)
  Definition rot_child (st : option vec * option vec * option vec) (e : xml) : res (option vec * option vec * option vec) :=
    let* v := column e in
    let '(c1, c2, c3) := st in
    if String.eqb (tag e) "c1" then Ok (Some v, c2, c3)
    else if String.eqb (tag e) "c2" then Ok (c1, Some v, c3)
    else if String.eqb (tag e) "c3" then Ok (c1, c2, Some v)
    else Err ValueError.
  Definition rot_from_xml (e : xml) : res mat :=
    if negb (String.eqb (tag e) "rotation") then Err ValueError
    else
      let* st := foldM rot_child (None, None, None) (children e) in
      match st with
      | (Some c1, Some c2, Some c3) => Ok (FromColumns c1 c2 c3)
      | _ => Err ValueError
      end.

  (** Three numbers, pose3.pyx 188-190, box_3d.pyx 185-187: np.fromstring(None) is a
      TypeError. *)
  Definition three (e : xml) : res vec :=
    match text e with
    | None => Err TypeError
    | Some t => match fromstring w t with [x; y; z] => Ok (V x y z) | _ => Err RuntimeError end
    end.

  (** to_xml, pose3.pyx 203-219 *)
  Definition pose_to_xml (p : pose) : xml := Elem "pose" None [leaf "translation" (array2string w (pt p)); rot_to_xml (pR p)].
  (** from_xml, pose3.pyx 165-201 *)
  Definition pose_child (st : option vec * option mat) (e : xml) : res (option vec * option mat) :=
    if String.eqb (tag e) "translation" then let* v := three e in Ok (Some v, snd st)
    else if String.eqb (tag e) "rotation" then let* r := rot_from_xml e in Ok (fst st, Some r)
    else Err RuntimeError.
  Definition pose_from_xml (e : xml) : res pose :=
    if negb (String.eqb (tag e) "pose") then Err RuntimeError
    else
      let* st := foldM pose_child (None, None) (children e) in
      match st with
      | (Some t, Some r) => Ok (Pose r t)
      | _ => Err RuntimeError
      end.

  (** to_xml, box_3d.pyx 204-220 *)
  Definition box_to_xml (b : box) : xml := Elem "box3d" None [leaf "corner1" (array2string w (min_corner b)); leaf "corner2" (array2string w (max_corner b))].
  (** from_xml, box_3d.pyx 163-201 *)
  Definition box_child (st : option vec * option vec) (e : xml) : res (option vec * option vec) :=
    if String.eqb (tag e) "corner1" then let* v := three e in Ok (Some v, snd st)
    else if String.eqb (tag e) "corner2" then let* v := three e in Ok (fst st, Some v)
    else Err RuntimeError.
  Definition box_from_xml (e : xml) : res box :=
    if negb (String.eqb (tag e) "box3d") then Err RuntimeError
    else
      let* st := foldM box_child (None, None) (children e) in
      match st with
      | (Some c1, Some c2) => Ok (mk_box c1 c2)
      | _ => Err RuntimeError
      end.
  (** elem.tag = t *)
  Definition set_tag (t : string) (e : xml) : xml := Elem t (text e) (children e).

  (** * VoxelGrid.save, voxel_grid.py 164-184, and from_file 71-86 with load 186-205: the
      IOError is made but not raised, so [f] is unbound in the next line. *)
  Definition save_grid (g : grid) (p : path) : io bytes unit :=
    fun s => match write p (h5_write w g) s with
             | (s', Ok tt) => (s', Ok tt)
             | (s', Err _) => (s', Err UnboundLocalError)
             end.
  Definition load_grid (p : path) : io bytes grid :=
    fun s => match read p s with
             | (s', Ok b) => match h5_read w b with Some g => (s', Ok g) | None => (s', Err UnboundLocalError) end
             | (s', Err _) => (s', Err UnboundLocalError)
             end.

  (** * ProjectObject *)

  Record pobject := PObject {
    o_id : string; o_type : string; o_bounds : option box; o_voxels : option grid; o_meshes : option M;
    o_pose : pose; o_category : option string; o_symmetry : symmetry; o_score : R; o_evaluated : bool }.

  (** __init__, project_object.py 53-106 *)
  Definition mk_object (id ty : string) (bounds : option box) (voxels : option grid) (meshes : option M)
                       (T : pose) (category : option string) (sym : option symmetry) (score : R) (evaluated : bool) : res pobject :=
    let* sym := object_symmetry sym in
    if String.eqb ty "bounding_box" then Ok (PObject id ty bounds None None T category sym score evaluated)
    else if String.eqb ty "voxels" then Ok (PObject id ty bounds voxels None T category sym score evaluated)
    else if String.eqb ty "meshes" then Ok (PObject id ty bounds None meshes T category sym score evaluated)
    else Err ValueError.

  (** transform_pose, 183-194 *)
  Definition object_transform (T : pose) (o : pobject) : res pobject :=
    mk_object (o_id o) (o_type o) (o_bounds o) (o_voxels o) (o_meshes o) (compose T (o_pose o)) (o_category o) (Some (o_symmetry o)) (o_score o) (o_evaluated o).

  (** from_meshes(primitive_meshes()), compute_bbox.pyx 50-72 *)
  Definition model_bounds (m : M) : res box :=
    let* ms := primitive_meshes w m in Ok (from_meshes (map s_vertices ms)).

  (** The bounds of _to_xml, 299-305; None has no such attribute. *)
  Definition saved_bounds (o : pobject) : res box :=
    if String.eqb (o_type o) "meshes" then
      match o_meshes o with Some m => model_bounds m | None => Err AttributeError end
    else if String.eqb (o_type o) "voxels" then
      match o_voxels o with Some g => bounds g | None => Err AttributeError end
    else if String.eqb (o_type o) "bounding_box" then
      match o_bounds o with Some b => Ok b | None => Err AttributeError end
    else Err UnboundLocalError.

  Definition str_bool (b : bool) : string := if b then "True" else "False".

  (** _to_xml, 283-319 *)
  Definition object_to_xml (o : pobject) : res xml :=
    let* b := saved_bounds o in
    Ok (Elem "element" None
          [leaf "id" (o_id o); Elem "category" (o_category o) []; set_tag "bounds" (box_to_xml b); pose_to_xml (o_pose o);
           to_xml (o_symmetry o); leaf "detectionScore" (str_float w (o_score o)); leaf "evaluated" (str_bool (o_evaluated o))]).

  (** save, 196-224 *)
  Definition object_save (dir : path) (o : pobject) : io bytes xml :=
    do* base := ilift (object_to_xml o) in
    do* _ := (if String.eqb (o_type o) "meshes" then
                match o_meshes o with
                | Some m => save_as_glb w m (join dir (Rel [(o_id o ++ ".glb")%string]))
                | None => ilift (Err AttributeError)
                end
              else if String.eqb (o_type o) "voxels" then
                match o_voxels o with
                | Some g => save_grid g (join dir (Rel [(o_id o ++ ".h5")%string]))
                | None => ilift (Err AttributeError)
                end
              else iret tt) in
    iret base.

  (** The variables of _parse_xml, 343-371; None for the unbound id and bounds. *)
  Record parsed := Parsed {
    q_id : option (option string); q_pose : pose; q_category : option string; q_bounds : option box;
    q_symmetry : option symmetry; q_score : R; q_evaluated : bool }.
  Definition parse_start : parsed := Parsed None pose_id (Some "unknown") None (Some (Symmetry none none none)) (-1) true.
  Definition parse_child (q : parsed) (e : xml) : res parsed :=
    let 'Parsed i p c b s f v := q in
    if String.eqb (tag e) "id" then Ok (Parsed (Some (text e)) p c b s f v)
    else if String.eqb (tag e) "pose" then let* p := pose_from_xml e in Ok (Parsed i p c b s f v)
    else if String.eqb (tag e) "category" then Ok (Parsed i p (text e) b s f v)
    else if String.eqb (tag e) "bounds" then let* b := box_from_xml (set_tag "box3d" e) in Ok (Parsed i p c (Some b) s f v)
    else if String.eqb (tag e) "symmetry" then let* s := from_xml e in Ok (Parsed i p c b s f v)
    else if String.eqb (tag e) "detectionScore" then
      match text e with
      | None => Err TypeError
      | Some t => match float_of w t with Some f => Ok (Parsed i p c b s f v) | None => Err ValueError end
      end
    else if String.eqb (tag e) "evaluated" then
      Ok (Parsed i p c b s f (match text e with Some t => String.eqb t "True" || String.eqb t "true" | None => false end))
    else Ok q.
  (** The id, the bounds, and the rest. *)
  Definition parse_xml (base : xml) : res (string * box * parsed) :=
    if negb (String.eqb (tag base) "element") then Err ValueError
    else
      let* q := foldM parse_child parse_start (children base) in
      match q_id q, q_bounds q with
      | None, _ => Err UnboundLocalError
      | Some None, _ => Err ValueError
      | Some (Some _), None => Err UnboundLocalError
      | Some (Some i), Some b => Ok (i, b, q)
      end.

  (** load, 226-269 *)
  Definition object_load (ty : string) (base : xml) (dir : path) : io bytes pobject :=
    do* (i, b, q) := ilift (parse_xml base) in
    if String.eqb ty "bounding_box" then
      ilift (mk_object i "bounding_box" (Some b) None None (q_pose q) (q_category q) (q_symmetry q) (q_score q) (q_evaluated q))
    else if String.eqb ty "voxels" then
      do* g := load_grid (join dir (Rel [(i ++ ".h5")%string])) in
      ilift (mk_object i "voxels" (Some b) (Some g) None (q_pose q) (q_category q) (q_symmetry q) (q_score q) (q_evaluated q))
    else if String.eqb ty "meshes" then
      do* data := read (join dir (Rel [(i ++ ".glb")%string])) in
      do* m := ilift (decode_glb w data) in
      ilift (mk_object i "meshes" (Some b) None (Some m) (q_pose q) (q_category q) (q_symmetry q) (q_score q) (q_evaluated q))
    else ilift (Err ValueError).

  (** * ProjectObjectDict, project_object_dict.py: whether it is one (else a plain dict),
      and the items. *)
  Record odict := ODict { is_object_dict : bool; items : list (string * pobject) }.

  (** save, 50-68; a plain dict has no method save. *)
  Fixpoint save_all (dir : path) (os : list pobject) : io bytes (list xml) :=
    match os with
    | [] => iret []
    | o :: os =>
        do* e := object_save dir o in
        do* es := save_all dir os in
        iret (e :: es)
    end.
  Definition dict_save (dir : path) (d : odict) : io bytes xml :=
    if is_object_dict d then do* es := save_all dir (map snd (items d)) in iret (Elem "elements" None es)
    else ilift (Err AttributeError).

  (** load, 70-98 *)
  Fixpoint load_all (ty : string) (dir : path) (es : list xml) (acc : list (string * pobject)) : io bytes (list (string * pobject)) :=
    match es with
    | [] => iret acc
    | e :: es =>
        if String.eqb (tag e) "element" then
          do* po := object_load ty e dir in
          load_all ty dir es (sset (o_id po) po acc)
        else load_all ty dir es acc
    end.
  Definition dict_load (ty : string) (base : xml) (dir : path) : io bytes odict :=
    do* l := load_all ty dir (children base) [] in iret (ODict true l).

  (** * ProjectScene, project_scene.py *)

  (** DEFAULT_SETTINGS, 16-20; a value read from a file may be None. *)
  Definition default_settings : list (string * option string) :=
    [("version", Some "2.0"); ("categories_id", Some "fb_categories_v1_0");
     ("categories_url", Some "https://sumochallenge.org/en/categories-1_0.json")].

  Record pscene := PScene { sc_type : string; sc_settings : list (string * option string); sc_elements : odict }.

  (** __init__, 29-49 *)
  Definition mk_scene (ty : string) (elements : option odict) (settings : option (list (string * option string))) : res pscene :=
    if str_in ty ["bounding_box"; "voxels"; "meshes"] then
      Ok (PScene ty (match settings with Some s => s | None => default_settings end)
                    (match elements with Some e => e | None => ODict true [] end))
    else Err ValueError.

  (** transform_pose, 51-61 *)
  Definition scene_transform (T : pose) (sc : pscene) : res pscene :=
    let* l := mapM (fun kv => let* o := object_transform T (snd kv) in Ok (fst kv, o)) (items (sc_elements sc)) in
    mk_scene (sc_type sc) (Some (ODict false l)) None.

  (** save, 63-115 *)
  Definition scene_save (sc : pscene) (p : path) (name : string) : io bytes unit :=
    let dir := join p (Rel [name]) in
    do* _ := makedirs dir in
    do* version := ilift (sgetE "version" (sc_settings sc)) in
    do* categories_id := ilift (sgetE "categories_id" (sc_settings sc)) in
    do* categories_url := ilift (sgetE "categories_url" (sc_settings sc)) in
    do* elements := dict_save dir (sc_elements sc) in
    write (join dir (Rel [(name ++ ".xml")%string]))
      (xml_write w (Elem "scene" None
         [Elem "version" version []; Elem "categories" None [Elem "id" categories_id []; Elem "url" categories_url []];
          leaf "project_type" (sc_type sc); elements])).

  (** The loop over the header, 139-151: the settings and the project type. *)
  Definition category_child (s : list (string * option string)) (e : xml) : list (string * option string) :=
    if String.eqb (tag e) "id" then sset "categories_id" (text e) s
    else if String.eqb (tag e) "url" then sset "categories_url" (text e) s
    else s.
  Definition header_child (st : list (string * option string) * option string) (e : xml) : list (string * option string) * option string :=
    if String.eqb (tag e) "categories" then (fold_left category_child (children e) (fst st), snd st)
    else if String.eqb (tag e) "project_type" then (fst st, text e)
    else if String.eqb (tag e) "version" then (sset "version" (text e) (fst st), snd st)
    else st.

  (** The loop over the elements, 160-166: None while elements is unbound. *)
  Fixpoint load_elements (ty : string) (dir : path) (es : list xml) (acc : option odict) : io bytes (option odict) :=
    match es with
    | [] => iret acc
    | e :: es =>
        if String.eqb (tag e) "elements" then
          do* d := dict_load ty e dir in load_elements ty dir es (Some d)
        else load_elements ty dir es acc
    end.

  (** load, 117-168.  ET.ParseError is a SyntaxError. *)
  Definition scene_load (p : path) (name : string) : io bytes pscene :=
    let dir := join p (Rel [name]) in
    do* data := read (join dir (Rel [(name ++ ".xml")%string])) in
    match xml_parse w data with
    | None => ilift (Err SyntaxError)
    | Some root =>
        if negb (String.eqb (tag root) "scene") then ilift (Err ValueError)
        else
          let '(settings, ty) := fold_left header_child (children root) ([], None) in
          match ty with
          | None => ilift (Err ValueError)
          | Some ty =>
              do* d := load_elements ty dir (children root) None in
              match d with
              | None => ilift (Err UnboundLocalError)
              | Some d => ilift (mk_scene ty (Some d) (Some settings))
              end
          end
    end.

  (** * ProjectConverter, project_converter.py *)

  (** allowed_conversions, 31-33 *)
  Definition allowed (source target : string) : bool :=
    existsb (fun p => String.eqb (fst p) source && String.eqb (snd p) target)%bool
      [("meshes", "voxels"); ("meshes", "bounding_box"); ("voxels", "bounding_box")].

  (** Voxelizer().run, voxelizer.pyx 27-51: 625 samples per unit of area, voxels of size
      0.1; [draws] are the random numbers of the sampler. *)
  Definition voxelizer_run (draws : nat -> R * R) (m : M) : res grid :=
    let* ms := primitive_meshes w m in
    let* (_, points) := model_sampler draws 625 ms in
    voxelize (1 / 10) (map fst points).

  (** convert_element, 69-121 *)
  Definition convert_element (draws : nat -> R * R) (target : string) (o : pobject) : res pobject :=
    if negb (allowed (o_type o) target) then Err ValueError
    else if String.eqb target "bounding_box" then
      let* b := if String.eqb (o_type o) "voxels" then
                  match o_voxels o with Some g => bounds g | None => Err AttributeError end
                else if String.eqb (o_type o) "meshes" then
                  match o_meshes o with Some m => model_bounds m | None => Err AttributeError end
                else Err ValueError in
      mk_object (o_id o) "bounding_box" (Some b) None None (o_pose o) (o_category o) (Some (o_symmetry o)) (o_score o) (o_evaluated o)
    else if String.eqb target "voxels" then
      match o_meshes o with
      | None => Err AttributeError
      | Some m =>
          let* g := voxelizer_run draws m in
          let* b := bounds g in
          mk_object (o_id o) "voxels" (Some b) (Some g) None (o_pose o) (o_category o) (Some (o_symmetry o)) (o_score o) (o_evaluated o)
      end
    else Err ValueError.

  (** run, 38-67; element number k uses the random numbers [draws k]. *)
  Fixpoint convert_all (draws : nat -> nat -> R * R) (k : nat) (target : string) (os : list pobject) (acc : list (string * pobject)) : res (list (string * pobject)) :=
    match os with
    | [] => Ok acc
    | o :: os =>
        let* o' := convert_element (draws k) target o in
        convert_all draws (S k) target os (sset (o_id o') o' acc)
    end.
  Definition convert (draws : nat -> nat -> R * R) (sc : pscene) (target : string) : res pscene :=
    if negb (allowed (sc_type sc) target) then Err ValueError
    else
      let* l := convert_all draws 0 target (map snd (items (sc_elements sc))) [] in
      mk_scene target (Some (ODict true l)) (Some (sc_settings sc)).
End Scene.
Arguments pobject : clear implicits.
Arguments odict : clear implicits.
Arguments pscene : clear implicits.
