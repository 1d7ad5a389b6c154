(** How the evaluator constructors use the caller's settings dictionary:
    sumo/metrics/evaluator.py 47-79 and 82-265, mesh_evaluator.py 127-149,
    voxel_evaluator.py 21-51, bb_evaluator.py 23-46. *)
From Coq Require Import List Bool String QArith Arith.
From Verif.Base Require Import Py Sort.
From Verif.Assoc Require Import Model.
Import ListNotations.
Local Open Scope string_scope.
Local Open Scope list_scope.

(** Values found in a settings dictionary (evaluator.py 257-265).  Numbers are
    rationals.  Nested dictionaries are values: nothing modelled here changes them. *)
Inductive value :=
| Numbers (l : list Q)
| Array (l : list Q)
| Names (l : list string)
| Number (q : Q)
| Dict (d : list (string * value)).

Notation settings := (list (string * value)).

(** The dictionaries of the program, each under its identity; a dictionary passed as an
    argument is passed as its identity.  Identities are never reused. *)
Notation store := (list (nat * settings)).

(** The dictionary with identity [a]. *)
Definition look (a : nat) (st : store) : res settings :=
  match dget Nat.eqb a st with Some d => Ok d | None => Err TypeError end.

(** An identity not in use. *)
Definition fresh (st : store) : nat := S (fold_right Nat.max 0%nat (dkeys st)).

(** np.sort, evaluator.py 61: a new sorted array from a list or array of numbers.  A
    number or a dictionary gives numpy's AxisError, a ValueError.  A list of names is
    refused here; numpy sorts it and the comparison with a similarity raises the
    TypeError later, if there is one. *)
Definition np_sort (v : value) : res value :=
  match v with
  | Numbers l | Array l => Ok (Array (isort Qle_bool l))
  | Names _ => Err TypeError
  | Number _ | Dict _ => Err ValueError
  end.

(** A value used as a number, a sequence of numbers, a list of names; mesh_evaluator.py
    142, evaluator.py 72, 78. *)
Definition as_number (v : value) : res Q := match v with Number q => Ok q | _ => Err TypeError end.
Definition as_numbers (v : value) : res (list Q) := match v with Numbers l | Array l => Ok l | _ => Err TypeError end.
Definition as_names (v : value) : res (list string) := match v with Names l => Ok l | _ => Err TypeError end.

(** [np.linspace(lo, hi, n + 1)] with exact arithmetic, evaluator.py 87-88. *)
Definition linspace (lo hi : Q) (n : positive) : list Q :=
  map (fun i => Qred (lo + (inject_Z (Z.of_nat i)) * (hi - lo) / inject_Z (Zpos n))) (seq 0 (S (Pos.to_nat n))).

(** The category list, evaluator.py 89-222. *)
Definition default_categories : list string :=
  [
    "air_conditioner"; "arch"; "armchair"; "ATM"; "baby_bed"; "basketball_hoop"; "bathtub";
    "beer"; "bench_chair"; "book"; "books"; "bookshelf"; "bottle"; "bunker_bed"; "candle"; "car";
    "cart"; "ceiling"; "ceiling_fan"; "chair"; "chair_set"; "chandelier"; "chessboard"; "clock";
    "cloth"; "coffee_kettle"; "coffee_machine"; "coffee_table"; "column"; "computer";
    "containers"; "cup"; "curtain"; "cutting_board"; "desk"; "dining_table"; "dishwasher"; "door";
    "double_bed"; "dresser"; "dressing_table"; "dryer"; "fence"; "fireplace"; "fish_tank";
    "fishbowl"; "floor"; "floor_lamp"; "food_processor"; "food_tray"; "fruit_bowl"; "game_table";
    "garage_door"; "glass"; "goal_post"; "grill"; "gym_equipment"; "hanger";
    "hanging_kitchen_cabinet"; "heater"; "household_appliance"; "iron"; "ironing_board"; "jug";
    "kettle"; "kitchen_cabinet"; "kitchen_set"; "knife_rack"; "laptop"; "loudspeaker";
    "magazines"; "microwave"; "mirror"; "motorcycle"; "office_chair"; "ottoman"; "outdoor_lamp";
    "outdoor_seating"; "pan"; "partition"; "pedestal_fan"; "person"; "pet"; "piano";
    "picture_frame"; "pillow"; "place_setting"; "plant"; "plates"; "playstation"; "pool";
    "range_hood"; "range_oven"; "refrigerator"; "roof"; "rug"; "shelving"; "shoes_cabinet";
    "shower"; "single_bed"; "sink"; "soap_dispenser"; "sofa"; "stairs"; "stand";
    "stationary_container"; "stereo_set"; "switch"; "table_and_chair"; "table_lamp"; "telephone";
    "television"; "toilet"; "towel_hanger"; "towel_rack"; "toy"; "trash_can"; "trinket";
    "tv_stand"; "umbrella"; "utensil_holder"; "vacuum_cleaner"; "vase"; "wall"; "wall_lamp";
    "wardrobe_cabinet"; "washer"; "water_dispenser"; "whiteboard"; "window"; "workplace"; "xbox"
  ].

(** One entry of the perceptual settings, evaluator.py 228-252. *)
Definition curve (weight mean std_dev : Q) : value :=
  Dict [("weight", Number weight); ("mean", Number mean); ("std_dev", Number std_dev)].

(** default_settings, evaluator.py 81-265: the contents of the new dictionary. *)
Definition default_settings : settings :=
  [("thresholds", Array (linspace (1#4) (3#4) 10));
   ("recall_samples", Array (linspace 0 1 10));
   ("categories", Names default_categories);
   ("density", Number 150);
   ("mesh_overlap_thresh", Number (15#100));
   ("voxel_overlap_thresh", Number (15#100));
   ("perceptual", Dict
      [("room_scale", curve 100 1 (15#100));
       ("true_obj_scale", curve 5 1 (18#100));
       ("relative_obj_scale", curve 5 1 (18#100));
       ("translation", curve 5 0 (5#10));
       ("elevation", curve 5 0 (5#1000));
       ("missed_weight", Number 25);
       ("extra_weight", Number 25)])].

Section Construct.
  Context {A B : Type}.

  (** An Evaluator object: the identity of its settings dictionary and its own fields,
      evaluator.py 60-79. *)
  Record instance := Instance {
    i_settings : nat;
    i_submission : @scene B;
    i_ground_truth : @scene B;
    i_cache : sdict (sdict corr);
    i_agnostic : qdict (sdict corr);
    i_category : sdict (qdict (sdict corr))
  }.

  (** _shape_similarity as seen from the base class: [Err] when it raises for the
      settings at hand.  mesh_evaluator.py 215-220 and voxel_evaluator.py 119-124 look up
      a tolerance for every pair; bb_evaluator.py needs none. *)
  Definition tolerance (key : option string) (sub gt : @scene B) (d : settings) : res Q :=
    match key with
    | None => Ok 0%Q
    | Some k =>
        match sub, gt with
        | _ :: _, _ :: _ => let* v := sgetE k d in as_number v
        | _, _ => Ok 0%Q
        end
    end.

  (** Evaluator.__init__, evaluator.py 47-79, with the similarity of the track at the
      tolerance found under [key].  The dictionaries after the call come with its
      outcome: the assignment of line 61 stays when a later line raises. *)
  Definition base_init (sim : Q -> elem B -> elem B -> Q) (key : option string)
    (sub gt : @scene B) (arg : option nat) (st : store) : store * res instance :=
    let '(st, a) :=
      match arg with
      | None => (st ++ [(fresh st, default_settings)], fresh st)
      | Some a => (st, a)
      end in
    match (let* d := look a st in
           let* v := sgetE "thresholds" d in
           let* s := np_sort v in
           Ok (sset "thresholds" s d)) with
    | Err e => (st, Err e)
    | Ok d =>
        (dset Nat.eqb a d st,
         let* tol := tolerance key sub gt d in
         let cache := make_similarity_cache (sim tol) sub gt in
         let* ts := (let* v := sgetE "thresholds" d in as_numbers v) in
         let* agn := compute_agnostic sub ts cache in
         let* cats := (let* v := sgetE "categories" d in as_names v) in
         let* cat := compute_category sub gt ts cats cache in
         Ok (Instance a sub gt cache agn cat))
    end.

  (** An element with what a track's constructor stores on it.  The attributes are set
      on the caller's elements; here the prepared elements are new values. *)
  Definition with_info (e : elem A) (b : B) : elem B :=
    mkElem (e_id e) (e_category e) (e_score e) (e_evaluated e) b.

  (** Lines 140-145 of mesh_evaluator.py for one scene: [settings["density"]] is
      evaluated for every element, so None raises at the first one. *)
  Definition mesh_prepare (sample : Q -> elem A -> res B) (arg : option nat) (st : store)
    (s : @scene A) : res (@scene B) :=
    mapM (fun ke =>
      let* a := match arg with Some a => Ok a | None => Err TypeError end in
      let* d := look a st in
      let* v := sgetE "density" d in
      let* density := as_number v in
      let* b := sample density (snd ke) in
      Ok (fst ke, with_info (snd ke) b)) s.

  (** MeshEvaluator.__init__, mesh_evaluator.py 127-149. *)
  Definition mesh_init (sample : Q -> elem A -> res B) (sim : Q -> elem B -> elem B -> Q)
    (submission ground_truth : @scene A) (arg : option nat) (st : store) : store * res instance :=
    match (let* sub := mesh_prepare sample arg st submission in
           let* gt := mesh_prepare sample arg st ground_truth in
           Ok (sub, gt)) with
    | Err e => (st, Err e)
    | Ok (sub, gt) => base_init sim (Some "mesh_overlap_thresh") sub gt arg st
    end.

  (** Lines 38-49 of voxel_evaluator.py and 38-44 of bb_evaluator.py for one scene. *)
  Definition plain_prepare (prep : elem A -> res B) (s : @scene A) : res (@scene B) :=
    mapM (fun ke => let* b := prep (snd ke) in Ok (fst ke, with_info (snd ke) b)) s.

  (** VoxelEvaluator.__init__, voxel_evaluator.py 21-51, with the argument order of
      line 51. *)
  Definition voxel_init (prep : elem A -> res B) (sim : Q -> elem B -> elem B -> Q)
    (submission ground_truth : @scene A) (arg : option nat) (st : store) : store * res instance :=
    match (let* sub := plain_prepare prep submission in
           let* gt := plain_prepare prep ground_truth in
           Ok (sub, gt)) with
    | Err e => (st, Err e)
    | Ok (sub, gt) => base_init sim (Some "voxel_overlap_thresh") gt sub arg st
    end.

  (** BBEvaluator.__init__, bb_evaluator.py 23-46. *)
  Definition bb_init (prep : elem A -> res B) (sim : elem B -> elem B -> Q)
    (submission ground_truth : @scene A) (arg : option nat) (st : store) : store * res instance :=
    match (let* sub := plain_prepare prep submission in
           let* gt := plain_prepare prep ground_truth in
           Ok (sub, gt)) with
    | Err e => (st, Err e)
    | Ok (sub, gt) => base_init (fun _ => sim) None sub gt arg st
    end.

  (** What the score methods see: the object's own fields, and the thresholds and
      categories its dictionary holds at that moment (evaluator.py 289, 342, 490, 497,
      546). *)
  Definition current (o : instance) (st : store) : res (@evaluator B) :=
    let* d := look (i_settings o) st in
    let* ts := (let* v := sgetE "thresholds" d in as_numbers v) in
    let* cats := (let* v := sgetE "categories" d in as_names v) in
    Ok (mkEvaluator ts cats (i_submission o) (i_ground_truth o) (i_cache o) (i_agnostic o) (i_category o)).

  (** The caller's [settings[k] = v]. *)
  Definition assign (a : nat) (k : string) (v : value) (st : store) : store :=
    match dget Nat.eqb a st with Some d => dset Nat.eqb a (sset k v d) st | None => st end.
End Construct.
Arguments instance B : clear implicits.
