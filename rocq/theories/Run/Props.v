(** Property C81: the reports of evaluate_all and the program evaluate-one. *)
From Coq Require Import Reals List Bool String QArith ZArith Lia Lra.
From Verif.Base Require Import Py PyFacts Sort Vec Fs.
From Verif.Geom Require Import Model.
From Verif.Box Require Import Model Spec.
From Verif.Symm Require Import Model.
From Verif.Assoc Require Import Model Spec Proofs.
From Verif.AP Require Import Model Spec Proofs.
From Verif.Scores Require Import Model Spec Proofs.
From Verif.Points Require Import Model Spec Proofs Props.
From Verif.PoseErr Require Import Model Spec.
From Verif.Percept Require Import Model Spec Proofs Props.
From Verif.Voxel Require Import Model Props.
From Verif.Settings Require Import Model Spec Proofs Props.
From Verif.Run Require Import Model Spec Proofs.
Import ListNotations.
Local Open Scope string_scope.
Local Open Scope list_scope.

(** The report of the box track has exactly the five documented entries, in their ranges
    and consistent with each other. *)
Theorem C81_box_report : forall argsort lognorm sim sub gt ts cats ev d params,
  argsort_ok argsort -> lognorm_ok lognorm -> keyed_by_id sub -> keyed_by_id gt ->
  evaluator_init sim sub gt ts cats = Ok ev -> well_placed (elements sub) -> well_placed (elements gt) -> ts <> [] ->
  perceptual_at d = Ok params -> sane params ->
  exists m, evaluate_all_bb argsort lognorm d ev = Ok m /\
    dkeys m = ["shape_score"; "rotation_error"; "translation_error"; "semantics_score"; "perceptual_score"] /\
    five cats (elements gt) m.
Proof.
  intros argsort lognorm sim sub gt ts cats ev d params Ha L Kd Kg E Wd Wg Ht Ep S.
  exact (report_bb argsort lognorm sim sub gt ts cats ev d params Ha L Kd Kg E Wd Wg Ht Ep S).
Qed.

(** The report of the mesh and voxel tracks has two entries more, provided that every
    element has points, or that the similarity is the tracks' own and the thresholds are
    positive. *)
Theorem C81_surface_report : forall argsort lognorm query sim sub gt ts cats ev d params,
  argsort_ok argsort -> lognorm_ok lognorm -> query_ok query -> keyed_by_id sub -> keyed_by_id gt ->
  evaluator_init sim sub gt ts cats = Ok ev -> well_placed (elements sub) -> well_placed (elements gt) -> ts <> [] ->
  perceptual_at d = Ok params -> sane params ->
  with_points (elements sub) /\ with_points (elements gt) \/
  (exists tol, sim = surface_similarity query tol) /\ (forall t, In t ts -> 0 < t)%Q ->
  exists m, evaluate_all_surface argsort lognorm query d ev = Ok m /\
    dkeys m = ["shape_score"; "rotation_error"; "translation_error"; "rms_points_error"; "rms_color_error";
               "semantics_score"; "perceptual_score"] /\
    five cats (elements gt) m /\ two_more m.
Proof.
  intros argsort lognorm query sim sub gt ts cats ev d params Ha L HQ Kd Kg E Wd Wg Ht Ep S C.
  apply (report_surface argsort lognorm query sim sub gt ts cats ev d params Ha L HQ Kd Kg E Wd Wg Ht Ep S).
  intros x g t X G It H. destruct C as [(P1 & P2)|((tol & ->) & P)].
  - split; [apply P1; exact X|apply P2; exact G].
  - exact (surface_positive query tol t x g (P t It) H).
Qed.

(** One metric that fails loses the whole report: at threshold 0 an element without points
    is matched, the color error raises, and nothing is reported although the scores are
    defined. *)
Definition bare (rows : list row) : prepared :=
  Prepared (Pose mid vzero) (Symmetry spherical spherical spherical) (Box vzero (V 1 1 1)) rows (mesh_bbox rows).
Definition bare_d : elem prepared := mkElem "d" "chair" 1%Q true (bare ex_near_pts).
Definition bare_g : elem prepared := mkElem "g" "chair" 1%Q true (bare []).

Lemma one_keyed : forall A (e : elem A), keyed_by_id [(e_id e, e)].
Proof. intros A e. split; [repeat constructor; intros []|]. intros k x [H|[]]. injection H as <- <-. reflexivity. Qed.
Lemma bare_placed : forall rows, rotation (pR (pr_pose (bare rows))) /\ normalized (pr_bounds (bare rows)).
Proof. intro rows. split; [apply rotation_id|]. unfold normalized, vle. cbn. Lra.lra. Qed.

Theorem C81_partial_report_refuted : exists argsort lognorm query tol sub gt ev d params s,
  argsort_ok argsort /\ lognorm_ok lognorm /\ query_ok query /\ keyed_by_id sub /\ keyed_by_id gt /\
  well_placed (elements sub) /\ well_placed (elements gt) /\
  evaluator_init (surface_similarity query tol) sub gt [0%Q] ["chair"] = Ok ev /\ perceptual_at d = Ok params /\ sane params /\
  shape_score argsort ev = Ok (Some s) /\ (0 < s)%Q /\
  evaluate_all_surface argsort lognorm query d ev = Err BroadcastError.
Proof.
  assert (S : Qle_bool 0 (surface_similarity brute 1 bare_d bare_g) = true).
  { apply Qle_bool_iff. unfold surface_similarity. rewrite C14_empty by (right; reflexivity). apply Qle_refl. }
  remember (surface_similarity brute 1) as sim eqn:Es.
  pose (c := mkCorr "d" "g" (sim bare_d bare_g) 1 true).
  pose (ev := mkEvaluator [0%Q] ["chair"] [("d", bare_d)] [("g", bare_g)] [("d", [("g", c)])] [(0%Q, [("d", c)])] [("chair", [(0%Q, [("d", c)])])]).
  assert (E : evaluator_init sim [("d", bare_d)] [("g", bare_g)] [0%Q] ["chair"] = Ok ev).
  { unfold evaluator_init. cbn -[Qle_bool]. unfold Qltb. cbn -[Qle_bool].
    unfold compute_agnostic. cbn -[Qle_bool]. unfold Qltb. rewrite S. cbn. unfold Qltb. cbn in S. rewrite ?S. reflexivity. }
  assert (Kd := one_keyed _ bare_d). assert (Kg := one_keyed _ bare_g). cbn [bare_d bare_g e_id] in Kd, Kg.
  fold bare_d in Kd. fold bare_g in Kg.
  assert (Wd : well_placed (elements [("d", bare_d)])) by (intros e [<-|[]]; apply bare_placed).
  assert (Wg : well_placed (elements [("g", bare_g)])) by (intros e [<-|[]]; apply bare_placed).
  destruct (shape_part sim _ _ [0%Q] ["chair"] ev Kd Kg E stable_argsort stable_argsort_ok ltac:(discriminate)) as (r & Er & R1 & R2 & _).
  assert (W : wanted (elements [("g", bare_g)])) by (exists bare_g; split; [left; reflexivity|reflexivity]).
  destruct (proj1 R1 W) as (s & Hs & Bs). destruct r as [s'|]; [|discriminate]. cbn in Hs. injection Hs as ->.
  assert (C : counted sim [("d", bare_d)] [("g", bare_g)] [0%Q]).
  { exists 0%Q, bare_d, bare_g. split; [left; reflexivity|]. split; [|reflexivity]. split; [left; reflexivity|]. split; [left; reflexivity|].
    assert (X := keyed_agnostic sim _ _ _ _ ev 0%Q Kd Kg E (or_introl eq_refl)). cbn [ev ev_agnostic dget] in X. injection X as <-.
    exists c. split; reflexivity. }
  destruct (pose_part sim _ _ [0%Q] ["chair"] ev Kd Kg E _ PoseErr.Props.lognorm_exists Wd Wg) as (pe & Ep & _).
  destruct (points_part sim _ _ [0%Q] ["chair"] ev Kd Kg E brute brute_ok) as (po & Eo & _).
  exists stable_argsort, (fun m => (sqrt 2 * PoseErr.Proofs.rot_angle m)%R), brute, 1%Q, [("d", bare_d)], [("g", bare_g)], ev,
    (sset "thresholds" (Array []) default_settings), default_perceptual, s.
  split; [apply stable_argsort_ok|]. split; [apply PoseErr.Props.lognorm_exists|]. split; [apply brute_ok|].
  split; [exact Kd|]. split; [exact Kg|]. split; [exact Wd|]. split; [exact Wg|]. split; [rewrite <- Es; exact E|].
  split; [apply perceptual_default|]. split; [apply C51_default|]. split; [exact Er|]. split.
  - destruct (Qlt_le_dec 0 s) as [P|P]; [exact P|]. exfalso. apply (proj1 (R2 s eq_refl)); [|exact C]. apply Qle_antisym; [exact P|apply Bs].
  - unfold evaluate_all_surface. rewrite Er. cbn [bind]. rewrite Ep. cbn [bind]. rewrite Eo. cbn [bind].
    assert (Ec : color_rmsssd brute pr_points ev = Err BroadcastError) by reflexivity. rewrite Ec. reflexivity.
Qed.

(** * The program *)
Section Tool.
  Context {S : Type}.
  Variables (argsort : list Q -> list nat) (lognorm : mat -> R) (query : list vec -> vec -> R * nat).
  Variables (load : path -> string -> res (loaded S)) (sample : Q -> elem (object S) -> res (list row)) (grid_of : S -> grid)
            (box_similarity : elem prepared -> elem prepared -> Q).
  Notation main := (main argsort lognorm query load sample grid_of box_similarity).

  (** Errors: the ground truth is loaded first, an error of either load is the program's,
      and scenes of different types are refused. *)
  Theorem C81_tool_errors : forall gt_path sub_path,
    (forall e, load (dirname gt_path) (basename gt_path) = Err e -> main gt_path sub_path = Err e) /\
    (forall g e, load (dirname gt_path) (basename gt_path) = Ok g -> load (dirname sub_path) (basename sub_path) = Err e ->
       main gt_path sub_path = Err e) /\
    (forall g s, load (dirname gt_path) (basename gt_path) = Ok g -> load (dirname sub_path) (basename sub_path) = Ok s ->
       l_type g <> l_type s -> main gt_path sub_path = Err ValueError).
  Proof.
    intros gt_path sub_path. unfold Model.main. split; [|split].
    - intros e ->. reflexivity.
    - intros g e -> ->. reflexivity.
    - intros g s -> -> N. cbn [bind]. apply String.eqb_neq in N. rewrite N. reflexivity.
  Qed.

  (** What the tracks need of an element. *)
  Definition preparable (ty : string) (e : elem (object S)) : Prop :=
    if String.eqb ty "meshes" then exists rows, sample 150 e = Ok rows
    else if String.eqb ty "voxels" then exists pb, prepare (ob_pose (e_info e)) (grid_of (ob_shape (e_info e))) = Ok pb
    else True.
  (** The scene that is taken for the truth: for voxels it is the submission. *)
  Definition truth (ty : string) (sub gt : @scene (object S)) : list (elem (object S)) :=
    if String.eqb ty "voxels" then elements sub else elements gt.

  Hypotheses (Ha : argsort_ok argsort) (L : lognorm_ok lognorm) (HQ : query_ok query).

  (** Scenes of the same known type whose elements can be prepared: the five lines are
      printed, with numbers in their ranges. *)
  Theorem C81_tool_report : forall gt_path sub_path ty gt sub,
    load (dirname gt_path) (basename gt_path) = Ok (Loaded ty gt) -> load (dirname sub_path) (basename sub_path) = Ok (Loaded ty sub) ->
    In ty ["meshes"; "voxels"; "bounding_box"] -> keyed_by_id sub -> keyed_by_id gt -> in_order (elements sub) -> in_order (elements gt) ->
    (forall e, In e (elements sub) \/ In e (elements gt) -> preparable ty e) ->
    exists shape translation rotation semantics percept,
      main gt_path sub_path = Ok (printed shape translation rotation semantics percept) /\
      plausible (wanted (truth ty sub gt)) (wanted_in default_categories (truth ty sub gt)) shape rotation translation semantics percept.
  Proof.
    intros gt_path sub_path ty gt sub Eg Es T Kd Kg Od Og PR.
    assert (FIN : forall m cats' (g : list (elem prepared)) (g' : list (elem (object S))),
      (wanted g <-> wanted g') -> (wanted_in cats' g <-> wanted_in cats' g') -> five cats' g m ->
      exists shape translation rotation semantics percept,
        (let* shape := sgetE "shape_score" m in let* translation := sgetE "translation_error" m in let* rotation := sgetE "rotation_error" m in
         let* semantics := sgetE "semantics_score" m in let* percept := sgetE "perceptual_score" m in
         Ok [("Shape Score (1 is best)", shape); ("Translation Error (0 is best)", translation); ("Rotation Error (0 is best)", rotation);
             ("Semantics Score (1 is best)", semantics); ("Perceptual Score (1 is best)", percept)])
         = Ok (printed shape translation rotation semantics percept) /\
        plausible (wanted g') (wanted_in cats' g') shape rotation translation semantics percept).
    { intros m cats' g g' W1 W2 (a & b & c & d & e & E1 & E2 & E3 & E4 & E5 & P). exists a, c, b, d, e. unfold dgetE. rewrite E1, E2, E3, E4, E5. split; [reflexivity|].
      unfold plausible, score_if in *. rewrite <- W1, <- W2. exact P. }
    unfold Model.main. rewrite Eg, Es. cbn [bind l_type l_elements]. rewrite String.eqb_refl. cbn [negb].
    assert (HT : default_ts <> []) by discriminate.
    assert (TOL : forall k (s1 s2 : @scene prepared), k = "mesh_overlap_thresh" \/ k = "voxel_overlap_thresh" -> exists tol, tolerance (Some k) s1 s2 default_settings = Ok tol).
    { intros k s1 s2 [->| ->]; destruct s1; destruct s2; eexists; reflexivity. }
    destruct T as [<-|[<-|[<-|[]]]]; unfold evaluator_lut; cbn [String.eqb Ascii.eqb Bool.eqb]; unfold truth, preparable in *; cbn [String.eqb Ascii.eqb Bool.eqb] in *.
    - assert (FP : faithful_prep (mesh_sample sample 150)).
      { intros e p E. unfold mesh_sample in E. destruct (sample 150 e); [|discriminate]. cbn [bind] in E. injection E as <-. auto. }
      destruct (plain_dressed (mesh_sample sample 150) sub FP) as (sub' & Es' & Ds).
      { intros e I. destruct (PR e (or_introl I)) as (rows & Er). unfold mesh_sample. rewrite Er. eexists. reflexivity. }
      destruct (plain_dressed (mesh_sample sample 150) gt FP) as (gt' & Eg' & Dg).
      { intros e I. destruct (PR e (or_intror I)) as (rows & Er). unfold mesh_sample. rewrite Er. eexists. reflexivity. }
      destruct (TOL _ sub' gt' (or_introl eq_refl)) as (tol & Et).
      destruct (base_default (surface_similarity query) _ sub' gt' tol Et (dressed_keyed _ _ Ds Kd) (dressed_keyed _ _ Dg Kg)) as (st & o & ev & d & B1 & B2 & B3 & B4 & B5).
      assert (X : mesh_init (mesh_sample sample) (surface_similarity query) sub gt (Some 0%nat) [(0%nat, default_settings)] = (st, Ok o)).
      { unfold mesh_init. change (mesh_prepare (mesh_sample sample) (Some 0%nat) [(0%nat, default_settings)]) with (plain_prepare (mesh_sample sample 150)).
        rewrite Es', Eg'. exact B1. }
      rewrite X. cbn [bind]. rewrite B2, B3. cbn [bind].
      destruct (C81_surface_report argsort lognorm query _ sub' gt' _ _ ev d default_perceptual Ha L HQ (dressed_keyed _ _ Ds Kd) (dressed_keyed _ _ Dg Kg) B4
        (dressed_placed _ _ Ds Od) (dressed_placed _ _ Dg Og) HT B5 (proj1 C51_default) (or_intror (conj (ex_intro _ tol eq_refl) default_ts_pos))) as (m & Em & _ & F & _).
      rewrite Em. cbn [bind]. exact (FIN m _ _ (elements gt) (dressed_wanted _ _ Dg) (dressed_wanted_in _ _ _ Dg) F).
    - assert (FP : faithful_prep (voxel_prepare grid_of)).
      { intros e p E. unfold voxel_prepare in E. destruct (prepare _ _); [|discriminate]. cbn [bind] in E. injection E as <-. auto. }
      destruct (plain_dressed (voxel_prepare grid_of) sub FP) as (sub' & Es' & Ds).
      { intros e I. destruct (PR e (or_introl I)) as (pb & Er). unfold voxel_prepare. rewrite Er. eexists. reflexivity. }
      destruct (plain_dressed (voxel_prepare grid_of) gt FP) as (gt' & Eg' & Dg).
      { intros e I. destruct (PR e (or_intror I)) as (pb & Er). unfold voxel_prepare. rewrite Er. eexists. reflexivity. }
      destruct (TOL _ gt' sub' (or_intror eq_refl)) as (tol & Et).
      destruct (base_default (surface_similarity query) _ gt' sub' tol Et (dressed_keyed _ _ Dg Kg) (dressed_keyed _ _ Ds Kd)) as (st & o & ev & d & B1 & B2 & B3 & B4 & B5).
      assert (X : voxel_init (voxel_prepare grid_of) (surface_similarity query) sub gt (Some 0%nat) [(0%nat, default_settings)] = (st, Ok o)).
      { unfold voxel_init. rewrite Es', Eg'. exact B1. }
      rewrite X. cbn [bind]. rewrite B2, B3. cbn [bind].
      destruct (C81_surface_report argsort lognorm query _ gt' sub' _ _ ev d default_perceptual Ha L HQ (dressed_keyed _ _ Dg Kg) (dressed_keyed _ _ Ds Kd) B4
        (dressed_placed _ _ Dg Og) (dressed_placed _ _ Ds Od) HT B5 (proj1 C51_default) (or_intror (conj (ex_intro _ tol eq_refl) default_ts_pos))) as (m & Em & _ & F & _).
      rewrite Em. cbn [bind]. exact (FIN m _ _ (elements sub) (dressed_wanted _ _ Ds) (dressed_wanted_in _ _ _ Ds) F).
    - assert (FP : faithful_prep (@bb_prepare S)).
      { intros e p E. injection E as <-. auto. }
      destruct (plain_dressed bb_prepare sub FP) as (sub' & Es' & Ds); [intros e _; eexists; reflexivity|].
      destruct (plain_dressed bb_prepare gt FP) as (gt' & Eg' & Dg); [intros e _; eexists; reflexivity|].
      destruct (base_default (fun _ => box_similarity) None sub' gt' 0%Q eq_refl (dressed_keyed _ _ Ds Kd) (dressed_keyed _ _ Dg Kg)) as (st & o & ev & d & B1 & B2 & B3 & B4 & B5).
      assert (X : bb_init bb_prepare box_similarity sub gt (Some 0%nat) [(0%nat, default_settings)] = (st, Ok o)).
      { unfold bb_init. rewrite Es', Eg'. exact B1. }
      rewrite X. cbn [bind]. rewrite B2, B3. cbn [bind].
      destruct (C81_box_report argsort lognorm _ sub' gt' _ _ ev d default_perceptual Ha L (dressed_keyed _ _ Ds Kd) (dressed_keyed _ _ Dg Kg) B4
        (dressed_placed _ _ Ds Od) (dressed_placed _ _ Dg Og) HT B5 (proj1 C51_default)) as (m & Em & _ & F).
      rewrite Em. cbn [bind]. exact (FIN m _ _ (elements gt) (dressed_wanted _ _ Dg) (dressed_wanted_in _ _ _ Dg) F).
  Qed.
End Tool.

(** A room with one chair as boxes or as voxels, an empty room, and a broken file. *)
Definition chair : object unit := Object (Pose mid vzero) (Symmetry twoFold none none) (Box vzero (V 1 1 1)) tt.
Definition chairs : @scene (object unit) := [("c", mkElem "c" "chair" 1%Q true chair)].
Definition disk (dir : path) (name : string) : res (loaded unit) :=
  if String.eqb name "boxes" then Ok (Loaded "bounding_box" chairs)
  else if String.eqb name "voxels" then Ok (Loaded "voxels" chairs)
  else if String.eqb name "empty" then Ok (Loaded "voxels" [])
  else Err IOError.
Definition at_home (name : string) : path := Rel ["home"; name].
Definition tool := main stable_argsort (fun m => (sqrt 2 * PoseErr.Proofs.rot_angle m)%R) brute disk (fun _ _ => Ok []) (fun _ => Voxel.Props.ex_grid) (fun _ _ => 1%Q).

Lemma chairs_ok : keyed_by_id chairs /\ in_order (elements chairs).
Proof.
  split; [exact (one_keyed _ (mkElem "c" "chair" 1%Q true chair))|]. intros e [<-|[]]. split; [apply rotation_id|]. unfold normalized, vle. cbn. Lra.lra.
Qed.

(** With voxels, "nan" is printed for an empty submission although the ground truth has an
    object to find. *)
Theorem C81_voxel_number_refuted : exists (load : path -> string -> res (loaded unit)) argsort lognorm query sample grid_of box_similarity
    gt_path sub_path gt sub translation rotation semantics percept,
  argsort_ok argsort /\ lognorm_ok lognorm /\ query_ok query /\
  load (dirname gt_path) (basename gt_path) = Ok (Loaded "voxels" gt) /\ load (dirname sub_path) (basename sub_path) = Ok (Loaded "voxels" sub) /\
  keyed_by_id gt /\ in_order (elements gt) /\ wanted (elements gt) /\
  main argsort lognorm query load sample grid_of box_similarity gt_path sub_path = Ok (printed Nan translation rotation semantics percept).
Proof.
  destruct chairs_ok as (K & O).
  destruct (C81_tool_report stable_argsort (fun m => (sqrt 2 * PoseErr.Proofs.rot_angle m)%R) brute disk (fun _ _ => Ok []) (fun _ => Voxel.Props.ex_grid) (fun _ _ => 1%Q)
    stable_argsort_ok PoseErr.Props.lognorm_exists brute_ok (at_home "voxels") (at_home "empty") "voxels" chairs [] eq_refl eq_refl ltac:(right; left; reflexivity)
    (conj (NoDup_nil _) (fun k e (H : In (k, e) []) => match H with end)) K (fun e (H : In e []) => match H with end) O) as (a & b & c & d & e & E & (_ & P) & _).
  { intros e [[]|[<-|[]]]. eexists. reflexivity. }
  exists disk, stable_argsort, (fun m => (sqrt 2 * PoseErr.Proofs.rot_angle m)%R), brute, (fun _ _ => Ok []), (fun _ => Voxel.Props.ex_grid), (fun _ _ => 1%Q), (at_home "voxels"), (at_home "empty"), chairs, [], b, c, d, e.
  split; [apply stable_argsort_ok|]. split; [apply PoseErr.Props.lognorm_exists|]. split; [apply brute_ok|].
  split; [reflexivity|]. split; [reflexivity|]. split; [exact K|]. split; [exact O|]. split; [eexists; split; [left; reflexivity|reflexivity]|].
  rewrite P in E; [exact E|]. intros (g & [] & _).
Qed.

(** The chair against itself; scenes of two types; a missing file, where an unreadable
    ground truth is noticed before the submission. *)
Example C81_example :
  (exists q translation rotation q' percept, tool (at_home "boxes") (at_home "boxes") = Ok (printed (Rat q) translation rotation (Rat q') percept) /\ (0 <= q <= 1)%Q) /\
  tool (at_home "boxes") (at_home "voxels") = Err ValueError /\ tool (at_home "boxes") (at_home "none") = Err IOError /\
  tool (at_home "none") (at_home "boxes") = Err IOError.
Proof.
  split; [|repeat split; reflexivity]. destruct chairs_ok as (K & O).
  destruct (C81_tool_report stable_argsort (fun m => (sqrt 2 * PoseErr.Proofs.rot_angle m)%R) brute disk (fun _ _ => Ok []) (fun _ => Voxel.Props.ex_grid) (fun _ _ => 1%Q)
    stable_argsort_ok PoseErr.Props.lognorm_exists brute_ok (at_home "boxes") (at_home "boxes") "bounding_box" chairs chairs eq_refl eq_refl ltac:(right; right; left; reflexivity)
    K K O O) as (a & b & c & d & e & E & (P & _) & _ & _ & (P' & _) & _).
  { intros e _. exact Logic.I. }
  destruct P as (q & -> & B); [eexists; split; [left; reflexivity|reflexivity]|].
  destruct P' as (q' & -> & _).
  { eexists. split; [left; reflexivity|]. split; [reflexivity|]. apply str_in_In. vm_compute. reflexivity. }
  exists q, b, c, q', e. split; [exact E|exact B].
Qed.

Print Assumptions C81_box_report.
Print Assumptions C81_surface_report.
Print Assumptions C81_partial_report_refuted.
Print Assumptions C81_tool_errors.
Print Assumptions C81_tool_report.
Print Assumptions C81_voxel_number_refuted.
