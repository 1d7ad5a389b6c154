(** Data association of sumo/metrics/evaluator.py.

    Scores, similarities and thresholds are rationals: every finite float is
    one, and this code only compares them.  NaN is outside the model. *)
From Coq Require Import List Bool String QArith.
From Verif.Base Require Import Py Sort.
Import ListNotations.

(** ProjectObject attributes used by the evaluator
    (semantic/project_object.py 34-51).  [info] carries whatever the
    track-specific code needs (geometry, pose). *)
Record elem (A : Type) := mkElem {
  e_id : string;
  e_category : string;
  e_score : Q;
  e_evaluated : bool;
  e_info : A
}.
Arguments mkElem {A}. Arguments e_id {A}. Arguments e_category {A}.
Arguments e_score {A}. Arguments e_evaluated {A}. Arguments e_info {A}.

(** [x < y] on finite floats. *)
Definition Qltb (x y : Q) : bool := negb (Qle_bool y x).

(** Corr, evaluator.py 943-954. *)
Record corr := mkCorr {
  c_det : string; c_gt : string; c_sim : Q; c_score : Q; c_eval : bool
}.

Definition sdict (V : Type) := list (string * V).
Definition qdict (V : Type) := list (Q * V).

Section Assoc.
  Context {A : Type}.
  (** [_shape_similarity]: defined by the track-specific subclasses
      (evaluator.py 594-608). *)
  Variable sim : elem A -> elem A -> Q.

  (** A scene's [elements]: dictionary from key to element. *)
  Definition scene := sdict (elem A).

  (** Inner loop of _make_similarity_cache, evaluator.py 585-591. *)
  Definition cache_row (det : elem A) (gts : scene) : sdict corr :=
    fold_left (fun row gt =>
      sset (e_id gt) (mkCorr (e_id det) (e_id gt) (sim det gt) (e_score det) (e_evaluated gt)) row)
      (dvalues gts) [].

  (** _make_similarity_cache, evaluator.py 564-592. *)
  Definition make_similarity_cache (dets gts : scene) : sdict (sdict corr) :=
    fold_left (fun cache det => sset (e_id det) (cache_row det gts) cache)
      (dvalues dets) [].

  (** Lines 658-661: pop every entry whose similarity is below [thresh].
      Popping keys one by one from a dict is modelled as a filter. *)
  Definition prune (thresh : Q) (cache : sdict (sdict corr)) : sdict (sdict corr) :=
    map (fun kv => (fst kv,
      filter (fun gc => negb (Qltb (c_sim (snd gc)) thresh)) (snd kv))) cache.

  (** sorted(det_elements.values(), key=score, reverse=True), lines 669-672:
      descending, stable (equal scores keep dictionary order). *)
  Definition sort_dets (dets : scene) : list (elem A) :=
    isort (fun a b => Qle_bool (e_score b) (e_score a)) (dvalues dets).

  (** sort_corrs_by_similarity, evaluator.py 957-964: ascending, stable. *)
  Definition sort_corrs (l : list corr) : list corr :=
    isort (fun a b => Qle_bool (c_sim a) (c_sim b)) l.

  (** [l[-1]] of a list, [None] when empty. *)
  Definition last_opt {B} (l : list B) : option B :=
    match rev l with [] => None | x :: _ => Some x end.

  (** Body of the loop over detections, lines 673-686.  State: the result for
      this threshold and [assigned_gts]. *)
  Definition assoc_step (cache : sdict (sdict corr))
    (st : sdict corr * sdict string) (det : elem A)
    : res (sdict corr * sdict string) :=
    let '(result, assigned) := st in
    let* row := sgetE (e_id det) cache in
    let possible := sort_corrs
      (filter (fun c => negb (smem (c_gt c) assigned)) (dvalues row)) in
    match last_opt possible with
    | Some c => Ok (sset (e_id det) c result, sset (c_gt c) (e_id det) assigned)
    | None => Ok (result, assigned)
    end.

  (** Lines 663-686 for one threshold. *)
  Definition assoc_one (dets : scene) (cache : sdict (sdict corr)) : res (sdict corr) :=
    let* st := foldM (assoc_step cache) ([], []) (sort_dets dets) in
    Ok (fst st).

  (** The loop over thresholds, lines 654-686.  The pruned cache is carried from
      one threshold to the next, as the code does. *)
  Fixpoint assoc_loop (dets : scene) (cache : sdict (sdict corr))
    (acc : qdict (sdict corr)) (ts : list Q) : res (qdict (sdict corr)) :=
    match ts with
    | [] => Ok acc
    | t :: rest =>
        let cache' := prune t cache in
        let* r := assoc_one dets cache' in
        assoc_loop dets cache' (dset Qeq_bool t r acc) rest
    end.

  (** _compute_agnostic_data_assoc, evaluator.py 610-688.  The deep copy of the
      cache (line 645) is the sharing-free value passed in. *)
  Definition compute_agnostic (dets : scene) (ts : list Q)
    (cache : sdict (sdict corr)) : res (qdict (sdict corr)) :=
    assoc_loop dets cache [] ts.

  (** Lines 731-733 / 735-737: elements of one category.  The code fills all
      categories in one pass over the items; the entry for [cat] receives the
      items whose category is [cat], in order. *)
  Definition by_category (cat : string) (els : scene) : scene :=
    filter (fun kv => String.eqb (e_category (snd kv)) cat) els.

  (** Lines 748-753: the cache restricted to one category.  Keys of the category
      dictionaries, not element ids, index the full cache: KeyError is possible. *)
  Definition cat_cache (dets gts : scene) (cache : sdict (sdict corr))
    : res (sdict (sdict corr)) :=
    foldM (fun acc det_id =>
      match dkeys gts with
      | [] => Ok (sset det_id [] acc)
      | _ =>
        let* row := sgetE det_id cache in
        Ok (sset det_id
             (fold_left (fun r gt_id =>
                match sget gt_id row with
                | Some c => sset gt_id c r
                | None => r
                end) (dkeys gts) []) acc)
      end) [] (dkeys dets).

  (** _compute_category_data_assoc, evaluator.py 690-759. *)
  Definition compute_category (dets gts : scene) (ts : list Q) (cats : list string)
    (cache : sdict (sdict corr)) : res (sdict (qdict (sdict corr))) :=
    foldM (fun acc cat =>
      let d := by_category cat dets in
      let g := by_category cat gts in
      if Nat.eqb (List.length d + List.length g) 0 then Ok acc
      else
        let* cc := cat_cache d g cache in
        let* r := compute_agnostic d ts cc in
        Ok (sset cat r acc)) [] cats.

  (** State of a constructed Evaluator. *)
  Record evaluator := mkEvaluator {
    ev_thresholds : list Q;
    ev_categories : list string;
    ev_submission : scene;
    ev_ground_truth : scene;
    ev_cache : sdict (sdict corr);
    ev_agnostic : qdict (sdict corr);
    ev_category : sdict (qdict (sdict corr))
  }.

  (** np.sort of the thresholds, evaluator.py 61. *)
  Definition sort_thresholds (ts : list Q) : list Q := isort Qle_bool ts.

  (** Evaluator.__init__, evaluator.py 47-79 (with settings given). *)
  Definition evaluator_init (submission ground_truth : scene)
    (thresholds : list Q) (categories : list string) : res evaluator :=
    let ts := sort_thresholds thresholds in
    let cache := make_similarity_cache submission ground_truth in
    let* agn := compute_agnostic submission ts cache in
    let* cat := compute_category submission ground_truth ts categories cache in
    Ok (mkEvaluator ts categories submission ground_truth cache agn cat).
End Assoc.
