(** Properties C01-C05: data association. *)
From Coq Require Import List Bool String QArith Lqa.
From Verif.Base Require Import Py PyFacts Sort.
From Verif.Assoc Require Import Model Spec Proofs.
Import ListNotations.
Open Scope string_scope.

(** A small scene pair used in the examples: detection "a" (score 1/2) and "b"
    (score 9/10); both overlap ground truth "x", only "a" overlaps "y". *)
Definition ex_elem (id cat : string) (score : Q) : elem unit := mkElem id cat score true tt.
Definition ex_sub : scene := [("a", ex_elem "a" "chair" (1#2)); ("b", ex_elem "b" "chair" (9#10));
                              ("c", ex_elem "c" "wall" (1#1))].
Definition ex_gt : scene := [("x", ex_elem "x" "chair" 1); ("y", ex_elem "y" "chair" 1);
                             ("z", ex_elem "z" "floor" 1)].
Definition ex_sim (d g : elem unit) : Q :=
  if String.eqb (e_id d) "a" then (if String.eqb (e_id g) "x" then 8#10 else if String.eqb (e_id g) "y" then 6#10 else 0)
  else if String.eqb (e_id d) "b" then (if String.eqb (e_id g) "x" then 7#10 else 0) else 0.

Example ex_keyed : keyed_by_id ex_sub /\ keyed_by_id ex_gt.
Proof.
  split; split.
  - repeat constructor; simpl; intuition discriminate.
  - simpl; intros k e [H|[H|[H|[]]]]; injection H as <- <-; reflexivity.
  - repeat constructor; simpl; intuition discriminate.
  - simpl; intros k e [H|[H|[H|[]]]]; injection H as <- <-; reflexivity.
Qed.

(** C01 *)
Theorem C01_matching_one_to_one :
  forall A (sim : elem A -> elem A -> Q) (sub gt : scene) ts cats ev,
  keyed_by_id sub -> keyed_by_id gt ->
  evaluator_init sim sub gt ts cats = Ok ev ->
  forall t, In t ts -> exists assoc,
    dget Qeq_bool t (ev_agnostic ev) = Some assoc /\
    faithful sim (elements sub) (elements gt) assoc /\
    one_to_one sim (elements sub) (elements gt) t (pairs (elements sub) (elements gt) assoc).
Proof.
  intros A sim sub gt ts cats ev Kd Kg H t Ht. exists (assoc_at sim sub gt t).
  split; [exact (keyed_agnostic sim sub gt ts cats ev t Kd Kg H Ht)|].
  split; [exact (faithful_at sim sub gt t Kd Kg)|exact (proj1 (stable_at sim sub gt t Kd Kg))].
Qed.

(** The example has matches at thresholds 1/2 and 3/4: "b" takes "x" and "a" is
    left with "y" at 1/2; at 3/4 "a" gets "x". *)
Example C01_example :
  (let* ev := evaluator_init ex_sim ex_sub ex_gt [3#4; 1#2] ["chair"; "wall"] in
   Ok (map (fun tr => (fst tr, map (fun kc => (fst kc, c_gt (snd kc))) (snd tr))) (ev_agnostic ev)))
  = Ok [(1#2, [("b", "x"); ("a", "y")]); (3#4, [("a", "x")])].
Proof. reflexivity. Qed.

(** C02 *)
Theorem C02_matching_stable :
  forall A (sim : elem A -> elem A -> Q) (sub gt : scene) ts cats ev,
  keyed_by_id sub -> keyed_by_id gt ->
  evaluator_init sim sub gt ts cats = Ok ev ->
  forall t, In t ts -> exists assoc,
    dget Qeq_bool t (ev_agnostic ev) = Some assoc /\
    stable sim (elements sub) (elements gt) t (pairs (elements sub) (elements gt) assoc).
Proof.
  intros A sim sub gt ts cats ev Kd Kg H t Ht. exists (assoc_at sim sub gt t).
  split; [exact (keyed_agnostic sim sub gt ts cats ev t Kd Kg H Ht)|exact (stable_at sim sub gt t Kd Kg)].
Qed.

Theorem C02_matching_unique :
  forall A (sim : elem A -> elem A -> Q) (sub gt : scene) ts cats ev,
  keyed_by_id sub -> keyed_by_id gt ->
  evaluator_init sim sub gt ts cats = Ok ev ->
  forall t assoc (m : elem A -> option (elem A)),
    In t ts -> dget Qeq_bool t (ev_agnostic ev) = Some assoc ->
    stable sim (elements sub) (elements gt) t (fun d g => m d = Some g) ->
    forall d g, m d = Some g <-> pairs (elements sub) (elements gt) assoc d g.
Proof.
  intros A sim sub gt ts cats ev Kd Kg H t assoc m Ht Ha Hs.
  rewrite (keyed_agnostic sim sub gt ts cats ev t Kd Kg H Ht) in Ha. injection Ha as <-.
  exact (unique_at sim sub gt t m Kd Kg Hs).
Qed.

(** A non-trivial alternative that is one-to-one and above the threshold but has
    a blocking pair: giving "x" to "a" and leaving "b" out. *)
Definition ex_a := ex_elem "a" "chair" (1#2).
Definition ex_b := ex_elem "b" "chair" (9#10).
Definition ex_x := ex_elem "x" "chair" 1.
Example C02_example_blocking :
  blocking_pair ex_sim (elements ex_sub) (elements ex_gt) (1#2)
    (fun d g => d = ex_a /\ g = ex_x) ex_b ex_x.
Proof.
  repeat split; simpl; auto.
  - unfold ex_sim; simpl; lra.
  - intros g' [E _]; discriminate.
  - intros d' [-> _]. left. simpl; lra.
Qed.

(** C03: no assumption on the scenes. *)
Theorem C03_thresholds_independent :
  forall A (sim : elem A -> elem A -> Q) (sub gt : scene) ts cats t ev,
  evaluator_init sim sub gt ts cats = Ok ev -> In t ts ->
  exists ev1,
    evaluator_init sim sub gt [t] cats = Ok ev1 /\
    dget Qeq_bool t (ev_agnostic ev) = dget Qeq_bool t (ev_agnostic ev1) /\
    (exists a, dget Qeq_bool t (ev_agnostic ev) = Some a) /\
    (forall cat, option_map (dget Qeq_bool t) (sget cat (ev_category ev)) =
                 option_map (dget Qeq_bool t) (sget cat (ev_category ev1))) /\
    ev_cache ev = ev_cache ev1.
Proof. intros A sim; exact (thresholds_independent sim). Qed.

Example C03_example :
  (let* ev := evaluator_init ex_sim ex_sub ex_gt [3#4; 1#2; 9#10] ["chair"] in
   Ok (option_map (map fst) (dget Qeq_bool (3#4) (ev_agnostic ev)))) = Ok (Some ["a"]).
Proof. reflexivity. Qed.

(** C04 *)
Theorem C04_threshold_monotone :
  forall A (sim : elem A -> elem A -> Q) (sub gt : scene) ts cats ev,
  keyed_by_id sub -> keyed_by_id gt ->
  evaluator_init sim sub gt ts cats = Ok ev ->
  forall t1 t2 a1 a2, In t1 ts -> In t2 ts -> (t1 <= t2)%Q ->
    dget Qeq_bool t1 (ev_agnostic ev) = Some a1 ->
    dget Qeq_bool t2 (ev_agnostic ev) = Some a2 ->
    (forall d g, pairs (elements sub) (elements gt) a2 d g ->
       exists d', pairs (elements sub) (elements gt) a1 d' g) /\
    (matches a2 <= matches a1)%nat.
Proof.
  intros A sim sub gt ts cats ev Kd Kg H t1 t2 a1 a2 H1 H2 Ht E1 E2.
  rewrite (keyed_agnostic sim sub gt ts cats ev t1 Kd Kg H H1) in E1. injection E1 as <-.
  rewrite (keyed_agnostic sim sub gt ts cats ev t2 Kd Kg H H2) in E2. injection E2 as <-.
  exact (mono_at sim sub gt t1 t2 Kd Kg Ht).
Qed.

(** The detection holding an element may change between thresholds (see
    [C01_example]: "x" is held by "b" at 1/2 and by "a" at 3/4), so the stronger
    claim that matched pairs persist is false. *)
Theorem C04_pairs_persist_refuted :
  exists (sim : elem unit -> elem unit -> Q) sub gt ts cats ev t1 t2 a1 a2 d g,
    keyed_by_id sub /\ keyed_by_id gt /\ evaluator_init sim sub gt ts cats = Ok ev /\
    In t1 ts /\ In t2 ts /\ (t1 <= t2)%Q /\
    dget Qeq_bool t1 (ev_agnostic ev) = Some a1 /\
    dget Qeq_bool t2 (ev_agnostic ev) = Some a2 /\
    pairs (elements sub) (elements gt) a2 d g /\ ~ pairs (elements sub) (elements gt) a1 d g.
Proof.
  exists ex_sim, ex_sub, ex_gt, [1#2; 3#4], []. eexists. exists (1#2), (3#4). do 2 eexists. exists ex_a, ex_x.
  split; [apply ex_keyed|]. split; [apply ex_keyed|]. split; [reflexivity|].
  split; [left; reflexivity|]. split; [right; left; reflexivity|]. split; [lra|].
  split; [reflexivity|]. split; [reflexivity|]. split.
  - split; [left; reflexivity|]. split; [left; reflexivity|]. eexists; split; reflexivity.
  - intros (_ & _ & c & E & Ec). vm_compute in E. injection E as <-. discriminate Ec.
Qed.

(** C05 *)
Theorem C05_category_association :
  forall A (sim : elem A -> elem A -> Q) (sub gt : scene) ts cats,
  keyed_by_id sub -> keyed_by_id gt ->
  exists ev, evaluator_init sim sub gt ts cats = Ok ev /\
    forall cat,
      (In cat cats -> restrict cat sub <> [] \/ restrict cat gt <> [] ->
        exists ev', evaluator_init sim (restrict cat sub) (restrict cat gt) ts [] = Ok ev' /\
          sget cat (ev_category ev) = Some (ev_agnostic ev')) /\
      (~ In cat cats \/ (restrict cat sub = [] /\ restrict cat gt = []) ->
        sget cat (ev_category ev) = None).
Proof.
  intros A sim sub gt ts cats Kd Kg.
  destruct (keyed_init_ok sim sub gt ts cats Kd Kg) as (ev & E & Hcat).
  exists ev. split; [exact E|]. intro cat. rewrite !restrict_by_category.
  destruct (Hcat cat) as [H1 H2]. split; [|exact H2].
  intros Hin Hne. destruct (H1 Hin Hne) as (r & Er & Eg).
  destruct (evaluator_init_ok sim (by_category cat sub) (by_category cat gt) ts [] r [] Er eq_refl)
    as (ev' & E1 & E2 & _).
  exists ev'. split; [exact E1|]. rewrite E2; exact Eg.
Qed.

(** Correspondences in a category's table pair elements of that category. *)
Theorem C05_same_category :
  forall A (sim : elem A -> elem A -> Q) (sub gt : scene) ts cats ev,
  keyed_by_id sub -> keyed_by_id gt ->
  evaluator_init sim sub gt ts cats = Ok ev ->
  forall cat r t assoc, sget cat (ev_category ev) = Some r -> In t ts ->
    dget Qeq_bool t r = Some assoc ->
    forall k c, sget k assoc = Some c -> exists d g,
      In d (elements sub) /\ In g (elements gt) /\
      k = e_id d /\ c_gt c = e_id g /\ e_category d = cat /\ e_category g = cat.
Proof.
  intros A sim sub gt ts cats ev Kd Kg H cat r t assoc Hr Ht Ha k c Hk.
  destruct (C05_category_association A sim sub gt ts cats Kd Kg) as (ev0 & E0 & Hcat).
  assert (ev0 = ev) by congruence. subst ev0.
  destruct (Hcat cat) as [H1 H2].
  destruct (in_dec string_dec cat cats) as [Hin|Hni]; [|rewrite H2 in Hr by (left; exact Hni); discriminate].
  assert (Hne : restrict cat sub <> [] \/ restrict cat gt <> []).
  { destruct (restrict cat sub) eqn:Es; [|left; discriminate].
    destruct (restrict cat gt) eqn:Eg; [|right; discriminate].
    rewrite H2 in Hr by (right; auto); discriminate. }
  destruct (H1 Hin Hne) as (ev' & E1 & E2).
  assert (Er : r = ev_agnostic ev') by congruence. subst r.
  rewrite !restrict_by_category in E1.
  rewrite (keyed_agnostic sim _ _ ts [] ev' t (by_category_keyed sim cat sub Kd) (by_category_keyed sim cat gt Kg) E1 Ht) in Ha.
  injection Ha as <-.
  destruct (faithful_at sim _ _ t (by_category_keyed sim cat sub Kd) (by_category_keyed sim cat gt Kg) k c Hk)
    as (d & g & Hd & Hg & -> & _ & Eg & _).
  apply in_map_iff in Hd as ([kd d'] & Ed & Hd). apply in_map_iff in Hg as ([kg g'] & Eg' & Hg).
  simpl in Ed, Eg'; subst. apply (by_category_In sim) in Hd as [Hd Cd]. apply (by_category_In sim) in Hg as [Hg Cg].
  exists d, g. repeat split; auto; apply in_map_iff; eauto using in_map.
  - exists (kd, d); auto.
  - exists (kg, g); auto.
Qed.

(** The failing side: a detection of a listed category whose id is not a key of
    that category's detections. *)
Theorem C05_key_error :
  forall A (sim : elem A -> elem A -> Q) (sub gt : scene) ts cats k e,
  In (k, e) sub -> In (e_category e) cats -> ts <> [] ->
  (forall e', ~ In (e_id e, e') (restrict (e_category e) sub)) ->
  evaluator_init sim sub gt ts cats = Err KeyError.
Proof.
  intros A sim sub gt ts cats k e H1 H2 H3 H4. rewrite restrict_by_category in H4.
  exact (init_keyerror sim sub gt ts cats k e H1 H2 H3 H4).
Qed.

Example C05_example_keyerror :
  evaluator_init ex_sim [("1", ex_elem "a" "chair" 1)] ex_gt [1#2] ["chair"] = Err KeyError.
Proof. reflexivity. Qed.

Example C05_example :
  (let* ev := evaluator_init ex_sim ex_sub ex_gt [1#2] ["chair"; "wall"; "door"] in
   Ok (map (fun kv => (fst kv, map (fun tr => map fst (snd tr)) (snd kv))) (ev_category ev)))
  = Ok [("chair", [["b"; "a"]]); ("wall", [[]])].
Proof. reflexivity. Qed.

Print Assumptions C01_matching_one_to_one.
Print Assumptions C02_matching_stable.
Print Assumptions C02_matching_unique.
Print Assumptions C03_thresholds_independent.
Print Assumptions C04_threshold_monotone.
Print Assumptions C04_pairs_persist_refuted.
Print Assumptions C05_category_association.
Print Assumptions C05_same_category.
Print Assumptions C05_key_error.
