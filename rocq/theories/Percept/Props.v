(** Property C51: the perceptual score. *)
From Coq Require Import Reals List Bool String QArith Permutation Lra Lia.
From Verif.Base Require Import Py PyFacts Vec Sort.
From Verif.Geom Require Import Model.
From Verif.Box Require Import Model Spec.
From Verif.Assoc Require Import Model Spec Proofs.
From Verif.Scores Require Import Proofs.
From Verif.Percept Require Import Model Spec Proofs.
Import ListNotations.
Local Open Scope string_scope.
Local Open Scope list_scope.
Local Open Scope R_scope.

(** A score per threshold, made of the measured quantities and the missed and extra
    objects, and their mean; no number without thresholds. *)
Theorem C51_formula : forall sim (sub gt : @scene (box * pose)) ts cats ev params,
  keyed_by_id sub -> keyed_by_id gt -> evaluator_init sim sub gt ts cats = Ok ev ->
  sane params -> proper (elements sub) -> proper (elements gt) ->
  exists scores, Permutation (ev_thresholds ev) ts /\
    Forall2 (fun t s => exists assoc, dget Qeq_bool t (ev_agnostic ev) = Some assoc /\ scored params (elements sub) (elements gt) assoc s)
            (ev_thresholds ev) scores /\
    (ts <> [] -> perceptual_score ev params = Ok (Some (fold_right Rplus 0 scores / INR (List.length scores)))) /\
    (ts = [] -> perceptual_score ev params = Ok None).
Proof.
  intros sim sub gt ts cats ev params Kd Kg Hev SA Bd Bg.
  destruct (all_ok sim sub gt ts cats ev Kd Kg Hev params SA Bd Bg) as (scores & E & F).
  destruct (init_fields sim _ _ _ _ _ Hev) as (F1 & _).
  assert (P : Permutation (ev_thresholds ev) ts) by (rewrite F1; apply Permutation_sym, isort_perm).
  exists scores. split; [exact P|]. split; [|split].
  - assert (IN : forall t, In t (ev_thresholds ev) -> In t ts) by (intros t; apply Permutation_in; exact P).
    clear E P F1. induction F as [|t s l l' H F IH]; constructor.
    + exists (assoc_at sim sub gt t). split; [|exact H]. apply (keyed_agnostic sim sub gt ts cats ev t Kd Kg Hev). apply IN. left. reflexivity.
    + apply IH. intros; apply IN; right; assumption.
  - intros N. rewrite E. destruct scores as [|s scores]; [|reflexivity]. exfalso. inversion F as [Z|]. rewrite <- Z in P.
    apply Permutation_nil in P. exact (N P).
  - intros ->. rewrite E. apply Permutation_sym, Permutation_nil in P. rewrite P in F. inversion F. reflexivity.
Qed.

(** The scores of all thresholds and their mean. *)
Lemma mean_at : forall sim (sub gt : @scene (box * pose)) ts cats ev params,
  keyed_by_id sub -> keyed_by_id gt -> evaluator_init sim sub gt ts cats = Ok ev ->
  sane params -> proper (elements sub) -> proper (elements gt) -> ts <> [] ->
  exists s, perceptual_score ev params = Ok (Some s) /\ 0 <= s <= 1 /\
    ((forall g, In g (curves params) -> 0 < weight g) ->
     (s = 1 <-> forall t, In t ts -> perfect params (elements sub) (elements gt) (assoc_at sim sub gt t))).
Proof.
  intros sim sub gt ts cats ev params Kd Kg Hev SA Bd Bg N.
  destruct (all_ok sim sub gt ts cats ev Kd Kg Hev params SA Bd Bg) as (scores & E & F).
  destruct (init_fields sim _ _ _ _ _ Hev) as (F1 & _).
  assert (P : Permutation (ev_thresholds ev) ts) by (rewrite F1; apply Permutation_sym, isort_perm).
  assert (NE : scores <> []).
  { intros ->. inversion F as [Z|]. rewrite <- Z in P. apply Permutation_nil in P. exact (N P). }
  assert (BO : forall s, In s scores -> 0 <= s <= 1).
  { clear E NE P F1. induction F as [|t s l l' H F IH]; intros x []; [subst x|apply IH; assumption].
    apply (scored_bounds sub gt params SA Bd Bg _ _ H). }
  destruct (mean_bounds scores NE BO) as (M1 & M2).
  eexists. split; [rewrite E; destruct scores; [contradiction|reflexivity]|]. split; [exact M1|]. intros W. rewrite M2.
  transitivity (forall t, In t (ev_thresholds ev) -> perfect params (elements sub) (elements gt) (assoc_at sim sub gt t)).
  - clear E NE BO M1 M2 P F1. induction F as [|t s l l' H F IH]; [split; intros _ ? []|]. split.
    + intros A x [<-|I]; [|apply IH; [intros; apply A; right; assumption|exact I]].
      apply (scored_one sub gt params SA Bd Bg W _ _ H). apply A. left. reflexivity.
    + intros A x [<-|I]; [|apply IH; [intros; apply A; right; assumption|exact I]].
      apply (scored_one sub gt params SA Bd Bg W _ _ H). apply A. left. reflexivity.
  - split; intros A t I; apply A; [apply (Permutation_in _ (Permutation_sym P))|apply (Permutation_in _ P)]; exact I.
Qed.

(** Between 0 and 1. *)
Theorem C51_bounds : forall sim (sub gt : @scene (box * pose)) ts cats ev params,
  keyed_by_id sub -> keyed_by_id gt -> evaluator_init sim sub gt ts cats = Ok ev ->
  sane params -> proper (elements sub) -> proper (elements gt) -> ts <> [] ->
  exists s, perceptual_score ev params = Ok (Some s) /\ 0 <= s <= 1.
Proof.
  intros sim sub gt ts cats ev params Kd Kg Hev SA Bd Bg N.
  destruct (mean_at sim sub gt ts cats ev params Kd Kg Hev SA Bd Bg N) as (s & E & B & _). exists s. auto.
Qed.

(** 1 exactly if at every threshold each quantity has its best value and nothing is
    missed or extra that costs something. *)
Theorem C51_one_iff : forall sim (sub gt : @scene (box * pose)) ts cats ev params,
  keyed_by_id sub -> keyed_by_id gt -> evaluator_init sim sub gt ts cats = Ok ev ->
  sane params -> proper (elements sub) -> proper (elements gt) -> ts <> [] ->
  (forall g, In g (curves params) -> 0 < weight g) ->
  (perceptual_score ev params = Ok (Some 1) <->
   forall t assoc, In t ts -> dget Qeq_bool t (ev_agnostic ev) = Some assoc -> perfect params (elements sub) (elements gt) assoc).
Proof.
  intros sim sub gt ts cats ev params Kd Kg Hev SA Bd Bg N W.
  destruct (mean_at sim sub gt ts cats ev params Kd Kg Hev SA Bd Bg N) as (s & E & _ & O). specialize (O W). split.
  - intros H t assoc I A. rewrite (keyed_agnostic sim sub gt ts cats ev t Kd Kg Hev I) in A. apply (f_equal (option_map (fun x => x))) in A.
    injection A as <-. apply O; [congruence|exact I].
  - intros H. rewrite E. do 2 f_equal. apply O. intros t I. apply (H t); [exact I|]. exact (keyed_agnostic sim sub gt ts cats ev t Kd Kg Hev I).
Qed.

(** A submission with the objects of the ground truth: 1 exactly if there is an
    evaluated floor and no other one. *)
Theorem C51_identical : forall sim (sub gt : @scene (box * pose)) ts cats ev params,
  keyed_by_id sub -> keyed_by_id gt -> evaluator_init sim sub gt ts cats = Ok ev ->
  sane params -> proper (elements gt) -> ts <> [] ->
  (forall g, In g (curves params) -> 0 < weight g) -> centred params ->
  same_objects (elements sub) (elements gt) -> recognises sim (elements sub) (elements gt) ts ->
  (perceptual_score ev params = Ok (Some 1) <->
   0 < floor_area (filter e_evaluated (elements gt)) /\ floor_area (filter (fun e => negb (e_evaluated e)) (elements gt)) = 0).
Proof.
  intros sim sub gt ts cats ev params Kd Kg Hev SA Bg N W C SO RE.
  assert (Bd : proper (elements sub)).
  { intros d D. destruct (same_l sub gt SO d D) as (g & G & _ & _ & S). unfold e_bounds. rewrite S. apply Bg. exact G. }
  destruct (mean_at sim sub gt ts cats ev params Kd Kg Hev SA Bd Bg N) as (s & E & _ & O). specialize (O W).
  assert (EQ : perceptual_score ev params = Ok (Some 1) <-> s = 1) by (rewrite E; split; [intros H; injection H as ->; reflexivity|intros ->; reflexivity]).
  rewrite EQ, O. split.
  - intros H. destruct ts as [|t ts]; [contradiction|]. apply (perfect_same sim sub gt (t :: ts) Kd Kg SO RE params t C (or_introl eq_refl)).
    apply H. left. reflexivity.
  - intros H t I. apply (perfect_same sim sub gt ts Kd Kg SO RE params t C I). exact H.
Qed.

(** Without an evaluated floor no submission reaches 1. *)
Theorem C51_no_floor : forall sim (sub gt : @scene (box * pose)) ts cats ev params,
  keyed_by_id sub -> keyed_by_id gt -> evaluator_init sim sub gt ts cats = Ok ev ->
  sane params -> proper (elements sub) -> proper (elements gt) -> ts <> [] ->
  (forall g, In g (curves params) -> 0 < weight g) -> mean (p_room_scale params) <> 0 ->
  floor_area (filter e_evaluated (elements gt)) = 0 ->
  exists s, perceptual_score ev params = Ok (Some s) /\ s < 1.
Proof.
  intros sim sub gt ts cats ev params Kd Kg Hev SA Bd Bg N W M Z.
  destruct (mean_at sim sub gt ts cats ev params Kd Kg Hev SA Bd Bg N) as (s & E & B & O). specialize (O W).
  exists s. split; [exact E|]. destruct (Req_dec s 1) as [->|]; [exfalso|lra].
  destruct ts as [|t ts]; [contradiction|]. destruct (proj1 O eq_refl t (or_introl eq_refl)) as (matched & missed & extra & _ & T & _).
  specialize (T _ (or_introl eq_refl)). cbn [fst snd] in T. unfold room_ratio in T. rewrite Z in T. destruct (Rlt_dec 0 0); lra.
Qed.

(** The default settings are sensible ones. *)
Theorem C51_default : sane default_perceptual /\ centred default_perceptual /\ (forall g, In g (curves default_perceptual) -> 0 < weight g).
Proof.
  assert (A : forall g, In g (curves default_perceptual) -> 0 < weight g /\ std_dev g <> 0).
  { intros g [<-|[<-|[<-|[<-|[<-|[]]]]]]; cbn; lra. }
  split; [|split].
  - split; [|cbn; lra]. intros g I. destruct (A g I). split; [lra|assumption].
  - unfold centred. cbn. lra.
  - intros g I. apply A. exact I.
Qed.

(** Example: a room with a chair; the same again; nothing submitted. *)
Definition ex_floor : solid := mkElem "f" "floor" 1 true (Box (V 0 0 0) (V 4 1 4), pose_id).
Definition ex_chair : solid := mkElem "c" "chair" (1#2) true (Box (V 0 0 0) (V 1 1 1), Pose mid (V 1 1 1)).
Definition ex_room : @scene (box * pose) := [("f", ex_floor); ("c", ex_chair)].
Definition ex_like (d g : solid) : Q := if String.eqb (e_id d) (e_id g) then 1%Q else 0%Q.

Example C51_example :
  (exists ev, evaluator_init ex_like ex_room ex_room [1#2]%Q ["chair"; "floor"] = Ok ev /\ perceptual_score ev default_perceptual = Ok (Some 1)) /\
  (exists ev, evaluator_init ex_like [] ex_room [1#2]%Q ["chair"; "floor"] = Ok ev /\ perceptual_score ev default_perceptual = Ok (Some 0)).
Proof.
  assert (K : keyed_by_id ex_room).
  { split; [repeat constructor; cbn; intuition discriminate|]. intros k e [E|[E|[]]]; injection E as <- <-; reflexivity. }
  destruct C51_default as (D1 & D2 & D3). split.
  - eexists. split; [reflexivity|]. eapply (C51_identical ex_like ex_room ex_room [1#2]%Q ["chair"; "floor"]); try assumption.
    + reflexivity.
    + intros e [<-|[<-|[]]]; repeat split; cbn; lra.
    + discriminate.
    + repeat constructor.
    + intros d g [<-|[<-|[]]] [<-|[<-|[]]] (S & _); try discriminate; (split; [intros t [<-|[]]; discriminate|]);
        intros g' [<-|[<-|[]]] N; try contradiction; reflexivity.
    + unfold floor_area, total. cbn. destruct (string_dec "chair" "floor"); [discriminate|]. unfold footprint. cbn. lra.
  - eexists. split; [reflexivity|]. cbn.
    unfold perceptual_score, perceptual_step, _perceptual_score_1, _room_scale. cbn [ev_thresholds mapM]. cbn.
    assert (B := fun x => bell_bounds (p_room_scale default_perceptual) x ltac:(cbn; lra) ltac:(cbn; lra)). cbn [p_room_scale default_perceptual weight] in B.
    rewrite gaussian_ok by (cbn; lra). cbn [bind]. set (x := if Rlt_dec 0 _ then _ else _). specialize (B x).
    set (y := bell _ x) in *. unfold volume. cbn. destruct (Rle_dec _ 0) as [L|L]; [cbn; do 2 f_equal; field|exfalso; apply L; lra].
Qed.

Print Assumptions C51_formula.
Print Assumptions C51_bounds.
Print Assumptions C51_one_iff.
Print Assumptions C51_identical.
Print Assumptions C51_no_floor.
Print Assumptions C51_default.
