(** Property C55: the timing decorator. *)
From Coq Require Import Bool String List ZArith Lia.
From Verif.Base Require Import Py.
From Verif.Timing Require Import Model Spec.
Import ListNotations.
Local Open Scope string_scope.
Local Open Scope list_scope.

(** A function that does not look at the collector returns or raises wrapped exactly
    what it does unwrapped, with the same effects and one line more on the output. *)
Theorem C55_same : forall S A timer text print (f : callable S A) n w,
  prints print -> blind f -> name f = Some n ->
  let plain := call f w in let timed := call (measure_time timer text print f) w in
  fst timed = fst plain /\ rest (snd timed) = rest (snd plain) /\
  exists elapsed, shown (snd timed) = shown (snd plain) ++ [text n elapsed].
Proof.
  intros S A timer text print f n w P B N. cbv zeta. unfold measure_time. cbn [call]. rewrite N.
  destruct (B (set_gc false w) w (conj eq_refl eq_refl)) as (R & L1 & L2).
  destruct (call f (set_gc false w)) as [r w2]. cbn [fst snd] in *. rewrite !P. cbn [fst snd shown rest].
  split; [exact R|]. split; [destruct (gc w); exact L2|]. eexists. rewrite <- L1. destruct (gc w); reflexivity.
Qed.

(** Any function: what it does when called with the collector off. *)
Theorem C55_outcome : forall S A timer text print (f : callable S A) n w,
  prints print -> name f = Some n ->
  let inner := call f (World false (shown w) (rest w)) in let timed := call (measure_time timer text print f) w in
  fst timed = fst inner /\ rest (snd timed) = rest (snd inner) /\
  exists elapsed, shown (snd timed) = shown (snd inner) ++ [text n elapsed].
Proof.
  intros S A timer text print f n w P N. cbv zeta. unfold measure_time. cbn [call]. rewrite N. change (set_gc false w) with (World false (shown w) (rest w)). cbv zeta.
  destruct (call f (World false (shown w) (rest w))) as [r w2]. cbn [fst snd] in *. rewrite !P. cbn [fst snd shown rest].
  split; [reflexivity|]. split; [destruct (gc w); reflexivity|]. eexists. destruct (gc w); reflexivity.
Qed.

(** Afterwards the collector is on exactly when it was on before or the function left
    it on; also when the function raises, has no name, or printing fails. *)
Theorem C55_collector : forall S A timer text print (f : callable S A) w,
  leaves_gc print ->
  (gc (snd (call (measure_time timer text print f) w)) = true <->
   gc w = true \/ gc (snd (call f (World false (shown w) (rest w)))) = true).
Proof.
  intros S A timer text print f w P. unfold measure_time. cbn [call]. change (set_gc false w) with (World false (shown w) (rest w)). cbv zeta.
  destruct (call f (World false (shown w) (rest w))) as [r w2]. cbn [snd]. set (w3 := if gc w then set_gc true w2 else w2).
  assert (G : gc w3 = true <-> gc w = true \/ gc w2 = true).
  { subst w3. destruct (gc w); cbn [set_gc gc]; intuition congruence. }
  destruct (name f) as [n|]; [|exact G].
  match goal with |- context [print ?t w3] => pose proof (P t w3) as Q; destruct (print t w3) as [[u|e] w4] end;
    cbn [snd] in *; rewrite Q; exact G.
Qed.

(** The function runs with the collector off, whatever it was before: what the
    wrapper does to everything but the collector does not depend on it. *)
Theorem C55_runs_uncollected : forall S A timer text print (f : callable S A) w w',
  prints print -> alike w w' ->
  fst (call (measure_time timer text print f) w) = fst (call (measure_time timer text print f) w') /\
  rest (snd (call (measure_time timer text print f) w)) = rest (snd (call (measure_time timer text print f) w')).
Proof.
  intros S A timer text print f w w' P [L1 L2]. unfold measure_time. cbn [call]. change (set_gc false w) with (World false (shown w) (rest w)). change (set_gc false w') with (World false (shown w') (rest w')). cbv zeta.
  rewrite <- L1, <- L2. destruct (call f (World false (shown w) (rest w))) as [r w2].
  destruct (name f) as [n|]; [rewrite !P|]; cbn [fst snd rest]; (split; [reflexivity|]); destruct (gc w), (gc w'); reflexivity.
Qed.

(** Wrapped any number of times: same outcome and effects, one line per wrapper,
    collector restored. *)
Theorem C55_nested : forall S A timer text print (f : callable S A) n k w,
  prints print -> name f = Some n ->
  let inner := call f (World false (shown w) (rest w)) in
  let timed := call (measured timer text print (Datatypes.S k) f) w in
  fst timed = fst inner /\ rest (snd timed) = rest (snd inner) /\
  (exists times, List.length times = Datatypes.S k /\ shown (snd timed) = shown (snd inner) ++ map (text n) times) /\
  (gc (snd timed) = true <-> gc w = true \/ gc (snd inner) = true).
Proof.
  intros S A timer text print f n k w P N. cbv zeta.
  assert (L : leaves_gc print) by (intros s x; rewrite P; reflexivity).
  assert (NM : forall j, name (measured timer text print j f) = Some n).
  { induction j as [|j IH]; [exact N|]. cbn [measured]. unfold measure_time. cbn [name]. rewrite IH. reflexivity. }
  revert w. induction k as [|k IH]; intros w.
  - cbn [measured]. destruct (C55_outcome S A timer text print f n w P N) as (O1 & O2 & e & O3).
    split; [exact O1|]. split; [exact O2|]. split; [exists [e]; split; [reflexivity|exact O3]|].
    apply C55_collector. exact L.
  - set (g := measured timer text print (Datatypes.S k) f) in *. change (measured timer text print (Datatypes.S (Datatypes.S k)) f) with (measure_time timer text print g).
    destruct (C55_outcome S A timer text print g n w P (NM _)) as (O1 & O2 & e & O3).
    destruct (IH (World false (shown w) (rest w))) as (I1 & I2 & (ts & I3 & I4) & I5). cbn [shown rest gc] in *.
    split; [rewrite O1; exact I1|]. split; [rewrite O2; exact I2|]. split.
    + exists (ts ++ [e]). split; [rewrite app_length, I3; cbn; lia|]. rewrite O3, I4, map_app, <- app_assoc. reflexivity.
    + rewrite (C55_collector S A timer text print g w L). rewrite I5. intuition congruence.
Qed.

(** When the function has no name the outcome is lost, and when printing fails it is
    replaced by the failure. *)
Theorem C55_lost_outcome : forall S A timer text print (f : callable S A) w,
  (name f = None -> fst (call (measure_time timer text print f) w) = Err AttributeError) /\
  (forall n e, name f = Some n -> (forall s w, fst (print s w) = Err e) -> fst (call (measure_time timer text print f) w) = Err e).
Proof.
  intros S A timer text print f w. unfold measure_time. cbn [call]. split.
  - intros N. destruct (call f (set_gc false w)). rewrite N. reflexivity.
  - intros n e N P. destruct (call f (set_gc false w)) as [r w2]. rewrite N.
    match goal with |- context [print ?t ?x] => specialize (P t x); destruct (print t x) as [[u|e'] w4] end; cbn [fst] in *;
      congruence.
Qed.

(** The last line of a working stream. *)
Definition append_line {S} (s : string) (w : world S) : res unit * world S :=
  (Ok tt, World (gc w) (shown w ++ [s]) (rest w)).

(** gc.isenabled as a function. *)
Definition isenabled : callable unit bool := Callable (Some "isenabled") (fun w => (Ok (gc w), w)).
(** gc.disable as a function. *)
Definition disable : callable unit unit := Callable (Some "disable") (fun w => (Ok tt, set_gc false w)).

(** A function that looks at the collector may answer otherwise when wrapped. *)
Theorem C55_always_same_refuted : exists S A timer text print (f : callable S A) n w,
  prints print /\ name f = Some n /\ fst (call (measure_time timer text print f) w) <> fst (call f w).
Proof.
  exists unit, bool, (fun _ => 0%Z), (fun n _ => n), append_line, isenabled, "isenabled", (World true [] tt).
  split; [intros s w; reflexivity|]. split; [reflexivity|]. discriminate.
Qed.

(** A function that switches the collector off has no lasting effect when wrapped. *)
Theorem C55_same_collector_refuted : exists S A timer text print (f : callable S A) n w,
  prints print /\ name f = Some n /\ gc (snd (call (measure_time timer text print f) w)) <> gc (snd (call f w)).
Proof.
  exists unit, unit, (fun _ => 0%Z), (fun n _ => n), append_line, disable, "disable", (World true [] tt).
  split; [intros s w; reflexivity|]. split; [reflexivity|]. discriminate.
Qed.

(** A function that counts its calls and raises on the second, on a clock that counts
    the calls: the exception goes through two wrappers, and the collector is back. *)
Definition second_fails : callable nat string :=
  Callable (Some "f") (fun w =>
    (match rest w with O => Ok "fine" | Datatypes.S _ => Err ValueError end, World (gc w) (shown w) (Datatypes.S (rest w)))).
Example C55_example :
  let timer := fun w : world nat => Z.of_nat (rest w) in
  let text := fun n e => if Z.eqb e 1 then String.append n ": 1s" else n in
  let once := call (measured timer text append_line 2 second_fails) (World true [] 0) in
  once = (Ok "fine", World true ["f: 1s"; "f: 1s"] 1) /\
  call (measured timer text append_line 2 second_fails) (snd once) = (Err ValueError, World true ["f: 1s"; "f: 1s"; "f: 1s"; "f: 1s"] 2) /\
  call (measured timer text append_line 2 second_fails) (World false [] 0) = (Ok "fine", World false ["f: 1s"; "f: 1s"] 1) /\
  prints (@append_line nat) /\ leaves_gc (@append_line nat) /\ blind second_fails.
Proof.
  cbv zeta. split; [reflexivity|]. split; [reflexivity|]. split; [reflexivity|]. split; [intros s w; reflexivity|]. split; [intros s w; reflexivity|].
  intros [g s r] [g' s' r'] [E1 E2]. cbn in E1, E2. subst. split; [reflexivity|]. split; reflexivity.
Qed.

Print Assumptions C55_same.
Print Assumptions C55_outcome.
Print Assumptions C55_collector.
Print Assumptions C55_runs_uncollected.
Print Assumptions C55_nested.
Print Assumptions C55_lost_outcome.
Print Assumptions C55_always_same_refuted.
Print Assumptions C55_same_collector_refuted.
