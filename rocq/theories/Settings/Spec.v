(** What may happen to the caller's settings. *)
From Coq Require Import List Bool String QArith Sorted Permutation.
From Verif.Base Require Import Py.
From Verif.Assoc Require Import Model.
From Verif.Settings Require Import Model.
Import ListNotations.
Local Open Scope string_scope.

(** The thresholds a dictionary holds, as a list or as an array. *)
Definition holds_thresholds (d : settings) (ts : list Q) : Prop :=
  sget "thresholds" d = Some (Numbers ts) \/ sget "thresholds" d = Some (Array ts).

(** [d'] is [d] with its thresholds replaced by the same numbers in an ascending array:
    same keys in the same order, same values under all the others. *)
Definition thresholds_sorted (d d' : settings) : Prop :=
  exists ts ts', holds_thresholds d ts /\ sget "thresholds" d' = Some (Array ts') /\
    Permutation ts ts' /\ StronglySorted Qle ts' /\
    dkeys d' = dkeys d /\ forall k, k <> "thresholds" -> sget k d' = sget k d.

(** The dictionaries other than [a] are what they were; no key is added. *)
Definition others_unchanged (a : nat) (st st' : store) : Prop :=
  dkeys st' = dkeys st /\ forall b, b <> a -> dget Nat.eqb b st' = dget Nat.eqb b st.

(** The evaluator constructors of the three tracks and of the base class. *)
Inductive construction {A B} : (option nat -> store -> store * res (instance B)) -> Prop :=
| mesh_track : forall sample sim (sub gt : @scene A), construction (mesh_init sample sim sub gt)
| voxel_track : forall prep sim (sub gt : @scene A), construction (voxel_init prep sim sub gt)
| box_track : forall prep sim (sub gt : @scene A), construction (bb_init prep sim sub gt)
| base_class : forall sim key (sub gt : @scene B), construction (base_init sim key sub gt).
