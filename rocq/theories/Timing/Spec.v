(** What is assumed of printing and of timed functions. *)
From Coq Require Import Bool String List.
From Verif.Base Require Import Py.
From Verif.Timing Require Import Model.
Import ListNotations.

(** Printing works: one more line and nothing else. *)
Definition prints {S} (print : string -> world S -> res unit * world S) : Prop :=
  forall s w, print s w = (Ok tt, World (gc w) (shown w ++ [s]) (rest w)).

(** Printing, whether or not it works, does not switch the collector. *)
Definition leaves_gc {S} (print : string -> world S -> res unit * world S) : Prop :=
  forall s w, gc (snd (print s w)) = gc w.

(** Two states that differ at most in the collector. *)
Definition alike {S} (w w' : world S) : Prop := shown w = shown w' /\ rest w = rest w'.

(** The function does not look at the collector: outcome and effects are the same
    whether it is on or off. *)
Definition blind {S A} (f : callable S A) : Prop :=
  forall w w', alike w w' -> fst (call f w) = fst (call f w') /\ alike (snd (call f w)) (snd (call f w')).
