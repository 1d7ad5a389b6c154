(** The timing decorator measure_time of sumo/metrics/utils.py. *)
From Coq Require Import Bool String List ZArith.
From Verif.Base Require Import Py.
Import ListNotations.
Local Open Scope string_scope.
Local Open Scope list_scope.

(** What a timed function can see and change: whether the collector is enabled
    (gc.isenabled), the lines written to standard output, and everything else.  Used by
    sumo/metrics/utils.py 43-53. *)
Record world (S : Type) := World { gc : bool; shown : list string; rest : S }.
Arguments World {S}. Arguments gc {S}. Arguments shown {S}. Arguments rest {S}.

(** gc.disable() and gc.enable(), utils.py 44 and 51. *)
Definition set_gc {S} (b : bool) (w : world S) : world S := World b (shown w) (rest w).

(** A Python callable with its arguments already given: its [__name__] if it has one
    (functools.partial objects do not), and what a call does.  A call that never
    returns is not modelled; utils.py 28, 43. *)
Record callable (S A : Type) := Callable { name : option string; call : world S -> res A * world S }.
Arguments Callable {S A}. Arguments name {S A}. Arguments call {S A}.

Section Measure.
  Context {S A : Type}.
  (** timeit.default_timer (utils.py 45, 49), in ticks. *)
  Variable timer : world S -> Z.
  (** The text of line 52 from the name and the elapsed time. *)
  Variable text : string -> Z -> string.
  (** print (line 52): it may raise, for instance on a closed stream. *)
  Variable print : string -> world S -> res unit * world S.

  (** measure_time, utils.py 28-54.  functools.wraps (line 42) copies the name when
      there is one; otherwise the wrapper keeps its own.  An exception raised in the
      finally block replaces the outcome of the call.  An interrupt arriving between
      lines 44 and 47 is not modelled. *)
  Definition measure_time (f : callable S A) : callable S A :=
    Callable (Some (match name f with Some n => n | None => "_wrapper" end))
      (fun w =>
        let gcold := gc w in
        let w1 := set_gc false w in
        let start_time := timer w1 in
        let '(result, w2) := call f w1 in
        let elapsed := (timer w2 - start_time)%Z in
        let w3 := if gcold then set_gc true w2 else w2 in
        match name f with
        | None => (Err AttributeError, w3)
        | Some n =>
            match print (text n elapsed) w3 with
            | (Err e, w4) => (Err e, w4)
            | (Ok _, w4) => (result, w4)
            end
        end).

  (** The decorator applied [n] times, utils.py 41. *)
  Fixpoint measured (n : nat) (f : callable S A) : callable S A :=
    match n with O => f | Datatypes.S n => measure_time (measured n f) end.
End Measure.
