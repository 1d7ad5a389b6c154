(** Shared vocabulary for modelling Python code: exceptions as values and
    dictionaries as insertion-ordered association lists. *)
From Coq Require Import List Bool String.
Import ListNotations.

(** Python / C++ exceptions the modelled code can raise.  [Undefined] marks C++
    undefined behaviour: the model stops there.  [Terminate] is the end of the process,
    by a failed assert or an uncaught C++ exception. *)
Inductive exn :=
| KeyError | ValueError | TypeError | IndexError | RuntimeError | OSError
| IOError | AssertionError | UnboundLocalError | AttributeError
| RecursionError | InvalidArgument | BroadcastError | ZeroDivisionError
| OverflowError | MemoryError | URLError | KeyboardInterrupt | Undefined | Terminate | SyntaxError.

Inductive res (A : Type) : Type :=
| Ok (a : A)
| Err (e : exn).
Arguments Ok {A} a.
Arguments Err {A} e.

Definition bind {A B} (x : res A) (f : A -> res B) : res B :=
  match x with Ok a => f a | Err e => Err e end.

Declare Scope res_scope.
Delimit Scope res_scope with res.
Notation "'let*' x := a 'in' b" := (bind a (fun x => b))
  (at level 200, x pattern, right associativity) : res_scope.
Open Scope res_scope.

Fixpoint mapM {A B} (f : A -> res B) (l : list A) : res (list B) :=
  match l with
  | [] => Ok []
  | x :: xs => let* y := f x in let* ys := mapM f xs in Ok (y :: ys)
  end.

Fixpoint foldM {A S} (f : S -> A -> res S) (s : S) (l : list A) : res S :=
  match l with
  | [] => Ok s
  | x :: xs => let* s' := f s x in foldM f s' xs
  end.

(** Python [dict]: association list in insertion order; assigning to a key that
    is present keeps its position. *)
Section Dict.
  Context {K V : Type} (eqb : K -> K -> bool).

  Fixpoint dget (k : K) (d : list (K * V)) : option V :=
    match d with
    | [] => None
    | (k', v) :: t => if eqb k k' then Some v else dget k t
    end.

  Fixpoint dset (k : K) (v : V) (d : list (K * V)) : list (K * V) :=
    match d with
    | [] => [(k, v)]
    | (k', v') :: t => if eqb k k' then (k', v) :: t else (k', v') :: dset k v t
    end.

  Definition dmem (k : K) (d : list (K * V)) : bool :=
    match dget k d with Some _ => true | None => false end.

  (** [d[k]] *)
  Definition dgetE (k : K) (d : list (K * V)) : res V :=
    match dget k d with Some v => Ok v | None => Err KeyError end.

  Definition dkeys (d : list (K * V)) : list K := map fst d.
  Definition dvalues (d : list (K * V)) : list V := map snd d.
End Dict.

Notation sget := (dget String.eqb).
Notation sset := (dset String.eqb).
Notation smem := (dmem String.eqb).
Notation sgetE := (dgetE String.eqb).

(** [x in l] for a list of strings. *)
Definition str_in (x : string) (l : list string) : bool := existsb (String.eqb x) l.
