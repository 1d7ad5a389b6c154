(** What may be expected of objects that wrap C++ meshes. *)
From Coq Require Import List ZArith.
From Verif.Base Require Import Py.
From Verif.Mesh Require Import Model.
From Verif.Own Require Import Model.
Import ListNotations.

Section Spec.
  Context {V N T M X : Type}.
  Notation state := (state V N T M X). Notation stmt := (stmt V N T M X).

  (** The mesh at an address, if there is one that has not been freed. *)
  Definition cell (s : state) (a : nat) : option (native V N T M X) :=
    match nth_error (heap s) a with Some c => c | None => None end.
  Definition points (w : wrapper) (a : nat) : Prop := p_mesh w = Some a \/ p_tex w = Some a.
  (** Object h refers to the mesh at a. *)
  Definition refers_to (s : state) (h a : nat) : Prop := exists w, object s h = Some w /\ points w a.
  (** A mesh that no object refers to. *)
  Definition leaked (s : state) (a : nat) : Prop := cell s a <> None /\ forall h, ~ refers_to s h a.
  (** All that methods of the object h can find: its class and its meshes. *)
  Definition shows (s : state) (h : nat) : option (kind * option (option (native V N T M X)) * option (option (native V N T M X))) :=
    match object s h with
    | Some w => Some (cls w, option_map (cell s) (p_mesh w), option_map (cell s) (p_tex w))
    | None => None
    end.

  (** Statements that only use None-free arguments and objects made by their class. *)
  Definition plain (c : stmt) : Prop :=
    match c with
    | SNew _ => False
    | SMerge _ _ o _ => o <> ONone
    | SReplace _ _ o => o <> ONone
    | _ => True
    end.
  (** The object that a statement is allowed to change. *)
  Definition target (c : stmt) : option nat :=
    match c with
    | SInitMesh h _ _ _ | SInitTextured h _ _ _ _ _ | SDel h | SMerge _ h _ _ | SReplace _ h _ | SRenumber h _ _ | SCleanup h _ => Some h
    | _ => None
    end.
  (** No call of __init__ besides those of the class, and no model with a broken primitive. *)
  Definition orderly (c : stmt) : Prop :=
    match c with
    | SInitMesh _ _ _ _ | SInitTextured _ _ _ _ _ _ => False
    | SMeshes l => forall p, In p l -> exists n, extracted p = Ok n
    | _ => True
    end.
End Spec.
