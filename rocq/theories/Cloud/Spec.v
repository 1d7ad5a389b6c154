(** What a point cloud is: a list of points, either all with a color or all without. *)
From Coq Require Import Reals List ZArith.
From Verif.Base Require Import Py Vec.
From Verif.Geom Require Import Model.
From Verif.Cloud Require Import Model.
Import ListNotations.

Definition entry : Type := vec * option color.

(** The cloud consists of these entries. *)
Definition entries (c : cloud) (l : list entry) : Prop :=
  points c = map fst l /\
  ((Forall (fun e => snd e = None) l /\ colors c = []) \/ map snd l = map Some (colors c)).
Definition coherent (c : cloud) : Prop := exists l, entries c l.

(** Entries that may be together in one cloud. *)
Definition uniform_colors (l : list entry) : Prop :=
  Forall (fun e => snd e = None) l \/ Forall (fun e => snd e <> None) l.

Definition byte (z : Z) : Prop := (0 <= z <= 255)%Z.
Definition bytes_ok (c : cloud) : Prop := Forall (fun k => byte (red k) /\ byte (green k) /\ byte (blue k)) (colors c).

(** Contract of randint(n): numbers below n. *)
Definition below (draws : nat -> nat) (n : nat) : Prop := forall k, (draws k < n)%nat.
