(** Vocabulary for the mesh properties. *)
From Coq Require Import List ZArith Reals.
From Verif.Base Require Import Py Vec.
From Verif.Mesh Require Import Model.
Import ListNotations.
Local Open Scope Z_scope.

(** What an index refers to. *)
Definition refers {A} (l : list A) (i : Z) : option A :=
  if i <? 0 then None else nth_error l (Z.to_nat i).

(** Consecutive triples. *)
Fixpoint triples {A} (l : list A) : list (A * A * A) :=
  match l with a :: b :: c :: l => (a, b, c) :: triples l | _ => [] end.

(** The triangles of a mesh as triples of what their corners refer to. *)
Definition triangles {A} (idx : list Z) (l : list A) : list (option A * option A * option A) :=
  triples (map (refers l) idx).

(** A usable mesh: whole triangles, indices in range, one normal per vertex, and
    few enough vertices for 32-bit indices. *)
Definition well_formed {V N} (m : mesh V N) : Prop :=
  (exists n, List.length (indices m) = (3 * n)%nat) /\
  (forall i, In i (indices m) -> 0 <= i < size (vertices m)) /\
  List.length (normals m) = List.length (vertices m) /\
  size (vertices m) <= 4294967296.

(** ... with one texture coordinate per vertex. *)
Definition fully_textured {V N T} (m : tmesh V N T) : Prop :=
  well_formed (base m) /\ List.length (uvs m) = List.length (vertices (base m)).

(** The first [k] entries of two lists exist and agree. *)
Definition agree {A} (k : Z) (a b : list A) : Prop :=
  0 <= k <= size a /\ k <= size b /\ forall i, 0 <= i < k -> refers a i = refers b i.

Local Open Scope R_scope.
(** Sum of vectors. *)
Definition vsum (l : list vec) : vec := fold_right vadd vzero l.
(** [n] is the unit vector in the direction of [s], or zero if [s] is. *)
Definition direction_of (s n : vec) : Prop :=
  (s = vzero /\ n = vzero) \/ (dot n n = 1 /\ exists k, 0 < k /\ s = smul k n).
(** Area vector of a triangle. *)
Definition area_vector (a b c : vec) : vec := cross (vsub b a) (vsub c a).

(** Face normals meeting at a vertex, one per corner. *)
Definition incident (v : Z) (faces : list (Z * Z * Z * vec)) : list vec :=
  flat_map (fun f => let '(i, j, k, n) := f in
    map (fun _ => n) (filter (Z.eqb v) [i; j; k])) faces.

(** Directed edges of a triangulation. *)
Definition edges (idx : list Z) : list (Z * Z) :=
  flat_map (fun t => let '(i, j, k) := t in [(i, j); (j, k); (k, i)]) (triples idx).
(** No boundary and a consistent orientation: no directed edge occurs twice, and
    every one occurs in the opposite direction too. *)
Definition closed_surface (idx : list Z) : Prop :=
  NoDup (edges idx) /\ forall i j, In (i, j) (edges idx) -> In (j, i) (edges idx).
