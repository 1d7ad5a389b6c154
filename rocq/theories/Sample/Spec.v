(** Samples on triangles, stated on points and weights. *)
From Coq Require Import Reals List ZArith.
From Verif.Base Require Import Py Vec.
From Verif.Geom Require Import Model.
From Verif.Box Require Import Spec.
From Verif.Sample Require Import Model.
Import ListNotations.
Open Scope R_scope.

(** What np.random.uniform(0, 1) gives. *)
Definition uniform (draws : nat -> R * R) : Prop :=
  forall k, (0 <= fst (draws k) < 1) /\ (0 <= snd (draws k) < 1).

(** Cell [r] of [n] equal cells of the unit interval, repeated, contains [u]. *)
Definition wraps (u : R) (n r : nat) : Prop :=
  (r < n)%nat /\ exists k : Z, INR r <= u * INR n + IZR k * INR n < INR r + 1.

(** The color this code gives vertex [i]. *)
Definition vertex_color (m : surface) (i : nat) (c : vec) : Prop :=
  match s_texture m with
  | None => c = grey
  | Some (uvs, t) =>
      ((height t = 0%nat \/ width t = 0%nat) /\ c = grey) \/
      exists u v row col, nth_error uvs i = Some (u, v) /\ wraps u (height t) row /\ wraps v (width t) col /\ c = pixel t row col
  end.

(** The color glTF means: the first coordinate runs along the width. *)
Definition gltf_color (m : surface) (i : nat) (c : vec) : Prop :=
  exists uvs t u v row col, s_texture m = Some (uvs, t) /\
    nth_error uvs i = Some (u, v) /\ wraps v (height t) row /\ wraps u (width t) col /\ c = pixel t row col.

(** Whole triangles, with all indices in range. *)
Definition sound (m : surface) : Prop :=
  Nat.modulo (List.length (s_indices m)) 3 = 0%nat /\
  Forall (fun i => (i < List.length (s_vertices m))%nat) (s_indices m) /\
  match s_texture m with
  | None => True
  | Some (uvs, t) => height t = 0%nat \/ width t = 0%nat \/ Forall (fun i => (i < List.length uvs)%nat) (s_indices m)
  end.

(** All triangles of a model: a mesh and three vertex numbers. *)
Definition all_triangles (ms : list surface) : list (surface * (nat * nat * nat)) :=
  flat_map (fun m => map (fun t => (m, t)) (triples (s_indices m))) ms.

Definition has_corners (T : pose) (t : surface * (nat * nat * nat)) (a b c : vec) : Prop :=
  let '(m, (i, j, k)) := t in
  exists p q r, nth_error (s_vertices m) i = Some p /\ nth_error (s_vertices m) j = Some q /\ nth_error (s_vertices m) k = Some r /\
    a = transform_from T p /\ b = transform_from T q /\ c = transform_from T r.

(** The area of a triangle, from the lengths and the angle of two sides. *)
Definition tri_area (a b c : vec) (x : R) : Prop :=
  let u := vsub b a in let v := vsub c a in
  0 <= x /\ 4 * (x * x) = dot u u * dot v v - dot u v * dot u v.

(** [n] is the density times the area, rounded down, and at least 1. *)
Definition n_samples (density area : R) (n : nat) : Prop :=
  (1 <= n)%nat /\ INR n <= Rmax 1 (density * area) < INR n + 1.

(** Convex combination. *)
Definition mix (x y z : R) (a b c : vec) : vec := vadd (vadd (smul x a) (smul y b)) (smul z c).
Definition in_triangle (a b c p : vec) : Prop :=
  exists x y z, 0 <= x /\ 0 <= y /\ 0 <= z /\ x + y + z = 1 /\ p = mix x y z a b c.

(** A point of the posed triangle, with the color interpolated from its corners. *)
Definition sample_of (T : pose) (t : surface * (nat * nat * nat)) (s : corner) : Prop :=
  let '(m, (i, j, k)) := t in
  exists a b c ca cb cc x y z, has_corners T t a b c /\
    vertex_color m i ca /\ vertex_color m j cb /\ vertex_color m k cc /\
    0 <= x /\ 0 <= y /\ 0 <= z /\ x + y + z = 1 /\ fst s = mix x y z a b c /\ snd s = mix x y z ca cb cc.

(** The total area of triangles. *)
Inductive total_area (T : pose) : list (surface * (nat * nat * nat)) -> R -> Prop :=
| area_none : total_area T [] 0
| area_more t ts a b c x y : has_corners T t a b c -> tri_area a b c x -> total_area T ts y -> total_area T (t :: ts) (x + y).
