(** Sampling points on meshes: sample_element and sample_mesh of
    metrics/mesh_evaluator.py and ModelSampler of threedee/model_sampler.pyx.

    Floats are reals.  Indices are unsigned integers.  np.random.uniform(0, 1, (N, 2))
    is an argument: the row of draws for sample number [k] is [draws k]. *)
From Coq Require Import Reals List ZArith.
From Verif.Base Require Import Py Vec.
From Verif.Geom Require Import Model.
Import ListNotations.
Open Scope R_scope.

(** base_color(): an array of shape (height, width, 3). *)
Record texture := Texture { height : nat; width : nat; pixel : nat -> nat -> vec }.

(** Mesh ([None]) and TexturedMesh (texture coordinates and base color). *)
Record surface := Surface {
  s_indices : list nat;
  s_vertices : list vec;
  s_texture : option (list (R * R) * texture) }.

(** Mesh.transform, mesh.pyx 92-96, and TexturedMesh.transform, textured_mesh.pyx
    153-160 (normals are not needed here). *)
Definition transform (T : pose) (m : surface) : surface :=
  Surface (s_indices m) (transform_all_from T (s_vertices m)) (s_texture m).

(** numpy indexing a[i]: IndexError out of range. *)
Definition item {A} (l : list A) (i : nat) : res A :=
  match nth_error l i with Some x => Ok x | None => Err IndexError end.

(** np.floor(x).astype(int), and x.astype(int), which cuts the fraction off. *)
Definition floor (x : R) : Z := (up x - 1)%Z.
Definition trunc (x : R) : Z := if Rle_dec 0 x then floor x else (- floor (- x))%Z.

(** t[r, c, :] with numpy's bounds check. *)
Definition pixel_at (t : texture) (r c : Z) : res vec :=
  if (Z.leb 0 r && Z.ltb r (Z.of_nat (height t)) && Z.leb 0 c && Z.ltb c (Z.of_nat (width t)))%bool
  then Ok (pixel t (Z.to_nat r) (Z.to_nat c)) else Err IndexError.

(** Row and column of a vertex, mesh_evaluator.py 64-65, model_sampler.pyx 57-58: the
    first coordinate times the height gives the row. *)
Definition texel (t : texture) (uv : R * R) : res vec :=
  pixel_at t (floor (fst uv * INR (height t)) mod Z.of_nat (height t))
             (floor (snd uv * INR (width t)) mod Z.of_nat (width t)).

(** One row of the array faces: position and color. *)
Definition corner : Type := vec * vec.
Definition grey : vec := V 128 128 128.

(** The rows of one mesh, mesh_evaluator.py 46-68, model_sampler.pyx 40-62. *)
Definition mesh_rows (m : surface) : res (list corner) :=
  let* ps := mapM (item (s_vertices m)) (s_indices m) in
  let* cs :=
    match s_texture m with
    | None => Ok (map (fun _ => grey) ps)
    | Some (uvs, t) =>
        if (Nat.eqb (height t) 0 || Nat.eqb (width t) 0)%bool then Ok (map (fun _ => grey) ps)
        else
          let* temp2 := mapM (item uvs) (s_indices m) in
          mapM (texel t) temp2
    end in
  Ok (combine ps cs).

(** The array faces: the slices [start : start + counts[i]] are consecutive and fill
    it, mesh_evaluator.py 37-69.  For no meshes np.sum gives the float 0.0, which
    np.zeros refuses. *)
Definition all_rows (ms : list surface) : res (list corner) :=
  match ms with
  | [] => Err TypeError
  | _ => let* rs := mapM mesh_rows ms in Ok (concat rs)
  end.

(** l[0::3] *)
Fixpoint stride3 {A} (l : list A) : list A :=
  match l with
  | [] => []
  | a :: l => a :: match l with _ :: _ :: l => stride3 l | _ => [] end
  end.

(** numpy's elementwise operation on arrays with n and m rows. *)
Definition broadcast {A B C} (f : A -> B -> C) (a : list A) (b : list B) : res (list C) :=
  if Nat.eqb (List.length a) (List.length b) then Ok (map (fun p => f (fst p) (snd p)) (combine a b))
  else match a, b with
       | [x], _ => Ok (map (f x) b)
       | _, [y] => Ok (map (fun x => f x y) a)
       | _, _ => Err BroadcastError
       end.

(** Areas, mesh_evaluator.py 90-92, model_sampler.pyx 97-99. *)
Definition areas (A B C : list corner) : res (list R) :=
  let* u := broadcast (fun a c => vsub (fst a) (fst c)) A C in
  let* v := broadcast (fun b c => vsub (fst b) (fst c)) B C in
  let* x := broadcast cross u v in
  Ok (map (fun c => 1 / 2 * sqrt (vx c * vx c + vy c * vy c + vz c * vz c)) x).

(** face_ids, mesh_evaluator.py 104-111: the slices are consecutive and fill the
    array. *)
Fixpoint face_ids (i : nat) (counts : list Z) : list nat :=
  match counts with
  | [] => []
  | n :: counts => repeat i (Z.to_nat n) ++ face_ids (S i) counts
  end.

Definition scale_corner (k : R) (a : corner) : corner := (smul k (fst a), smul k (snd a)).
Definition add_corner (a b : corner) : corner := (vadd (fst a) (fst b), vadd (snd a) (snd b)).

(** One sample from its draws, mesh_evaluator.py 117-118. *)
Definition one_sample (r : R * R) (a b c : corner) : corner :=
  let sqrt_r1 := sqrt (fst r) in
  add_corner (add_corner (scale_corner (1 - sqrt_r1) a) (scale_corner (sqrt_r1 * (1 - snd r)) b))
             (scale_corner (sqrt_r1 * snd r) c).

(** Lines 114-118: A[face_ids], B[face_ids], C[face_ids] and the samples. *)
Fixpoint samples (draws : nat -> R * R) (k : nat) (ids : list nat) (A B C : list corner) : res (list corner) :=
  match ids with
  | [] => Ok []
  | i :: ids =>
      let* a := item A i in
      let* b := item B i in
      let* c := item C i in
      let* rest := samples draws (S k) ids A B C in
      Ok (one_sample (draws k) a b c :: rest)
  end.

(** sample_mesh, mesh_evaluator.py 75-119. *)
Definition sample_mesh (draws : nat -> R * R) (faces : list corner) (density : R) : res (list corner) :=
  let A := stride3 faces in
  let B := stride3 (tl faces) in
  let C := stride3 (tl (tl faces)) in
  let* ar := areas A B C in
  let counts := map (fun a => Z.max 1 (trunc (density * a))) ar in
  samples draws 0 (face_ids 0 counts) A B C.

(** sample_element, mesh_evaluator.py 21-72, on the primitive meshes of the element. *)
Definition sample_element (draws : nat -> R * R) (T : pose) (ms : list surface) (density : R) : res (list corner) :=
  let* faces := all_rows (map (transform T) ms) in
  sample_mesh draws faces density.

(** _sample_mesh, model_sampler.pyx 72-121: the number of columns and the rows. *)
Definition sampler_mesh (draws : nat -> R * R) (faces : list corner) (density : R) : res (nat * list corner) :=
  let A := stride3 faces in
  let B := stride3 (tl faces) in
  let C := stride3 (tl (tl faces)) in
  let* ar := areas A B C in
  let counts := map (fun a => trunc (Rmax 1 (density * a))) ar in
  if Z.eqb (fold_right Z.add 0%Z counts) 0 then Ok (3%nat, [])
  else
    let* rows := samples draws 0 (face_ids 0 counts) A B C in
    Ok (6%nat, rows).

(** ModelSampler.run, model_sampler.pyx 18-65. *)
Definition model_sampler (draws : nat -> R * R) (density : R) (ms : list surface) : res (nat * list corner) :=
  let* faces := all_rows ms in
  sampler_mesh draws faces density.
