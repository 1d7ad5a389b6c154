(** Model of /repo/sumo-api/sumo/threedee/Mesh.h, Mesh.cpp, TexturedMesh.cpp and
    textured_mesh.pyx (merge_quadrant_meshes).
    Vertex, normal and texture coordinate types are arguments where the code only
    moves them; where it computes with them they are real vectors (float rounding
    is not modelled).  Indices are integers, reduced modulo 2^32 where the C++
    stores an unsigned int and modulo 2^64 where it computes with size_t.  Reading
    or writing outside a std::vector is [Undefined].  Distinct arguments are
    distinct objects (no aliasing).  Textures and material are left out: none of
    the functions here reads or changes them. *)
From Coq Require Import List Bool ZArith Reals.
From Verif.Base Require Import Py Vec.
Import ListNotations.
Local Open Scope Z_scope.

Definition u32 (z : Z) : Z := z mod 4294967296.
Definition u64 (z : Z) : Z := z mod 18446744073709551616.

(** Mesh, Mesh.h 27-30, 210-214. *)
Record mesh (V N : Type) := Mesh { indices : list Z; vertices : list V; normals : list N }.
Arguments Mesh {V N}. Arguments indices {V N}. Arguments vertices {V N}. Arguments normals {V N}.
(** TexturedMesh, TexturedMesh.h 23-33. *)
Record tmesh (V N T : Type) := TMesh { base : mesh V N; uvs : list T }.
Arguments TMesh {V N T}. Arguments base {V N T}. Arguments uvs {V N T}.

Definition size {A} (l : list A) : Z := Z.of_nat (List.length l).

(** l[i] *)
Definition at_ {A} (l : list A) (i : Z) : res A :=
  if i <? 0 then Err Undefined
  else match nth_error l (Z.to_nat i) with Some x => Ok x | None => Err Undefined end.

(** The range b.begin() + k .. b.end(). *)
Definition from_ {A} (k : Z) (b : list A) : res (list A) :=
  if k <=? size b then Ok (skipn (Z.to_nat k) b) else Err Undefined.

Section Data.
  Context {V N T : Type}.

  (** Constructors with their assertions: Mesh.cpp 23-29, mesh.pyx 38; the uv
      assertion TexturedMesh.cpp 29, textured_mesh.pyx 33. *)
  Definition mk_mesh (i : list Z) (v : list V) (n : list N) : res (mesh V N) :=
    if size v =? size n then Ok (Mesh i v n) else Err AssertionError.
  Definition mk_tmesh (i : list Z) (v : list V) (n : list N) (t : list T) : res (tmesh V N T) :=
    let* m := mk_mesh i v n in
    if size t <=? size v then Ok (TMesh m t) else Err AssertionError.

  (** Mesh::merge, Mesh.cpp 150-165. *)
  Definition merge (m1 m2 : mesh V N) (numCommon : Z) : res (mesh V N) :=
    let offset := u64 (size (vertices m1) - numCommon) in
    let idx := indices m1 ++
      map (fun i => if i <? numCommon then i else u32 (u64 (i + offset))) (indices m2) in
    if numCommon <? size (vertices m2) then
      let* v := from_ numCommon (vertices m2) in
      let* n := from_ numCommon (normals m2) in
      Ok (Mesh idx (vertices m1 ++ v) (normals m1 ++ n))
    else Ok (Mesh idx (vertices m1) (normals m1)).

  (** Mesh::replaceGeometry, 167-175. *)
  Definition replaceGeometry (m1 m2 : mesh V N) : res (mesh V N) := merge (Mesh [] [] []) m2 0.

  (** TexturedMesh::merge, TexturedMesh.cpp 78-89. *)
  Definition tmerge (m1 m2 : tmesh V N T) (numCommon : Z) : res (tmesh V N T) :=
    let* m := merge (base m1) (base m2) numCommon in
    if numCommon <? size (vertices (base m2)) then
      let* t := from_ numCommon (uvs m2) in Ok (TMesh m (uvs m1 ++ t))
    else Ok (TMesh m (uvs m1)).

  (** TexturedMesh::replaceGeometry, 91-97. *)
  Definition treplaceGeometry (m1 m2 : tmesh V N T) : res (tmesh V N T) := tmerge (TMesh (Mesh [] [] []) []) m2 0.

  (** a[i] = x *)
  Fixpoint set_nth {A} (l : list A) (i : nat) (x : A) : list A :=
    match l, i with
    | [], _ => []
    | _ :: l, O => x :: l
    | y :: l, S i => y :: set_nth l i x
    end.
  Definition set_at {A} (l : list A) (i : Z) (x : A) : res (list A) :=
    if (0 <=? i) && (i <? size l) then Ok (set_nth l (Z.to_nat i) x) else Err Undefined.

  (** The lambda assemble, 60-68.  [junk] is the content of the new block (Eigen
      vectors are not initialised). *)
  Fixpoint place {A} (a : list A) (ren : list Z) (b : list A) : res (list A) :=
    match ren with
    | [] => Ok a
    | r :: ren =>
        match b with
        | [] => Err Undefined
        | x :: b => let* a := set_at a r x in place a ren b
        end
    end.
  Definition assemble {A} (junk : nat -> A) (numNew : Z) (ren : list Z) (b : list A) : res (list A) :=
    let* a := place (map junk (seq 0 (Z.to_nat numNew))) ren b in
    let* rest := from_ (size ren) b in
    Ok (a ++ rest).

  (** TexturedMesh::renumber, 44-76. *)
  Definition renumber (jv : nat -> V) (jn : nat -> N) (jt : nat -> T)
                      (m : tmesh V N T) (numNew : Z) (ren : list Z) : res (tmesh V N T) :=
    let* idx := mapM (fun i => if i <? size ren then at_ ren i else Ok (u32 (u64 (i + numNew)))) (indices (base m)) in
    let* v := assemble jv numNew ren (vertices (base m)) in
    let* n := assemble jn numNew ren (normals (base m)) in
    let* t := assemble jt numNew ren (uvs m) in
    Ok (TMesh (Mesh idx v n) t).

  (** merge_quadrant_meshes, textured_mesh.pyx 176-200.  The arguments are mutated
      in the code; the result is mesh0. *)
  Definition merge_quadrant_meshes (jv : nat -> V) (jn : nat -> N) (jt : nat -> T)
                                   (mesh0 mesh1 mesh2 mesh3 : tmesh V N T) : res (tmesh V N T) :=
    let ren := renumber jv jn jt in
    let* mesh0 := ren mesh0 4 [2; 0; 3; 1] in
    let* mesh1 := ren mesh1 4 [0; 2; 1; 3] in
    let* mesh0 := tmerge mesh0 mesh1 2 in
    let* mesh2 := ren mesh2 4 [3; 0; 2; 1] in
    let* mesh3 := ren mesh3 4 [0; 3; 1; 2] in
    let* mesh2 := tmerge mesh2 mesh3 2 in
    let* mesh0 := ren mesh0 6 [4; 1; 3; 0; 5; 2] in
    let* mesh2 := ren mesh2 6 [1; 4; 3; 0; 5; 2] in
    let* mesh0 := tmerge mesh0 mesh2 3 in
    ren mesh0 9 [4; 6; 8; 0; 5; 1; 2; 7; 3].

  (** Mesh::triangle and the iterator, Mesh.h 32-78: whole triples only. *)
  Fixpoint iterate (vs : list V) (idx : list Z) : res (list (Z * Z * Z * (V * V * V))) :=
    match idx with
    | i :: j :: k :: rest =>
        let* a := at_ vs i in
        let* b := at_ vs j in
        let* c := at_ vs k in
        let* ts := iterate vs rest in
        Ok ((i, j, k, (a, b, c)) :: ts)
    | _ => Ok []
    end.

  (** The loops of the two cleanups: keep the indices of the good triangles. *)
  Definition cleanup (good : V -> V -> V -> bool) (m : mesh V N) : res (mesh V N) :=
    let* ts := iterate (vertices m) (indices m) in
    let new_indices := flat_map (fun t => let '(i, j, k, (a, b, c)) := t in
                                          if good a b c then [i; j; k] else []) ts in
    Ok (Mesh new_indices (vertices m) (normals m)).
End Data.

Local Open Scope R_scope.
Definition rle (x y : R) : bool := if Rle_dec x y then true else false.

(** Mesh::cleanupLongEdges, Mesh.cpp 78-96. *)
Definition cleanupLongEdges {N} (threshold : R) (m : mesh vec N) : res (mesh vec N) :=
  cleanup (fun a b c => rle (dist a b) threshold && rle (dist b c) threshold && rle (dist c a) threshold)%bool m.

(** Eigen isZero(precision): every coefficient at most precision in magnitude. *)
Definition isZero (precision : R) (a : vec) : bool :=
  (rle (Rabs (vx a)) precision && rle (Rabs (vy a)) precision && rle (Rabs (vz a)) precision)%bool.

(** Mesh::cleanupEdgesToOrigin, 98-114. *)
Definition cleanupEdgesToOrigin {N} (precision : R) (m : mesh vec N) : res (mesh vec N) :=
  cleanup (fun a b c => negb (isZero precision a || isZero precision b || isZero precision c)) m.

(** Eigen normalized(): the zero vector stays as it is. *)
Definition normalized (a : vec) : vec :=
  if Rlt_dec 0 (dot a a) then smul (/ norm a) a else a.

(** Mesh::CalculateFaceNormals, 31-49. *)
Definition CalculateFaceNormals (idx : list Z) (vs : list vec) : res (list vec) :=
  let* ts := iterate vs idx in
  Ok (map (fun t => let '(_, (v0, v1, v2)) := t in normalized (cross (vsub v1 v0) (vsub v2 v0))) ts).

(** normals[i] += n, 66-69. *)
Definition add_at (ns : list vec) (i : Z) (n : vec) : res (list vec) :=
  let* x := at_ ns i in set_at ns i (vadd x n).
Fixpoint add_faces (ns : list vec) (idx : list Z) (faces : list vec) {struct faces} : res (list vec) :=
  match faces with
  | [] => Ok ns
  | n :: faces =>
      match idx with
      | i :: j :: k :: idx =>
          let* ns := add_at ns i n in
          let* ns := add_at ns j n in
          let* ns := add_at ns k n in
          add_faces ns idx faces
      | _ => Err Undefined
      end
  end.

(** Mesh::EstimateNormals, 51-76. *)
Definition EstimateNormals (idx : list Z) (vs : list vec) : res (list vec) :=
  let* faceNormals := CalculateFaceNormals idx vs in
  let* ns := add_faces (map (fun _ => vzero) vs) idx faceNormals in
  Ok (map normalized ns).

(** Mesh::Example, 116-148. *)
Definition example_indices : list Z :=
  [1; 0; 2; 2; 3; 1; 4; 0; 1; 1; 5; 4; 2; 0; 4; 4; 6; 2;
   5; 7; 6; 6; 4; 5; 6; 7; 3; 3; 2; 6; 3; 7; 5; 5; 1; 3]%Z.
Definition example_vertices (length : R) : list vec :=
  let radius := length / 2 in
  map (smul radius)
    [V (-1) (-1) (-1); V (-1) (-1) 1; V (-1) 1 (-1); V (-1) 1 1;
     V 1 (-1) (-1); V 1 (-1) 1; V 1 1 (-1); V 1 1 1].
Definition Example_ (length : R) (inward : bool) : res (mesh vec vec) :=
  let idx := if inward then example_indices else rev example_indices in
  let vs := example_vertices length in
  let* ns := EstimateNormals idx vs in
  mk_mesh idx vs ns.

(** The 24 cube vertices and inward normals, four per face in the order BACK, LEFT,
    FRONT, RIGHT, UP, DOWN: textured_mesh.pyx 95-108 and mesh.pyx 120-134. *)
Definition cube_vertices : list vec :=
  [V 1 (-1) 1; V (-1) (-1) 1; V 1 1 1; V (-1) 1 1;
   V (-1) (-1) 1; V (-1) (-1) (-1); V (-1) 1 1; V (-1) 1 (-1);
   V (-1) (-1) (-1); V 1 (-1) (-1); V (-1) 1 (-1); V 1 1 (-1);
   V 1 (-1) (-1); V 1 (-1) 1; V 1 1 (-1); V 1 1 1;
   V (-1) 1 (-1); V 1 1 (-1); V (-1) 1 1; V 1 1 1;
   V (-1) (-1) 1; V 1 (-1) 1; V (-1) (-1) (-1); V 1 (-1) (-1)].
Definition cube_normals : list vec :=
  flat_map (fun d => [d; d; d; d]) [V 0 0 (-1); V 1 0 0; V 0 0 1; V (-1) 0 0; V 0 (-1) 0; V 0 1 0].

(** Mesh.cube, mesh.pyx 107-136: the index array comes from np.empty and is never
    filled. *)
Definition Mesh_cube (junk : nat -> Z) : res (mesh vec vec) :=
  mk_mesh (map junk (seq 0 36)) cube_vertices cube_normals.

(** TexturedMesh.cube, textured_mesh.pyx 72-117, for a base color texture of the
    given height and width. *)
Definition TexturedMesh_cube (height width : Z) : res (tmesh vec vec (R * R)) :=
  if (width =? 6 * height)%Z then
    let size := IZR height in
    let faces := [0; 1; 2; 3; 4; 5]%Z in
    let pixels := flat_map (fun i => let o := IZR (i * height) in
      [(o + 0, size); (o + size, size); (o + 0, 0); (o + size, 0)]) faces in
    let idx := flat_map (fun i => let j := (4 * i)%Z in [j+0; j+1; j+2; j+1; j+3; j+2]%Z) faces in
    let uv := map (fun p => (fst p / size / 6, snd p / size)) pixels in
    mk_tmesh idx cube_vertices cube_normals uv
  else Err AssertionError.
