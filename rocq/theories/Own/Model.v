(** The Python objects Mesh and TexturedMesh and the C++ meshes they point to:
    /repo/sumo-api/sumo/threedee/mesh.pyx, textured_mesh.pyx, Mesh.h, and
    GltfModel::getPolymorphicPrimitiveMeshes.
    Memory is a list of cells; a new mesh gets a new cell, and cells are not used again
    after they are freed.  An object is deleted when its last reference goes; a program can
    only name objects that it has a reference to.  The arrays given to the constructors
    have the documented shapes (see Arrays for others).  What the methods do to
    the geometry is taken from Mesh.Model. *)
From Coq Require Import List Bool ZArith.
From Verif.Base Require Import Py.
From Verif.Mesh Require Import Model.
Import ListNotations.
Local Open Scope Z_scope.

Section Objects.
  Context {V N T M X : Type}.
  (** Values of new Eigen vectors, the material of a mesh without one, and the one that
      TexturedMesh's constructor builds (TexturedMesh.cpp 31-41). *)
  Variables (jv : nat -> V) (jn : nat -> N) (jt : nat -> T) (no_material : M) (texture_material : X -> M) (no_texture : X).

  (** A C++ object of class Mesh or TexturedMesh, Mesh.h 210-214, TexturedMesh.h 30-31. *)
  Inductive native :=
  | CMesh (g : mesh V N) (material : M)
  | CTexturedMesh (g : tmesh V N T) (material : M) (texture : X).

  (** isTextured, Mesh.h 107-109, TexturedMesh.h 59-61. *)
  Definition isTextured (n : native) : bool := match n with CMesh _ _ => false | CTexturedMesh _ _ _ => true end.
  (** The part of class Mesh. *)
  Definition geometry (n : native) : mesh V N := match n with CMesh g _ => g | CTexturedMesh g _ _ => base g end.
  Definition with_geometry (n : native) (g : mesh V N) : native :=
    match n with CMesh _ m => CMesh g m | CTexturedMesh t m x => CTexturedMesh (TMesh g (uvs t)) m x end.

  (** The Python classes. *)
  Inductive kind := KMesh | KTextured.
  Definition is_ktextured (k : kind) : bool := match k with KMesh => false | KTextured => true end.
  (** A Python object: its class and the fields _mesh, mesh.pxd 46-47, and
      _textured_mesh, textured_mesh.pxd 36-37.  None is the null pointer, which a new
      object has (Cython clears it). *)
  Record wrapper := Wrapper { cls : kind; p_mesh : option nat; p_tex : option nat }.

  Record state := State { heap : list (option native); objects : list (option wrapper) }.

  (** Use of a null pointer (or of the fields of None), use or delete of a freed mesh, use
      of a Mesh as a TexturedMesh, undefined behaviour of std::vector. *)
  Inductive fault := NullPointer | Freed | WrongType | InVector.

  (** Result values. *)
  Inductive value :=
  | VNone | VObj (h : nat) | VObjs (l : list nat)
  | VMesh (textured : bool) (g : mesh V N) | VTextured (t : list T) (x : X).
  Inductive outcome := Done (s : state) (v : value) | Raised (s : state) (e : exn) | Fault (f : fault).

  Definition loaded (p : option nat) (s : state) : native + fault :=
    match p with
    | None => inr NullPointer
    | Some a => match nth_error (heap s) a with Some (Some n) => inl n | _ => inr Freed end
    end.
  Definition put_heap (s : state) (a : nat) (c : option native) : state := State (set_nth (heap s) a c) (objects s).
  Definition put_object (s : state) (h : nat) (w : option wrapper) : state := State (heap s) (set_nth (objects s) h w).
  (** new *)
  Definition alloc (s : state) (n : native) : state * nat := (State (heap s ++ [Some n]) (objects s), List.length (heap s)).
  (** del p: nothing for a null pointer. *)
  Definition free (s : state) (p : option nat) : state + fault :=
    match p with
    | None => inl s
    | Some a => match loaded p s with inl _ => inl (put_heap s a None) | inr f => inr f end
    end.
  (** A new Python object. *)
  Definition new_object (s : state) (w : wrapper) : state * nat := (State (heap s) (objects s ++ [Some w]), List.length (objects s)).
  Definition object (s : state) (h : nat) : option wrapper := match nth_error (objects s) h with Some o => o | None => None end.

  (** Deleting the object h: TexturedMesh.__dealloc__, textured_mesh.pyx 49-51, does
      nothing, then Mesh.__dealloc__, mesh.pyx 42-44. *)
  Definition dealloc (s : state) (h : nat) (w : wrapper) : state + fault :=
    match free s (p_mesh w) with inl s => inl (put_object s h None) | inr f => inr f end.

  (** Mesh.__init__ 32-40. *)
  Definition init_mesh (s : state) (h : nat) (w : wrapper) (i : list Z) (v : list V) (n : list N) : outcome :=
    match mk_mesh i v n with
    | Err e => Raised s e
    | Ok g =>
        let '(s, a) := alloc s (CMesh g no_material) in
        Done (put_object s h (Some (Wrapper (cls w) (Some a) (p_tex w)))) VNone
    end.
  (** TexturedMesh.__init__, textured_mesh.pyx 25-47. *)
  Definition init_textured (s : state) (h : nat) (w : wrapper) (i : list Z) (v : list V) (n : list N) (t : list T) (x : X) : outcome :=
    match mk_tmesh i v n t with
    | Err e => Raised s e
    | Ok g =>
        let '(s, a) := alloc s (CTexturedMesh g (texture_material x) x) in
        Done (put_object s h (Some (Wrapper (cls w) (Some a) (Some a)))) VNone
    end.

  (** Calling the class: a new object and __init__; if that raises the object is deleted. *)
  Definition construct (k : kind) (init : state -> nat -> wrapper -> outcome) (s : state) : outcome :=
    let w := Wrapper k None None in
    let '(s, h) := new_object s w in
    match init s h w with
    | Done s _ => Done s (VObj h)
    | Raised s e => match dealloc s h w with inl s => Raised s e | inr f => Fault f end
    | Fault f => Fault f
    end.

  (** Mesh_usurp, mesh.pyx 167-172, and TexturedMesh_usurp, textured_mesh.pyx 202-208: an
      object for the mesh at a; deleting the null pointer does nothing. *)
  Definition usurp (s : state) (k : kind) (a : nat) : state * nat :=
    new_object s (Wrapper k (Some a) (match k with KMesh => None | KTextured => Some a end)).

  (** Mesh_copy, mesh.pyx 174-177: the copy constructor, Mesh.h 98-101, leaves out the
      material. *)
  Definition Mesh_copy (s : state) (g : mesh V N) : state * nat :=
    let '(s, a) := alloc s (CMesh g no_material) in usurp s KMesh a.

  (** Mesh.example, mesh.pyx 71-80: the mesh that CMesh::Example gives. *)
  Definition example (g : mesh V N) (s : state) : outcome := let '(s, h) := Mesh_copy s g in Done s (VObj h).

  (** getPolymorphicPrimitiveMeshes, GltfModel.cpp 473-489.  A model is seen here as the
      list of its primitives: with texture coordinates or not, and the mesh that extracting
      it gives or the exception that it throws.  The new meshes are not deleted when it
      throws. *)
  Inductive primitive := PMesh (r : res (mesh V N * M)) | PTextured (r : res (tmesh V N T * M * X)).
  (** new Mesh() and new TexturedMesh(), and what extracting the primitive makes of it. *)
  Definition new_native (p : primitive) : native :=
    match p with
    | PMesh _ => CMesh (Mesh [] [] []) no_material
    | PTextured _ => CTexturedMesh (TMesh (Mesh [] [] []) []) (texture_material no_texture) no_texture
    end.
  Definition extracted (p : primitive) : res native :=
    match p with
    | PMesh r => let* x := r in Ok (CMesh (fst x) (snd x))
    | PTextured r => let* x := r in Ok (CTexturedMesh (fst (fst x)) (snd (fst x)) (snd x))
    end.
  Fixpoint getPolymorphicPrimitiveMeshes (l : list primitive) (s : state) : state * res (list nat) :=
    match l with
    | [] => (s, Ok [])
    | p :: l =>
        let '(s, a) := alloc s (new_native p) in
        match extracted p with
        | Err e => (s, Err e)
        | Ok n =>
            let '(s, r) := getPolymorphicPrimitiveMeshes l (put_heap s a (Some n)) in
            (s, let* rest := r in Ok (a :: rest))
        end
    end.

  (** primitive_meshes, gltf_model.pyx 200-205. *)
  Fixpoint usurp_all (s : state) (l : list nat) : (state * list nat) + fault :=
    match l with
    | [] => inl (s, [])
    | a :: l =>
        match loaded (Some a) s with
        | inr f => inr f
        | inl n =>
            let '(s, h) := usurp s (if isTextured n then KTextured else KMesh) a in
            match usurp_all s l with inl (s, hs) => inl (s, h :: hs) | inr f => inr f end
        end
    end.
  Definition primitive_meshes (l : list primitive) (s : state) : outcome :=
    let '(s, r) := getPolymorphicPrimitiveMeshes l s in
    match r with
    | Err e => Raised s e
    | Ok ms => match usurp_all s ms with inl (s, hs) => Done s (VObjs hs) | inr f => Fault f end
    end.

  (** Mesh::merge, Mesh.cpp 150-165, of a mesh with itself: appending to the vector that
      the loop goes through, and inserting a range of a vector into itself, is undefined
      unless there is nothing to append. *)
  Definition self_merge (g : mesh V N) (numCommon : Z) : res (mesh V N) :=
    match indices g with
    | [] => if numCommon <? size (vertices g) then Err Undefined else Ok g
    | _ => Err Undefined
    end.
  (** TexturedMesh::merge, TexturedMesh.cpp 78-89, of a mesh with itself. *)
  Definition self_tmerge (g : tmesh V N T) (numCommon : Z) : res (tmesh V N T) :=
    let* m := self_merge (base g) numCommon in
    if numCommon <? size (vertices (base g)) then Err Undefined else Ok (TMesh m (uvs g)).

  (** self._mesh.f(mesh2._mesh[0]) and self._textured_mesh.f(mesh2._textured_mesh[0]):
      [f] for distinct meshes, [f_self] for one. *)
  Definition stored (s : state) (a : nat) (r : res native) : outcome :=
    match r with Ok n => Done (put_heap s a (Some n)) VNone | Err _ => Fault InVector end.
  Definition apply2 (s : state) (p q : option nat) (f : mesh V N -> mesh V N -> res (mesh V N)) (f_self : mesh V N -> res (mesh V N)) : outcome :=
    match p, loaded p s, loaded q s with
    | Some a, inl n, inl n2 =>
        stored s a (let* g := if (match q with Some b => Nat.eqb a b | None => false end) then f_self (geometry n) else f (geometry n) (geometry n2) in
                    Ok (with_geometry n g))
    | _, inr f, _ => Fault f
    | _, _, inr f => Fault f
    | None, _, _ => Fault NullPointer
    end.
  Definition apply2t (s : state) (p q : option nat) (f : tmesh V N T -> tmesh V N T -> res (tmesh V N T)) (f_self : tmesh V N T -> res (tmesh V N T)) : outcome :=
    match p, loaded p s, loaded q s with
    | Some a, inl (CTexturedMesh t m x), inl (CTexturedMesh t2 _ _) =>
        stored s a (let* g := if (match q with Some b => Nat.eqb a b | None => false end) then f_self t else f t t2 in
                    Ok (CTexturedMesh g m x))
    | Some _, inl _, inl _ => Fault WrongType
    | _, inr f, _ => Fault f
    | _, _, inr f => Fault f
    | None, _, _ => Fault NullPointer
    end.
  (** replaceGeometry of a mesh with itself, Mesh.cpp 167-175, TexturedMesh.cpp 91-97: the
      vectors are cleared before they are read. *)
  Definition self_replace (g : mesh V N) : res (mesh V N) := self_merge (Mesh [] [] []) 0.
  Definition self_treplace (g : tmesh V N T) : res (tmesh V N T) := self_tmerge (TMesh (Mesh [] [] []) []) 0.

  (** self._mesh.f() and self._textured_mesh.f(). *)
  Definition apply1 (s : state) (p : option nat) (f : mesh V N -> res (mesh V N)) : outcome :=
    match p, loaded p s with
    | Some a, inl n => stored s a (let* g := f (geometry n) in Ok (with_geometry n g))
    | _, inr f => Fault f
    | None, _ => Fault NullPointer
    end.
  Definition apply1t (s : state) (p : option nat) (f : tmesh V N T -> res (tmesh V N T)) : outcome :=
    match p, loaded p s with
    | Some a, inl (CTexturedMesh t m x) => stored s a (let* g := f t in Ok (CTexturedMesh g m x))
    | Some _, inl _ => Fault WrongType
    | _, inr f => Fault f
    | None, _ => Fault NullPointer
    end.

  (** Conversion of a Python integer to size_t, and of a list to vector[unsigned int]. *)
  Definition in_size_t (z : Z) : bool := (0 <=? z) && (z <? 18446744073709551616).
  Definition in_uint (z : Z) : bool := (0 <=? z) && (z <? 4294967296).

  (** Statements.  An operand is an object or None, which Cython accepts for arguments
      declared as Mesh or TexturedMesh and does not check when it uses their fields. *)
  Inductive operand := ONone | OObj (h : nat).
  Inductive stmt :=
  | SMesh (i : list Z) (v : list V) (n : list N)                                 (* Mesh(i, v, n) *)
  | STextured (i : list Z) (v : list V) (n : list N) (t : list T) (x : X)        (* TexturedMesh(i, v, n, t, x...) *)
  | SInitMesh (h : nat) (i : list Z) (v : list V) (n : list N)                   (* Mesh.__init__(h, i, v, n) *)
  | SInitTextured (h : nat) (i : list Z) (v : list V) (n : list N) (t : list T) (x : X)  (* TexturedMesh.__init__(h, ...) *)
  | SNew (k : kind)                                                              (* k.__new__(k) *)
  | SDel (h : nat)                                                               (* the last reference goes *)
  | SExample (g : mesh V N)                                                      (* Mesh.example(...) *)
  | SMeshes (l : list primitive)                                                   (* model.primitive_meshes() *)
  | SMerge (up : bool) (h : nat) (o : operand) (k : Z)                           (* h.merge(o, k); if up, Mesh.merge(h, o, k) *)
  | SReplace (up : bool) (h : nat) (o : operand)                                 (* h.replace_geometry(o); if up, Mesh.replace_geometry(h, o) *)
  | SRenumber (h : nat) (n : Z) (ren : list Z)                                   (* h.renumber(n, ren) *)
  | SCleanup (h : nat) (good : V -> V -> V -> bool)                              (* h.cleanup_...() *)
  | SRead (h : nat)                                                              (* h.is_textured(), h.indices(), h.vertices(), h.normals() *)
  | SReadTextured (h : nat).                                                     (* h.uv_coords(), h.base_color(), h.metallic_roughness() *)

  (** A name without an object is a NameError; UnboundLocalError is a kind of it. *)
  Definition on (s : state) (h : nat) (f : wrapper -> outcome) : outcome :=
    match object s h with Some w => f w | None => Raised s UnboundLocalError end.
  (** An argument declared as [k]: the pointers of its fields. *)
  Definition arg (s : state) (k : kind) (o : operand) (f : option wrapper -> outcome) : outcome :=
    match o with
    | ONone => f None
    | OObj h => on s h (fun w => if (is_ktextured k && negb (is_ktextured (cls w)))%bool then Raised s TypeError else f (Some w))
    end.
  Definition field (g : wrapper -> option nat) (o : option wrapper) : option nat :=
    match o with Some w => g w | None => None end.

  Definition run1 (s : state) (c : stmt) : outcome :=
    match c with
    | SMesh i v n => construct KMesh (fun s h w => init_mesh s h w i v n) s
    | STextured i v n t x => construct KTextured (fun s h w => init_textured s h w i v n t x) s
    | SInitMesh h i v n => on s h (fun w => init_mesh s h w i v n)
    | SInitTextured h i v n t x => on s h (fun w =>
        if is_ktextured (cls w) then init_textured s h w i v n t x else Raised s TypeError)
    | SNew k => let '(s, h) := new_object s (Wrapper k None None) in Done s (VObj h)
    | SDel h => on s h (fun w => match dealloc s h w with inl s => Done s VNone | inr f => Fault f end)
    | SExample g => example g s
    | SMeshes l => primitive_meshes l s
    (** Mesh.merge, mesh.pyx 155-157; TexturedMesh.merge, textured_mesh.pyx 163-165. *)
    | SMerge up h o k => on s h (fun w =>
        if negb (in_size_t k) then Raised s OverflowError
        else if (is_ktextured (cls w) && negb up)%bool then
          arg s KTextured o (fun w2 => apply2t s (p_tex w) (field p_tex w2) (fun a b => tmerge a b k) (fun a => self_tmerge a k))
        else arg s KMesh o (fun w2 => apply2 s (p_mesh w) (field p_mesh w2) (fun a b => merge a b k) (fun a => self_merge a k)))
    (** Mesh.replace_geometry 159-161; TexturedMesh.replace_geometry 167-169. *)
    | SReplace up h o => on s h (fun w =>
        if (is_ktextured (cls w) && negb up)%bool then
          arg s KTextured o (fun w2 => apply2t s (p_tex w) (field p_tex w2) treplaceGeometry self_treplace)
        else arg s KMesh o (fun w2 => apply2 s (p_mesh w) (field p_mesh w2) replaceGeometry self_replace))
    (** TexturedMesh.renumber 158-161. *)
    | SRenumber h n ren => on s h (fun w =>
        if negb (is_ktextured (cls w)) then Raised s AttributeError
        else if negb (in_size_t n && forallb in_uint ren)%bool then Raised s OverflowError
        else apply1t s (p_tex w) (fun t => renumber jv jn jt t n ren))
    (** cleanup_long_edges, cleanup_edges_to_origin, mesh.pyx 149-153. *)
    | SCleanup h good => on s h (fun w => apply1 s (p_mesh w) (cleanup good))
    (** mesh.pyx 46-65. *)
    | SRead h => on s h (fun w =>
        match loaded (p_mesh w) s with inl n => Done s (VMesh (isTextured n) (geometry n)) | inr f => Fault f end)
    (** textured_mesh.pyx 129-139. *)
    | SReadTextured h => on s h (fun w =>
        if negb (is_ktextured (cls w)) then Raised s AttributeError
        else match loaded (p_tex w) s with
             | inl (CTexturedMesh t _ x) => Done s (VTextured (uvs t) x)
             | inl _ => Fault WrongType
             | inr f => Fault f
             end)
    end.

  (** A program that catches every exception: the state after it, or the first fault. *)
  Fixpoint run (s : state) (p : list stmt) : state + fault :=
    match p with
    | [] => inl s
    | c :: p => match run1 s c with
                | Done s _ | Raised s _ => run s p
                | Fault f => inr f
                end
    end.
  Definition start : state := State [] [].
End Objects.
Arguments native : clear implicits. Arguments state : clear implicits. Arguments stmt : clear implicits. Arguments outcome : clear implicits. Arguments value : clear implicits.
