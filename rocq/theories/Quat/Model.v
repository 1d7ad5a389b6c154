(** Quaternion (geometry/quaternion.pyx), the surreal pose format
    (geometry/pose3.pyx 136-161) and the vector functions of base/vector.pyx.
    Doubles are reals; NaN, infinities and rounding are outside the model. *)
From Coq Require Import Reals ZArith List String Bool.
From Verif.Base Require Import Py Vec.
From Verif.Geom Require Import Model.
Import ListNotations.
Open Scope R_scope.

(** * numpy arrays in memory *)

(** Element types that matter here: [np.double], another number type (float32,
    integers, ...), and types float() does not take (complex, strings, ...). *)
Inductive dtype := Double | OtherNumber | NotANumber.

(** An ndarray: element type, shape, and where its elements are: a memory of cells, the
    position of the first element and one stride per axis, in cells. *)
Record ndarray := Nd {
  nd_type : dtype;
  nd_shape : list nat;
  nd_mem : Z -> R;
  nd_start : Z;
  nd_strides : list Z }.

(** Element at an index: a[i0, i1, ...]. *)
Fixpoint offset (strides : list Z) (idx : list nat) : Z :=
  match strides, idx with
  | s :: ss, i :: is_ => (Z.of_nat i * s + offset ss is_)%Z
  | _, _ => 0%Z
  end.
Definition item (a : ndarray) (idx : list nat) : R := nd_mem a (nd_start a + offset (nd_strides a) idx)%Z.

(** All indices of a shape, last axis fastest. *)
Fixpoint indices (shape : list nat) : list (list nat) :=
  match shape with
  | [] => [[]]
  | n :: ns => flat_map (fun i => map (cons i) (indices ns)) (seq 0 n)
  end.

(** Number of elements. *)
Definition size (shape : list nat) : nat := fold_right Nat.mul 1%nat shape.

(** A new one-dimensional double array: np.array([...]). *)
Definition array1 (l : list R) : ndarray :=
  Nd Double [List.length l] (fun p => nth (Z.to_nat p) l 0) 0 [1%Z].

(** * base/vector.pyx *)

(** Eigen's Matrix3d: nine cells, column after column (Vector.h 22, Eigen's default
    storage order). *)
Definition cmatrix3 := list R.
Definition matrix_of (c : cmatrix3) : mat :=
  let e i j := nth (3 * j + i) c 0%R in
  (M33 (e 0 0) (e 0 1) (e 0 2) (e 1 0) (e 1 1) (e 1 2) (e 2 0) (e 2 1) (e 2 2))%nat.
Definition cells_of (m : mat) : cmatrix3 :=
  [m00 m; m10 m; m20 m; m01 m; m11 m; m21 m; m02 m; m12 m; m22 m].

(** np.asfortranarray of a two-dimensional array: an array of the same elements whose
    memory holds the columns one after the other. *)
Definition fortran (a : ndarray) (rows cols : nat) : list R :=
  map (fun k => item a [Nat.modulo k rows; Nat.div k rows]) (seq 0 (rows * cols)).

(** matrix3_of_array 165-169.  Assigning to the buffer variable raises ValueError when
    the array is not a two-dimensional array of doubles; a cdef function that returns a
    C++ object and has no except clause (vector.pxd 72) cannot pass this on: it prints
    the error and returns a matrix that was never set.  The nine cells are copied
    without a look at the shape. *)
Definition matrix3_of_array (a : ndarray) : res cmatrix3 :=
  match nd_shape a with
  | [r; c] =>
      match nd_type a with
      | Double => if Nat.ltb (r * c) 9 then Err Undefined else Ok (firstn 9 (fortran a r c))
      | _ => Err Undefined
      end
  | _ => Err Undefined
  end.

(** array_from_matrix3 158-163: a new 3*3 array in column order, its nine cells copied
    from the matrix. *)
Definition array_from_matrix3 (c : cmatrix3) : ndarray :=
  Nd Double [3; 3]%nat (fun p => nth (Z.to_nat p) c 0) 0 [1; 3]%Z.

(** unitize 132-141, for a vector of any length.  [Same] is the argument itself,
    [New] a new array. *)
Inductive unitized := Same | New (v : list R).
Definition lnorm (v : list R) : R := sqrt (fold_right Rplus 0 (map (fun x => x * x) v)).
Definition unitize (v : list R) : unitized :=
  let norm := lnorm v in
  if Req_EM_T norm 0 then Same else New (map (fun x => x / lnorm v) v).

(** on_left 143-156: the four arguments have shape (3,) or all four have shape (3,1).
    np.cross works along the last axis and raises ValueError when it has one entry. *)
Inductive vshape := Flat | Column.
Definition np_cross (s : vshape) (a b : vec) : res vec :=
  match s with Flat => Ok (cross a b) | Column => Err ValueError end.
Definition on_left (s : vshape) (N p a b : vec) : res bool :=
  let* c := np_cross s (vsub b a) (vsub p a) in
  Ok (if Rle_dec 0 (dot N c) then true else false).

(** * Quaternion, geometry/quaternion.pyx *)

(** Eigen::Quaterniond, quaternion.pyx 13-24: the constructor from a matrix,
    [normalized] and [matrix] are Eigen's. *)
Record eigen := Eigen {
  of_matrix : mat -> quat;
  normalized : quat -> quat;
  to_matrix : quat -> mat }.

Section WithEigen.
  Variable E : eigen.

  (** float(val[i]): of a one-element array its element; TypeError for other arrays and
      other types.  [rest] is the shape after the first axis. *)
  Definition entry (val : ndarray) (rest : list nat) (i : nat) : res R :=
    if negb (Nat.eqb (size rest) 1) then Err TypeError
    else match nd_type val with
         | NotANumber => Err TypeError
         | _ => Ok (item val (i :: map (fun _ => 0%nat) rest))
         end.

  (** __cinit__ 31-38; [None] is a call without argument, [Some None] passes Python's
      None, which a typed argument takes.  val.shape is the C array of dimensions: reading
      it of None, or past the number of dimensions, is undefined. *)
  Definition quaternion (arg : option (option ndarray)) : res quat :=
    match arg with
    | Some None => Err Undefined
    | _ =>
        let val := match arg with Some (Some v) => v | _ => array1 [1; 0; 0; 0] end in
        match nd_shape val with
        | [] => Err Undefined
        | d0 :: rest =>
            if Nat.eqb d0 3 then
              match rest with
              | [] => Err Undefined
              | d1 :: _ =>
                  if negb (Nat.eqb d1 3) then Err AssertionError
                  else let* c := matrix3_of_array val in Ok (of_matrix E (matrix_of c))
              end
            else if negb (Nat.eqb d0 4) then Err AssertionError
            else
              let* w := entry val rest 0 in
              let* x := entry val rest 1 in
              let* y := entry val rest 2 in
              let* z := entry val rest 3 in
              Ok (Q4 w x y z)
        end
    end.

  (** as_vector 40-43. *)
  Definition as_vector (q : quat) : ndarray := array1 [qw q; qx q; qy q; qz q].

  (** to_rotation_matrix 45-47. *)
  Definition to_rotation_matrix (q : quat) : ndarray :=
    array_from_matrix3 (cells_of (to_matrix E (normalized E q))).

  (** * Surreal poses, geometry/pose3.pyx *)

  (** np.roll(a, k) of all elements: flattened, rolled, and put back in shape. *)
  Definition roll (k : Z) (a : ndarray) : ndarray :=
    let n := size (nd_shape a) in
    let src (p : Z) := nth (Z.to_nat ((p - k) mod Z.of_nat n)) (map (item a) (indices (nd_shape a))) 0 in
    Nd (nd_type a) (nd_shape a) src 0
       (map (fun i => Z.of_nat (size (skipn (S i) (nd_shape a)))) (seq 0 (List.length (nd_shape a)))).

  (** A Pose3 as from_surreal and to_surreal see it: the two arrays (pose3.pyx 25-32,
      rot3.pyx 30-37); no shape is checked. *)
  Record apose := APose { ap_R : ndarray; ap_t : ndarray }.

  (** from_surreal 136-151.  The values of the dictionary are what np.array makes of
      them. *)
  Definition from_surreal (d : list (string * ndarray)) : res apose :=
    let* q_vec := sgetE "QuaternionXYZW"%string d in
    let q_vec := roll 1 q_vec in
    let* t_vec := sgetE "Translation"%string d in
    let* q := quaternion (Some (Some q_vec)) in
    let rot := to_rotation_matrix q in
    Ok (APose rot t_vec).

  (** to_surreal 153-161.  list(t) is the list of the entries of t, shown here as the
      array np.array makes of it, t itself; TypeError for an array without axes. *)
  Definition to_surreal (p : apose) : res (list (string * ndarray)) :=
    let* q := quaternion (Some (Some (ap_R p))) in
    let q_vec := roll (-1) (as_vector q) in
    if Nat.eqb (List.length (nd_shape (ap_t p))) 0 then Err TypeError
    else Ok [("QuaternionXYZW"%string, q_vec); ("Translation"%string, ap_t p)].
End WithEigen.
