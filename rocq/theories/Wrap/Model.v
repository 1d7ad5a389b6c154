(** Conversions between numpy arrays and OpenCV images, opencv/wrap.pyx, at the level of
    bytes in memory, and the textures of TexturedMesh that go through them.  When memory
    is freed is not modelled: arrays and images live as long as they are used. *)
From Coq Require Import List ZArith Bool.
From Verif.Base Require Import Py.
Import ListNotations.
Local Open Scope Z_scope.

(** Memory: the byte at each address. *)
Definition memory := Z -> Z.
Definition bytes_at (m : memory) (p : Z) (n : nat) : list Z := map (fun k => m (p + Z.of_nat k)) (seq 0 n).

(** * numpy arrays *)
Inductive dtype := Uint8 | Uint16 | Float32 | OtherType (size : nat).
Definition itemsize (t : dtype) : nat :=
  match t with Uint8 => 1 | Uint16 => 2 | Float32 => 4 | OtherType n => n end.
Definition dtype_eqb (a b : dtype) : bool :=
  match a, b with Uint8, Uint8 | Uint16, Uint16 | Float32, Float32 => true | _, _ => false end.

(** np.ndarray: element type, shape, strides in bytes, address of the first element. *)
Record array := Array { a_type : dtype; shape : list nat; strides : list Z; a_data : Z }.
Definition ndim (a : array) : nat := List.length (shape a).

Fixpoint offset (ss : list Z) (idx : list nat) : Z :=
  match ss, idx with
  | s :: ss', i :: idx' => Z.of_nat i * s + offset ss' idx'
  | _, _ => 0
  end.
(** Address of a[i, j, ...]. *)
Definition address (a : array) (idx : list nat) : Z := a_data a + offset (strides a) idx.

(** numpy's C_CONTIGUOUS flag: no elements, or the strides of packed rows except for
    axes of length 1, whose stride does not matter. *)
Fixpoint packed (size : Z) (shape : list nat) : list Z :=
  match shape with
  | [] => []
  | n :: ns => size * fold_right (fun k p => Z.of_nat k * p) 1 ns :: packed size ns
  end.
Fixpoint contiguous_from (shape : list nat) (ss want : list Z) : bool :=
  match shape, ss, want with
  | n :: ns, s :: ss', w :: want' => (Nat.eqb n 1 || Z.eqb s w) && contiguous_from ns ss' want'
  | _, _, _ => true
  end.
Definition c_contiguous (a : array) : bool :=
  existsb (Nat.eqb 0) (shape a) || contiguous_from (shape a) (strides a) (packed (Z.of_nat (itemsize (a_type a))) (shape a)).

(** * OpenCV images *)
Inductive cvtype := CV_8UC1 | CV_8UC3 | CV_16UC1 | CV_32FC1 | OtherCv (channels depth : nat).
Definition channels (t : cvtype) : nat :=
  match t with CV_8UC3 => 3 | OtherCv n _ => n | _ => 1 end.
(** Bytes of one pixel. *)
Definition esz (t : cvtype) : nat :=
  match t with CV_8UC1 => 1 | CV_8UC3 => 3 | CV_16UC1 => 2 | CV_32FC1 => 4 | OtherCv n d => n * d end.

(** cv::Mat: type, size, address of the first row, distance of the rows in bytes. *)
Record cvmat := Mat { m_type : cvtype; rows : nat; cols : nat; m_data : Z; step : Z }.
(** Address of pixel (i, j). *)
Definition pixel_address (m : cvmat) (i j : nat) : Z :=
  m_data m + Z.of_nat i * step m + Z.of_nat j * Z.of_nat (esz (m_type m)).

(** Mat(rows, cols, type, data, step), OpenCV: step 0 stands for packed rows (AUTO_STEP),
    and with at most one row or no columns the step does not matter (it is shown as that
    of packed rows).  The step is a size_t; a negative stride is no distance of rows. *)
Definition new_mat (r c : nat) (t : cvtype) (data stride0 : Z) : res cvmat :=
  if Nat.leb r 1 || Nat.eqb c 0 || Z.eqb stride0 0 then Ok (Mat t r c data (Z.of_nat (c * esz t)))
  else if Z.ltb stride0 0 then Err Undefined
  else Ok (Mat t r c data stride0).

(** array.shape[i] and array.strides[i] are read from C arrays. *)
Definition nth_shape (a : array) (i : nat) : nat := nth i (shape a) 0%nat.
Definition stride0 (a : array) : Z := nth 0 (strides a) 0.

(** What a call of the following conversions gives.  They return a C pointer and are
    defined without an exception value, so a Python exception in them is printed, not
    raised, and the pointer is null (Cython 0.27.3, requirements.txt 1; "except +" in
    wrap.pxd 73-77 only makes the callers handle C++ exceptions). *)
Definition returned (r : res cvmat) : res (option cvmat) :=
  match r with
  | Ok m => Ok (Some m)
  | Err Undefined => Err Undefined
  | Err _ => Ok None
  end.
(** p[0] *)
Definition deref (p : option cvmat) : res cvmat := match p with Some m => Ok m | None => Err Undefined end.

(** mat_from_array, wrap.pyx 15-41.  The data of an array is never a null pointer. *)
Definition mat_from_array (a : array) : res (option cvmat) := returned (
  if Nat.eqb (ndim a) 2 then
    if dtype_eqb (a_type a) Uint8 then new_mat (nth_shape a 0) (nth_shape a 1) CV_8UC1 (a_data a) (stride0 a)
    else if dtype_eqb (a_type a) Float32 then new_mat (nth_shape a 0) (nth_shape a 1) CV_32FC1 (a_data a) (stride0 a)
    else Err AssertionError
  else if Nat.eqb (ndim a) 3 then
    if dtype_eqb (a_type a) Uint8 then new_mat (nth_shape a 0) (nth_shape a 1) CV_8UC3 (a_data a) (stride0 a)
    else Err AssertionError
  else Err AssertionError).

(** The typed conversions, wrap.pyx 43-70: the buffer argument raises ValueError for an
    array of another element type, another number of axes or that is not C-contiguous. *)
Definition typed (t : dtype) (n : nat) (cv : cvtype) (a : array) : res (option cvmat) := returned (
  if dtype_eqb (a_type a) t && Nat.eqb (ndim a) n && c_contiguous a then
    new_mat (nth_shape a 0) (nth_shape a 1) cv (a_data a) (stride0 a)
  else Err ValueError).
(** mat1b_from_array 43-49. *)
Definition mat1b_from_array := typed Uint8 2 CV_8UC1.
(** mat1w_from_array 51-54. *)
Definition mat1w_from_array := typed Uint16 2 CV_16UC1.
(** mat1f_from_array 56-62. *)
Definition mat1f_from_array := typed Float32 2 CV_32FC1.
(** mat3b_from_array 64-70: the length of the third axis is not looked at. *)
Definition mat3b_from_array := typed Uint8 3 CV_8UC3.

(** np.empty(shape, dtype): a new packed array at [fresh]. *)
Definition np_empty (fresh : Z) (t : dtype) (sh : list nat) : array :=
  Array t sh (packed (Z.of_nat (itemsize t)) sh) fresh.

(** memcpy(dst, src, n). *)
Definition memcpy (mem : memory) (dst src : Z) (n : nat) : memory :=
  fun p => if Z.leb dst p && Z.ltb p (dst + Z.of_nat n) then mem (src + (p - dst)) else mem p.

(** array_from_mat, wrap.pyx 72-96: the new array and the memory.  An image with pixels
    has data.  The sizes are size_t. *)
Definition array_from_mat (fresh : Z) (mem : memory) (m : cvmat) : res (array * memory) :=
  let n := channels (m_type m) in
  let copy a d := Ok (a, memcpy mem (a_data a) (m_data m) (rows m * cols m * n * d)) in
  if Nat.eqb n 1 then
    match m_type m with
    | CV_8UC1 => copy (np_empty fresh Uint8 [rows m; cols m]) 1%nat
    | CV_32FC1 => copy (np_empty fresh Float32 [rows m; cols m]) 4%nat
    | _ => Err AssertionError
    end
  else if Nat.eqb n 3 then
    match m_type m with
    | CV_8UC3 => copy (np_empty fresh Uint8 [rows m; cols m; 3%nat]) 1%nat
    | _ => Err AssertionError
    end
  else Err AssertionError.

(** array_from_mat1b 98-104, array_from_mat1w 106-112, array_from_mat1f 114-120,
    array_from_mat3b 122-128 (for Mat1b, Mat1w, Mat1f and Mat3b, whose types are fixed).
    The products r * c and r * c * 3 are C ints. *)
Definition int_max : Z := 2 ^ 31 - 1.
Definition copy_typed (factor size : nat) (t : dtype) (sh : list nat) (fresh : Z) (mem : memory) (m : cvmat) : res (array * memory) :=
  let n := Z.of_nat (rows m) * Z.of_nat (cols m) * Z.of_nat factor in
  if Z.ltb int_max n then Err Undefined
  else Ok (np_empty fresh t sh, memcpy mem fresh (m_data m) (rows m * cols m * (factor * size))).
Definition array_from_mat1b fresh mem m := copy_typed 1 1 Uint8 [rows m; cols m] fresh mem m.
Definition array_from_mat1w fresh mem m := copy_typed 1 2 Uint16 [rows m; cols m] fresh mem m.
Definition array_from_mat1f fresh mem m := copy_typed 1 4 Float32 [rows m; cols m] fresh mem m.
Definition array_from_mat3b fresh mem m := copy_typed 3 1 Uint8 [rows m; cols m; 3%nat] fresh mem m.

(** Mat::clone, OpenCV: a new packed image with the same pixels. *)
Definition clone (fresh : Z) (mem : memory) (m : cvmat) : cvmat * memory :=
  let m' := Mat (m_type m) (rows m) (cols m) fresh (Z.of_nat (cols m * esz (m_type m))) in
  let n := Z.of_nat (rows m) * step m' in
  (m', fun p => if Z.leb fresh p && Z.ltb p (fresh + n) then
                  let k := p - fresh in mem (m_data m + k / step m' * step m + k mod step m')
                else mem p).

(** TexturedMesh(..., base_color_texture).base_color(), textured_mesh.pyx 25-52 and
    131-134, TexturedMesh.cpp 16-27.  The typed argument of __init__ raises ValueError
    before the conversion is called.  [ext] tells the bytes of the argument's memory: reading others is
    undefined. *)
Definition base_color (fresh1 fresh2 : Z) (ext : Z) (mem : memory) (a : array) : res (array * memory) :=
  if negb (dtype_eqb (a_type a) Uint8 && Nat.eqb (ndim a) 3 && c_contiguous a) then Err ValueError
  else
    let* p := mat3b_from_array a in
    let* m := deref p in
    if Z.ltb (a_data a + ext) (pixel_address m (rows m - 1) (cols m - 1) + 3) && negb (Nat.eqb (rows m * cols m) 0) then Err Undefined
    else let '(m', mem') := clone fresh1 mem m in array_from_mat3b fresh2 mem' m'.

(** The images that create_point_cloud_, rgbdci_360.pyx 132-150, hands to
    createPointCloud: its arguments must be uint8 with three axes and float32 with two, but
    need not be C-contiguous. *)
Definition cloud_images (rgb range : array) : res (cvmat * cvmat) :=
  if negb (dtype_eqb (a_type rgb) Uint8 && Nat.eqb (ndim rgb) 3) then Err ValueError
  else if negb (dtype_eqb (a_type range) Float32 && Nat.eqb (ndim range) 2) then Err ValueError
  else
    let* rgb_cv := mat3b_from_array rgb in
    let* range_cv := mat1f_from_array range in
    let* m := deref rgb_cv in
    let* n := deref range_cv in
    Ok (m, n).

(** The texture of TexturedMesh.from_mesh, textured_mesh.pyx 70: np.resize repeats the
    entries of color until there are 12; then 2 rows of 2 pixels. *)
Definition from_mesh_texture (color : list Z) : list (list (list Z)) :=
  let flat k := nth (k mod List.length color)%nat color 0 in
  map (fun i => map (fun j => map (fun c => flat (6 * i + 3 * j + c)%nat) (seq 0 3)) (seq 0 2)) (seq 0 2).
