(** PointCloud: threedee/PointCloud.h and threedee/point_cloud.pyx.  Coordinates are
    reals.  A 3*n array is the list of its columns.  Clouds are values: append gives
    the changed cloud. *)
From Coq Require Import Reals List ZArith Bool.
From Verif.Base Require Import Py Vec.
From Verif.Geom Require Import Model.
Import ListNotations.

(** PointCloud::Color, PointCloud.h 17-27: three unsigned chars. *)
Record color := Color { red : Z; green : Z; blue : Z }.

(** points_ and colors_, PointCloud.h 30-31. *)
Record cloud := Cloud { points : list vec; colors : list color }.

(** PointCloud(), PointCloud.h 35. *)
Definition empty_cloud : cloud := Cloud [] [].

(** assert: aborts if the library is compiled with assertions (setuptools normally
    compiles with NDEBUG, which removes them). *)
Definition cpp_assert (debug b : bool) : res unit := if (debug && negb b)%bool then Err Terminate else Ok tt.

(** PointCloud(points, colors), PointCloud.h 38-45. *)
Definition new_cloud (debug : bool) (ps : list vec) (cs : list color) : res cloud :=
  let* _ := (match cs with [] => Ok tt | _ => cpp_assert debug (Nat.eqb (List.length ps) (List.length cs)) end) in
  Ok (Cloud ps cs).

(** append, PointCloud.h 66-71. *)
Definition append (a b : cloud) : cloud := Cloud (points a ++ points b) (colors a ++ colors b).

(** PointCloud(clouds), PointCloud.h 48-63. *)
Definition sum_sizes (l : list nat) : nat := fold_left Nat.add l 0%nat.
Definition new_from_clouds (debug : bool) (cl : list cloud) : res cloud :=
  let num_points := sum_sizes (map (fun c => List.length (points c)) cl) in
  let num_colors := sum_sizes (map (fun c => List.length (colors c)) cl) in
  let* _ := cpp_assert debug (Nat.eqb num_colors 0 || Nat.eqb num_colors num_points) in
  Ok (fold_left append cl empty_cloud).

(** colored 93-95, numPoints 89-91. *)
Definition colored (c : cloud) : bool := match colors c with [] => false | _ => true end.
Definition num_points (c : cloud) : nat := List.length (points c).

(** A numpy array: its shape, and for a 3*n array its columns. *)
Record array (A : Type) := Array { shape : list nat; columns : list A }.
Arguments Array {A}. Arguments shape {A}. Arguments columns {A}.

(** The array of the columns l: array_of_vector3s, base/vector.pyx 93-98, and
    array_of_colors, point_cloud.pyx 34-39. *)
Definition array_of {A} (l : list A) : array A := Array [3%nat; List.length l] l.

(** Conversion of a Python integer to unsigned char, as Cython does it in
    color_of_numpy, point_cloud.pyx 26-31.  The OverflowError of other integers is printed,
    not raised (the function has no exception value), and the color is not initialised. *)
Definition to_uchar (z : Z) : res Z := if (Z.ltb z 0 || Z.ltb 255 z)%bool then Err Undefined else Ok z.
Definition color_of_numpy (c : color) : res color :=
  let* r := to_uchar (red c) in
  let* g := to_uchar (green c) in
  let* b := to_uchar (blue c) in
  Ok (Color r g b).

Definition same_shape (s t : list nat) : bool := if list_eq_dec Nat.eq_dec s t then true else false.

(** The Python constructor, point_cloud.pyx 52-66. *)
Definition init (debug : bool) (ps : option (array vec)) (cs : option (array color)) : res cloud :=
  let* cpp_points :=
    match ps with
    | None => Ok []
    | Some a => match shape a with
                | [r; n] => if Nat.eqb r 3 then Ok (columns a) else Err AssertionError
                | _ => Err AssertionError
                end
    end in
  match cs with
  | Some c =>
      match ps with
      | None => Err AttributeError
      | Some a =>
          if same_shape (shape a) (shape c) then
            let* cpp_colors := mapM color_of_numpy (columns c) in
            new_cloud debug cpp_points cpp_colors
          else Err AssertionError
      end
  | None => new_cloud debug cpp_points []
  end.

(** merge, point_cloud.pyx 78-86. *)
Definition merge (first second : cloud) : res cloud :=
  if (colored first && negb (colored second))%bool then Err ValueError
  else Ok (append (append empty_cloud first) second).

(** transform_from 149-158, transform_to 160-169. *)
Definition cloud_from (debug : bool) (c : cloud) (T : pose) : res cloud :=
  if colored c then init debug (Some (array_of (transform_all_from T (points c)))) (Some (array_of (colors c)))
  else init debug (Some (array_of (transform_all_from T (points c)))) None.
Definition cloud_to (debug : bool) (c : cloud) (T : pose) : res cloud :=
  if colored c then init debug (Some (array_of (transform_all_to T (points c)))) (Some (array_of (colors c)))
  else init debug (Some (array_of (transform_all_to T (points c)))) None.

(** register, point_cloud.pyx 88-105.  The iterator is a list. *)
Definition register (debug : bool) (l : list (pose * cloud)) : res cloud :=
  let* moved := mapM (fun p => cloud_from debug (snd p) (fst p)) l in
  new_from_clouds debug moved.

(** __add__, point_cloud.pyx 107-114, for integers and clouds in either position (Cython
    calls it with self and other in the order written).  The object returned for an
    integer is the cloud itself, not a copy; this is not modelled. *)
Inductive operand := Int (z : Z) | Obj (c : cloud).
Definition add (a b : operand) : res operand :=
  match a, b with
  | Int x, Int y => Ok (Int (x + y))
  | Obj c, Int _ => Ok (Obj c)
  | Int _, Obj c => Ok (Obj c)
  | Obj c, Obj d => let* r := merge c d in Ok (Obj r)
  end.

(** sum(clouds): the builtin starts with 0. *)
Definition sum (l : list cloud) : res operand := foldM (fun acc c => add acc (Obj c)) (Int 0) l.

(** point 120-121, color 126-127: the index becomes a size_t, and the vector is
    accessed without a check. *)
Definition access {A} (l : list A) (i : Z) : res A :=
  if Z.ltb i 0 then Err OverflowError
  else match nth_error l (Z.to_nat i) with Some x => Ok x | None => Err Undefined end.
Definition point (c : cloud) (i : Z) : res vec := access (points c) i.
Definition color_at (c : cloud) (i : Z) : res color := access (colors c) i.

(** l[:, idx]. *)
Definition select {A} (l : list A) (i : nat) : res A := match nth_error l i with Some x => Ok x | None => Err IndexError end.

(** thin, point_cloud.pyx 142-147.  draws are the numbers from np.random.randint, which
    refuses an empty range and a negative size (some numpy versions accept an empty
    range for size 0; here it is refused). *)
Definition thin (debug : bool) (draws : nat -> nat) (c : cloud) (num_to_keep : Z) : res cloud :=
  if (Nat.eqb (num_points c) 0 || Z.ltb num_to_keep 0)%bool then Err ValueError
  else
    let idx := map draws (seq 0 (Z.to_nat num_to_keep)) in
    let* ps := mapM (select (points c)) idx in
    if colored c then
      let* cs := mapM (select (colors c)) idx in
      init debug (Some (array_of ps)) (Some (array_of cs))
    else init debug (Some (array_of ps)) None.
