(** CubeMap and point clouds from 360 degree images: images/CubeMap.h,
    images/Rgbdci360.cpp and Rgbdci360.create_point_cloud of images/rgbdci_360.pyx.
    Coordinates are reals (the code uses doubles).  Ranges are depths in the sense of
    Depth.Model: a real or infinity (NaN is left out). *)
From Coq Require Import Reals List ZArith Bool.
From Verif.Base Require Import Py Vec.
From Verif.Depth Require Import Model.
From Verif.Cloud Require Import Model.
Import ListNotations.
Local Open Scope R_scope.

(** The constructor, CubeMap.h 29-38: ff_ and pp_ are both (side/2, side/2), and
    offset_[i] is (side * i, 0) for i < 6. *)
Definition half (side : nat) : R := INR side / 2.
Definition offset_at (side : nat) (i : nat) : res (R * R) :=
  if Nat.ltb i 6 then Ok (INR (side * i), 0) else Err IndexError.

(** sensorOfPixel, CubeMap.h 107-109. *)
Definition sensorOfPixel (side : nat) (p : R * R) : R * R :=
  ((fst p - half side) / half side, (snd p - half side) / half side).

(** (size_t)x of a double, CubeMap.h 86: truncation; undefined if the value does not
    fit (only values at most -1 are; the upper bound of size_t is left out). *)
Definition to_size (x : R) : res nat :=
  if Rle_dec x (-1) then Err Undefined else Ok (Z.to_nat (trunc x)).

(** unproject, CubeMap.h 81-105.  With side 0 the quotient in line 86 is not a number,
    and the conversion to size_t undefined.  The exception of offset_.at comes before
    the one of the default case. *)
Definition unproject (side : nat) (pixel : R * R) : res vec :=
  if Req_EM_T (fst pixel) (INR (6 * side)) then
    let sensor := sensorOfPixel side (0, snd pixel) in
    Ok (V (- fst sensor) (snd sensor) (-1))
  else
    let* face := if Nat.eqb side 0 then Err Undefined else to_size (fst pixel / INR side) in
    let* o := offset_at side face in
    let sensor := sensorOfPixel side (fst pixel - fst o, snd pixel - snd o) in
    match face with
    | 0%nat => Ok (V (- fst sensor) (snd sensor) (-1))
    | 1%nat => Ok (V (-1) (snd sensor) (fst sensor))
    | 2%nat => Ok (V (fst sensor) (snd sensor) 1)
    | 3%nat => Ok (V 1 (snd sensor) (- fst sensor))
    | 4%nat => Ok (V (fst sensor) (-1) (snd sensor))
    | 5%nat => Ok (V (fst sensor) 1 (- snd sensor))
    | _ => Err RuntimeError
    end.

(** size, CubeMap.h 41-43. *)
Definition size (side : nat) : nat * nat := ((side * 6)%nat, side).

(** pixelCoordinates, CubeMap.h 114-118. *)
Definition pixelCoordinates (row col : nat) : R * R := (INR col + / 2, INR row + / 2).

(** pointFromRange, Rgbdci360.cpp 19-26. *)
Definition pointFromRange (side : nat) (pixel : R * R) (range : R) : res vec :=
  let* ray := unproject side pixel in
  Ok (smul (range / norm ray) ray).

(** One turn of the inner loop of createPointCloud, Rgbdci360.cpp 43-55: the pixel and
    the two vectors. *)
Definition step (side : nat) (rgb : image color) (range : image depth) (all_points : bool) (row : nat)
    (s : (R * R) * (list vec * list color)) (col : nat) : res ((R * R) * (list vec * list color)) :=
  let '(px, (points, colors)) := s in
  let invalid := if all_points then (points ++ [vzero], colors ++ [Color 0 0 0]) else (points, colors) in
  let* out :=
    match pixel range row col with
    | Fin x =>
        if Rlt_dec 0 x then
          let* point := pointFromRange side px x in
          Ok (points ++ [point], colors ++ [pixel rgb row col])
        else Ok invalid
    | Inf => Ok invalid
    end in
  Ok ((fst px + 1, snd px), out).

(** createPointCloud, Rgbdci360.cpp 28-59.  range(row, col) is read within the size of
    rgb; the Python method makes sure that the sizes agree. *)
Definition createPointCloud (debug : bool) (rgb : image color) (range : image depth) (all_points : bool) : res cloud :=
  let* pc := foldM (fun s row =>
      let* r := foldM (step (height rgb) rgb range all_points row) (pixelCoordinates row 0, s) (seq 0 (width rgb)) in
      Ok (snd r)) ([], []) (seq 0 (height rgb)) in
  new_cloud debug (fst pc) (snd pc).

(** Rgbdci360.create_point_cloud, rgbdci_360.pyx 122-127, and create_point_cloud_,
    132-157, for C-contiguous arrays.  createPointCloud is declared without
    "except +" (rgbdci_360.pxd 16-18), so a C++ exception ends the process. *)
Definition create_point_cloud (debug : bool) (rgb : image color) (range : image depth) (all_points : bool) : res cloud :=
  if (Nat.eqb (height rgb) (height range) && Nat.eqb (width rgb) (width range))%bool then
    match createPointCloud debug rgb range all_points with
    | Ok c => Ok c
    | Err Undefined => Err Undefined
    | Err _ => Err Terminate
    end
  else Err ValueError.
