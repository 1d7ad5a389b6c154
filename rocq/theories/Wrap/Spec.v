(** What it means that an OpenCV image and a numpy array show the same picture. *)
From Coq Require Import List ZArith Bool.
From Verif.Base Require Import Py.
From Verif.Wrap Require Import Model.
Import ListNotations.
Local Open Scope Z_scope.

(** An array has one stride per axis. *)
Definition well_formed (a : array) : Prop := List.length (strides a) = List.length (shape a).

(** The image is the array: same size, and every pixel is at the address of its element
    (a write to one is seen in the other). *)
Definition views_gray (a : array) (m : cvmat) : Prop :=
  exists h w, shape a = [h; w] /\ rows m = h /\ cols m = w /\ esz (m_type m) = itemsize (a_type a) /\
  forall i j, (i < h)%nat -> (j < w)%nat -> pixel_address m i j = address a [i; j].
Definition views_color (a : array) (m : cvmat) : Prop :=
  exists h w, shape a = [h; w; 3%nat] /\ rows m = h /\ cols m = w /\ m_type m = CV_8UC3 /\ itemsize (a_type a) = 1%nat /\
  forall i j c, (i < h)%nat -> (j < w)%nat -> (c < 3)%nat -> pixel_address m i j + Z.of_nat c = address a [i; j; c].

(** The rows of an image follow each other without gaps. *)
Definition continuous (m : cvmat) : Prop :=
  (rows m <= 1)%nat \/ step m = Z.of_nat (cols m * esz (m_type m)).

(** The array [a] in memory [mem'] has the bytes of the picture [m] in memory [mem]. *)
Definition same_gray (mem' : memory) (a : array) (mem : memory) (m : cvmat) : Prop :=
  shape a = [rows m; cols m] /\ itemsize (a_type a) = esz (m_type m) /\
  forall i j, (i < rows m)%nat -> (j < cols m)%nat ->
    bytes_at mem' (address a [i; j]) (itemsize (a_type a)) = bytes_at mem (pixel_address m i j) (esz (m_type m)).
Definition same_color (mem' : memory) (a : array) (mem : memory) (m : cvmat) : Prop :=
  shape a = [rows m; cols m; 3%nat] /\ a_type a = Uint8 /\ m_type m = CV_8UC3 /\
  forall i j c, (i < rows m)%nat -> (j < cols m)%nat -> (c < 3)%nat ->
    mem' (address a [i; j; c]) = mem (pixel_address m i j + Z.of_nat c).

(** Memory outside [n] bytes from [p] on is as before. *)
Definition only_changed (p : Z) (n : nat) (mem mem' : memory) : Prop :=
  forall q, q < p \/ p + Z.of_nat n <= q -> mem' q = mem q.

(** The picture fits: the number of pixels times [factor] is a C int. *)
Definition fits (factor : nat) (m : cvmat) : Prop :=
  Z.of_nat (rows m) * Z.of_nat (cols m) * Z.of_nat factor < 2 ^ 31.
