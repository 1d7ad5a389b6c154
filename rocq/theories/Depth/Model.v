(** Model of /repo/sumo-api/sumo/geometry/inverse_depth.pyx.
    Depths are reals or infinity (NaN is not modelled).  Every floating-point
    operation is followed by an explicit rounding, [f32] for C float and [f64] for
    C double / Python float; the roundings are arguments, see Depth.Spec.  Codes
    are integers. *)
From Coq Require Import Reals ZArith List.
From Verif.Base Require Import Py.
Open Scope R_scope.

Inductive depth := Fin (x : R) | Inf.

(** PIXEL_MAX, line 18. *)
Definition PIXEL_MAX : Z := 65535.

(** <Uint8> / <Uint16> of a float, 69, 81: truncation toward zero.  Out of range
    the 16-bit version (a Python float) raises OverflowError inside
    inverse_depth_of_depth; for the 8-bit one the C cast is undefined. *)
Definition trunc (x : R) : Z := if Rle_dec 0 x then Int_part x else (- Int_part (- x))%Z.
Definition to_uint (max : Z) (e : exn) (x : R) : res Z :=
  let k := trunc x in
  if ((0 <=? k) && (k <=? max))%Z%bool then Ok k else Err e.

(** The OverflowError is printed, not raised, since the function has no exception value;
    the result is then 0 (Cython 0.27.3, requirements.txt 1). *)
Definition to_uint16 (x : R) : res Z :=
  match to_uint PIXEL_MAX OverflowError x with Ok k => Ok k | Err _ => Ok 0%Z end.

Section Rounding.
  Variables f32 f64 : R -> R.

  (** DEFAULT_NEAR, line 17: the Python float 0.3, and the same as Float32
      argument. *)
  Definition default_near64 : R := f64 (3 / 10).
  Definition default_near32 : R := f32 default_near64.

  (** depth_of_uint8_inverse_depth, 36-43.  near is a Python float. *)
  Definition depth_of_uint8_inverse_depth (inverse_depth : Z) (near : R) : depth :=
    if (inverse_depth =? 0)%Z then Inf
    else Fin (f32 (f64 (f64 (near * 255) / IZR inverse_depth))).

  (** depth_of_inverse_depth, 45-53.  PIXEL_MAX is a Python int, so the arithmetic
      is done in double. *)
  Definition depth_of_inverse_depth (inverse_depth : Z) (near : R) : depth :=
    if (inverse_depth =? 0)%Z then Inf
    else Fin (f32 (f64 (f64 (near * IZR PIXEL_MAX) / IZR inverse_depth))).

  (** uint8_inverse_depth_of_depth, 57-67: C arithmetic in float, then double. *)
  Definition uint8_inverse_depth_of_depth (d : depth) (near : R) : res Z :=
    match d with
    | Inf => to_uint 255 Undefined (f64 (1 / 2 + 0))
    | Fin x =>
        if Req_EM_T x 0 then Ok 0%Z
        else if Rle_dec x near then Ok 255%Z
        else to_uint 255 Undefined (f64 (1 / 2 + f32 (f32 (near * 255) / x)))
    end.

  (** inverse_depth_of_depth, 69-79: Python arithmetic in double. *)
  Definition inverse_depth_of_depth (d : depth) (near : R) : res Z :=
    match d with
    | Inf => to_uint16 (f64 (1 / 2 + 0))
    | Fin x =>
        if Req_EM_T x 0 then Ok 0%Z
        else if Rle_dec x near then Ok PIXEL_MAX
        else to_uint16 (f64 (1 / 2 + f64 (f64 (near * IZR PIXEL_MAX) / x)))
    end.

  (** inverse_depth_from_uint8, 157-162: the 16-bit near plane is the default one.
      (Overflow of the inner value to Float32 infinity is not modelled.) *)
  Definition inverse_depth_from_uint8 (inverse_depth : Z) (near : R) : res Z :=
    inverse_depth_of_depth (depth_of_uint8_inverse_depth inverse_depth near) default_near32.
End Rounding.

(** A 2-d array: shape and contents. *)
Record image (A : Type) := Image { height : nat; width : nat; pixel : nat -> nat -> A }.
Arguments Image {A}. Arguments height {A}. Arguments width {A}. Arguments pixel {A}.

Definition write {A} (v u : nat) (x : A) (im : image A) : image A :=
  Image (height im) (width im) (fun v' u' => if (Nat.eqb v' v && Nat.eqb u' u)%bool then x else pixel im v' u').

(** for i in range(n): state = body(i, state) *)
Fixpoint for_range {S} (n : nat) (body : nat -> S -> res S) (s : S) : res S :=
  match n with
  | O => Ok s
  | Datatypes.S n => let* s := for_range n body s in body n s
  end.

(** The double loops of 83-153 and 164-181: np.empty, then one assignment per
    pixel.  [junk] is the uninitialised content. *)
Definition convert_map {A B} (f : A -> res B) (junk : nat -> nat -> B) (im : image A) : res (image B) :=
  for_range (height im) (fun v out =>
    for_range (width im) (fun u out =>
      let* x := f (pixel im v u) in Ok (write v u x out)) out)
  (Image (height im) (width im) junk).

Section Maps.
  Variables f32 f64 : R -> R.
  (** uint8_inverse_depth_map_of_depth_image, 83-99. *)
  Definition uint8_inverse_depth_map_of_depth_image junk (im : image depth) (near : R) : res (image Z) :=
    convert_map (fun d => uint8_inverse_depth_of_depth f32 f64 d near) junk im.
  (** inverse_depth_map_of_depth_image, 101-117. *)
  Definition inverse_depth_map_of_depth_image junk (im : image depth) (near : R) : res (image Z) :=
    convert_map (fun d => inverse_depth_of_depth f64 d near) junk im.
  (** depth_image_of_inverse_depth_map, 119-135. *)
  Definition depth_image_of_inverse_depth_map junk (im : image Z) (near : R) : res (image depth) :=
    convert_map (fun k => Ok (depth_of_inverse_depth f32 f64 k near)) junk im.
  (** depth_image_of_uint8_inverse_depth_map, 137-153. *)
  Definition depth_image_of_uint8_inverse_depth_map junk (im : image Z) (near : R) : res (image depth) :=
    convert_map (fun k => Ok (depth_of_uint8_inverse_depth f32 f64 k near)) junk im.
  (** uint16_of_uint8_inverse_depth_map, 164-181. *)
  Definition uint16_of_uint8_inverse_depth_map junk (im : image Z) (near : R) : res (image Z) :=
    convert_map (fun k => inverse_depth_from_uint8 f32 f64 k near) junk im.
End Maps.
