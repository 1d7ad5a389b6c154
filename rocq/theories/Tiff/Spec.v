(** Vocabulary for the TIFF properties. *)
From Coq Require Import Reals List ZArith String.
From Verif.Depth Require Import Model Spec.
From Verif.Cloud Require Import Model.
From Verif.Base Require Import Py Fs.
From Verif.Tiff Require Import Model.
Import ListNotations.
Local Open Scope string_scope.
Local Open Scope list_scope.

(** * Images *)

Definition filled {A} (im : image A) : Prop := (0 < height im)%nat /\ (0 < width im)%nat.

Definition pixels {A B} (r : A -> B -> Prop) (a : image A) (b : image B) : Prop :=
  height b = height a /\ width b = width a /\
  forall v u, (v < height a)%nat -> (u < width a)%nat -> r (pixel a v u) (pixel b v u).

(** Values of n bits. *)
Definition bounded (max : Z) (im : image Z) : Prop :=
  forall v u, (v < height im)%nat -> (u < width im)%nat -> (0 <= pixel im v u <= max)%Z.

Local Open Scope R_scope.

(** The depth [d] that a 16 bit code stands for: nothing for 0, otherwise near * 65535 /
    code, up to a tenth of a code. *)
Definition decoded (near : R) (k : Z) (d : depth) : Prop :=
  (k = 0%Z /\ d = Inf) \/ (k <> 0%Z /\ exists x, 0 < x /\ d = Fin x /\ Rabs (near * 65535 / x - IZR k) <= / 10).

(** What is left of a depth after storing it: unknown (0) and infinite depths become
    infinite, depths up to near become near, and other ones keep their reciprocal up to
    0.6 codes. *)
Definition stored (near : R) (d d' : depth) : Prop :=
  match d with
  | Inf => d' = Inf
  | Fin x =>
      if Req_EM_T x 0 then d' = Inf
      else Rabs (per (near * 65535) d' - (if Rle_dec x near then 65535 else near * 65535 / x)) <= 6 / 10
  end.

(** The same for an old 8 bit code: near was 1, so the depth was 255 / code. *)
Definition old_decoded (near : R) (k : Z) (d : depth) : Prop :=
  (k = 0%Z /\ d = Inf) \/ (k <> 0%Z /\ exists x, 0 < x /\ d = Fin x /\ Rabs (near * 65535 / x - near * 65535 * (IZR k / 255)) <= 7 / 10).

(** * Files *)

(** The page names in use, with the old ones. *)
Definition known_names : list (string * tiff_type) :=
  [("rgb", TRgb); ("inv_depth", TInverseDepth); ("category", TCategory); ("instance", TInstance);
   ("depth", TInverseDepth); ("semantic", TCategory)].

(** The type of a directory.  Without a name, three samples mean color, one means depth. *)
Definition kind (d : directory) (t : tiff_type) : Prop :=
  match page_name d with
  | Some s => In (s, t) known_names
  | None => match content d with Three8 _ => t = TRgb | One8 _ | One16 _ => t = TInverseDepth | _ => False end
  end.

(** A directory the reader can take. *)
Definition good (d : directory) : Prop :=
  readable d = true /\ (exists t, kind d t) /\
  match content d with Three8 _ | One8 _ | One16 _ => True | _ => False end.

(** The last directory of the type, and there is none. *)
Definition shows (ds : list directory) (t : tiff_type) (c : samples) : Prop :=
  exists l d r, ds = l ++ d :: r /\ kind d t /\ content d = c /\ forall d', In d' r -> ~ kind d' t.
Definition absent (ds : list directory) (t : tiff_type) : Prop := forall d, In d ds -> ~ kind d t.

(** The near plane of a file: 1 unless the description has one. *)
Inductive number : json -> R -> Prop := nint k : number (JInt k) (IZR k) | ndouble x : number (JDouble x) x.
Inductive near_plane (f32 : R -> R) : option json -> R -> Prop :=
  | no_description : near_plane f32 None 1
  | no_near l : (forall j, sget "version" l = Some j -> exists k, j = JInt k) -> sget "near" l = None -> near_plane f32 (Some (JObject l)) 1
  | with_near l j x : (forall j, sget "version" l = Some j -> exists k, j = JInt k) -> sget "near" l = Some j -> number j x ->
      near_plane f32 (Some (JObject l)) (f32 x).

(** A page of labels: 8 or 16 bits, with the image. *)
Definition labels (c : samples) (im : image Z) : Prop := c = One16 im \/ c = One8 im.

(** The loaded page of labels for what the file has. *)
Definition label_page (ds : list directory) (t : tiff_type) (r : option array) : Prop :=
  (absent ds t /\ r = None) \/ (exists c im, shows ds t c /\ labels c im /\ filled im /\ r = Some (Array (Uint16 im) true)).
Definition color_page (ds : list directory) (r : option array) : Prop :=
  (absent ds TRgb /\ r = None) \/ (exists im, shows ds TRgb (Three8 im) /\ filled im /\ r = Some (Array (Rgb8 im) true)).

(** * Saving *)

(** The array that is saved as depth: the last of the pages "depth" and "invdepth". *)
Definition depth_source (m : pages) (a : array) : Prop :=
  exists l k r, m = l ++ (k, a) :: r /\ (k = "depth" \/ k = "invdepth") /\ forall e, In e r -> fst e <> "depth" /\ fst e <> "invdepth".

Definition array_filled (a : array) : Prop :=
  match data a with Rgb8 im => filled im | Uint16 im => filled im /\ bounded 65535 im | Float32 im => filled im | OtherArray => True end.

(** What loading makes of the depth array. *)
Definition depth_back (near : R) (a : array) (d : image depth) : Prop :=
  match data a with
  | Float32 im => pixels (stored near) im d
  | Uint16 im => pixels (decoded near) im d
  | _ => False
  end.

(** A page that can be saved.  A depth image may be any view, the others must be
    contiguous. *)
Definition storable (k : string) (a : array) : Prop :=
  (k = "rgb" /\ contiguous a = true /\ exists im, data a = Rgb8 im) \/
  (k = "depth" /\ exists im, data a = Float32 im) \/
  ((k = "invdepth" \/ k = "category" \/ k = "instance") /\ contiguous a = true /\ exists im, data a = Uint16 im).

(** The path can be written: its folder exists and it is not a folder. *)
Definition writable (s : fs file) (p : path) : Prop :=
  resolve s p <> [] /\ isdir_at s (removelast (resolve s p)) = true /\ isdir_at s (resolve s p) = false.
