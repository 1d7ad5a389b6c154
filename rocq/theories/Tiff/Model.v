(** Multi-page TIFF images: images/RgbdTiff.cpp, images/rgbd_tiff.pyx,
    multi_image_tiff.pyx, rgbd_360.pyx and rgbdci_360.pyx (except show and
    create_point_cloud; the latter is in Cube.Model).

    A TIFF file is its list of directories with the tags the code uses; how libtiff lays
    them out and compresses them is not modelled.  The image description is a JSON value:
    picojson's text is modelled in Json.Model (it writes a number so that reading gives the same
    number; whole numbers are read back as integers, which [number] takes as the same).
    Pixel values are integers. *)
From Coq Require Import Reals List ZArith Bool String.
From Verif.Depth Require Import Model.
From Verif.Cloud Require Import Model.
From Verif.Base Require Import Py Fs.
Import ListNotations.
Local Open Scope string_scope.
Local Open Scope list_scope.

(** TiffPageType, RgbdTiff.h 17-25. *)
Inductive tiff_type := TRgb | TInverseDepth | TCategory | TInstance.
Definition tiff_eqb (a b : tiff_type) : bool :=
  match a, b with
  | TRgb, TRgb | TInverseDepth, TInverseDepth | TCategory, TCategory | TInstance, TInstance => true
  | _, _ => false
  end.
(** The values in order: the loop of RgbdTiff.cpp 258-259, the order of a std::map over
    them, and "for page_type in TiffPageType", rgbd_tiff.pyx 75. *)
Definition all_types : list tiff_type := [TRgb; TInverseDepth; TCategory; TInstance].

(** kStrToPageType, RgbdTiff.cpp 21-30. *)
Definition kStrToPageType : list (string * tiff_type) :=
  [("rgb", TRgb); ("depth", TInverseDepth); ("inv_depth", TInverseDepth);
   ("category", TCategory); ("semantic", TCategory); ("instance", TInstance)].
(** kPageTypeToStr and pageTypeToStr, RgbdTiff.cpp 33-42. *)
Definition pageTypeToStr (t : tiff_type) : string :=
  match t with TRgb => "rgb" | TInverseDepth => "inv_depth" | TCategory => "category" | TInstance => "instance" end.
(** strToPageType, RgbdTiff.cpp 44-47. *)
Definition strToPageType (s : string) : res tiff_type :=
  match sget s kStrToPageType with Some t => Ok t | None => Err IndexError end.

(** The samples of a directory: three or one per pixel, of 8 or 16 bits, or something
    else (samples per pixel, bits per sample). *)
Inductive samples :=
  | Three8 (im : image color) | Three16 (im : image color) | One8 (im : image Z) | One16 (im : image Z)
  | OtherSamples (per_pixel bits : nat).
Definition samples_per_pixel (s : samples) : nat :=
  match s with Three8 _ | Three16 _ => 3 | One8 _ | One16 _ => 1 | OtherSamples n _ => n end.
Definition bits_per_sample (s : samples) : nat :=
  match s with Three8 _ | One8 _ => 8 | Three16 _ | One16 _ => 16 | OtherSamples _ b => b end.

(** A directory: page name tag, samples, and whether libtiff can read the rows. *)
Record directory := Directory { page_name : option string; content : samples; readable : bool }.

(** JSON values, as far as they are told apart; an object has its members. *)
Inductive json := JInt (k : Z) | JDouble (x : R) | JObject (l : list (string * json)) | JOther.

(** A file.  The first directory has the image description, if there is one. *)
Record tiff := TiffFile { description : option json; directories : list directory }.
Inductive file := Tiff (t : tiff) | OtherFile.

(** TiffMetadata, RgbdTiff.h 29-32. *)
Record metadata := Metadata { version : Z; depthNearPlane : R }.

(** cv::Mat, of the three types used here; a Mat without pixels is empty. *)
Inductive mat := M3b (im : image color) | M1w (im : image Z) | M1b (im : image Z).
Definition mat_empty (m : mat) : bool :=
  match m with
  | M3b im => Nat.eqb (height im) 0 || Nat.eqb (width im) 0
  | M1w im | M1b im => Nat.eqb (height im) 0 || Nat.eqb (width im) 0
  end.
Definition channels (m : mat) : nat := match m with M3b _ => 3 | _ => 1 end.

(** TiffPageMap for reading: the types the caller wants, with the image read so far
    (None: Mat(), no image yet). *)
Definition page_slots := list (tiff_type * option mat).

(** readTiffPageType, RgbdTiff.cpp 49-62. *)
Definition readTiffPageType (d : directory) (channels : nat) : res tiff_type :=
  match page_name d with
  | None => Ok (if Nat.eqb channels 3 then TRgb else TInverseDepth)
  | Some s => strToPageType s
  end.

Section Rounding.
  Variables f32 f64 : R -> R.

  (** get<int64_t> and get<double> of picojson.h 369-396 (compiled with
      PICOJSON_USE_INT64, setup.py 103): a mismatch throws runtime_error. *)
  Definition get_int64 (j : json) : res Z := match j with JInt k => Ok k | _ => Err RuntimeError end.
  Definition get_double (j : json) : res R :=
    match j with JInt k => Ok (IZR k) | JDouble x => Ok x | _ => Err RuntimeError end.

  (** readMetadata, RgbdTiff.cpp 71-111. *)
  Definition readMetadata (t : tiff) : res metadata :=
    match description t with
    | None => Ok (Metadata 0 1)
    | Some (JObject l) =>
        let* v := match sget "version" l with None => Ok 0%Z | Some j => get_int64 j end in
        let* n := match sget "near" l with None => Ok 1%R | Some j => let* x := get_double j in Ok (f32 x) end in
        Ok (Metadata v n)
    | Some _ => Err RuntimeError
    end.

  (** writeMetadata, RgbdTiff.cpp 113-123.  The members of a std::map are in
      alphabetical order. *)
  Definition writeMetadata (meta : metadata) : json :=
    JObject [("near", JDouble (depthNearPlane meta)); ("version", JInt 1)].

  (** readImage, RgbdTiff.cpp 132-179: the slots afterwards.  With three samples of 16
      bits the rows are written past the end of the image. *)
  Definition readImage (d : directory) (slots : page_slots) : res page_slots :=
    let n := samples_per_pixel (content d) in
    if negb (Nat.eqb n 3) && negb (Nat.eqb n 1) then Err RuntimeError
    else if negb (Nat.eqb (bits_per_sample (content d)) 8) && negb (Nat.eqb (bits_per_sample (content d)) 16) then Err RuntimeError
    else
      let* pageType := readTiffPageType d n in
      if negb (dmem tiff_eqb pageType slots) then Ok slots
      else
        let* img :=
          match content d with
          | Three8 im => Ok (M3b im)
          | Three16 _ => Err Undefined
          | One16 im => Ok (M1w im)
          | One8 im => Ok (M1b im)
          | OtherSamples _ _ => Err RuntimeError
          end in
        if readable d then Ok (dset tiff_eqb pageType (Some img) slots) else Err RuntimeError.

  (** readRgbdTiff, RgbdTiff.cpp 185-198. *)
  Definition readRgbdTiff (p : path) (slots : page_slots) : io file (page_slots * metadata) :=
    fun s => match read p s with
    | (s, Ok (Tiff t)) =>
        (s, let* meta := readMetadata t in
            let* slots := foldM (fun slots d => readImage d slots) slots (directories t) in
            Ok (slots, meta))
    | (s, _) => (s, Err RuntimeError)
    end.

  (** writeImage, RgbdTiff.cpp 201-230: 8 bits per sample for CV_8UC3, otherwise 16, so
      that rows of a one channel 8 bit image are read past their end (this image
      type is not used by the callers). *)
  Definition writeImage (img : mat) (pageType : tiff_type) : res directory :=
    match img with
    | M3b im => Ok (Directory (Some (pageTypeToStr pageType)) (Three8 im) true)
    | M1w im => Ok (Directory (Some (pageTypeToStr pageType)) (One16 im) true)
    | M1b _ => Err Undefined
    end.

  (** writeRgbdTiff, RgbdTiff.cpp 236-269. *)
  Definition writeRgbdTiff (pages : list (tiff_type * mat)) (p : path) (meta : metadata) : io file unit :=
    fun s =>
    if negb (dmem tiff_eqb TRgb pages) then (s, Err RuntimeError)
    else if negb (dmem tiff_eqb TInverseDepth pages) then (s, Err RuntimeError)
    else
      match foldM (fun ds t =>
                match dget tiff_eqb t pages with
                | None => Ok ds
                | Some m => let* d := writeImage m t in Ok (ds ++ [d])
                end) [] all_types with
      | Ok ds => match write p (Tiff (TiffFile (Some (writeMetadata meta)) ds)) s with
                 | (s, Ok _) => (s, Ok tt)
                 | (s, Err _) => (s, Err RuntimeError)
                 end
      | Err e => (s, Err e)
      end.

  (** MultiImagePageType, rgbd_tiff.pyx 46-51, are strings. *)
  Definition RGB := "rgb".
  Definition Depth := "depth".
  Definition InverseDepth := "invdepth".
  Definition Category := "category".
  Definition Instance := "instance".

  (** A numpy array: h*w*3 uint8, h*w uint16, h*w float32, or another one; and whether it
      is C-contiguous. *)
  Inductive array_data := Rgb8 (im : image color) | Uint16 (im : image Z) | Float32 (im : image depth) | OtherArray.
  Record array := Array { data : array_data; contiguous : bool }.
  Definition pages := list (string * array).

  (** load, rgbd_tiff.pyx 66-111.  <Mat1w> of an 8 bit Mat converts the values; of a
      three channel one it fails (CV_Assert), an exception that becomes RuntimeError.
      [junk16] and [junkd] are the contents of new arrays. *)
  Definition array_from_mat1w (m : mat) : res array :=
    match m with
    | M1w im | M1b im => Ok (Array (Uint16 im) true)
    | M3b _ => Err RuntimeError
    end.
  Section Junk.
  Variables (junk16 : nat -> nat -> Z) (junkd : nat -> nat -> depth).
  Definition load_page (m : mat) (t : tiff_type) (page_map : pages) (near : R) : res (pages * R) :=
    match t with
    | TRgb => match m with M3b im => Ok (sset RGB (Array (Rgb8 im) true) page_map, near) | _ => Err ValueError end
    | TInverseDepth =>
        match m with
        | M3b _ => Err ValueError
        | M1b im =>
            let* w := uint16_of_uint8_inverse_depth_map f32 f64 junk16 im 1 in
            Ok (sset Depth (Array (Uint16 w) true) page_map, default_near32 f32 f64)
        | M1w im => Ok (sset Depth (Array (Uint16 im) true) page_map, near)
        end
    | TCategory => let* a := array_from_mat1w m in Ok (sset Category a page_map, near)
    | TInstance => let* a := array_from_mat1w m in Ok (sset Instance a page_map, near)
    end.
  Definition load_slot (slots : page_slots) (s : pages * R) (t : tiff_type) : res (pages * R) :=
    match dget tiff_eqb t slots with
    | Some (Some m) => if mat_empty m then Ok s else load_page m t (fst s) (snd s)
    | _ => Ok s
    end.
  Definition load (p : path) : io file pages :=
    do* r := readRgbdTiff p (map (fun t => (t, None)) all_types) in
    ilift (
      let* s := foldM (load_slot (fst r)) ([], depthNearPlane (snd r)) all_types in
      let* inv_depth := sgetE Depth (fst s) in
      match data inv_depth with
      | Uint16 im =>
          let* d := depth_image_of_inverse_depth_map f32 f64 junkd im (snd s) in
          Ok (sset Depth (Array (Float32 d) true) (fst s))
      | _ => Err AssertionError
      end).

  (** _validate, rgbd_tiff.pyx 113-125. *)
  Definition _validate (m : pages) : res unit :=
    let* rgb := sgetE RGB m in
    let* _ := match data rgb with Rgb8 _ => Ok tt | _ => Err ValueError end in
    match sget Depth m with
    | Some a => match data a with Float32 _ => Ok tt | _ => Err ValueError end
    | None => match sget InverseDepth m with
              | Some a => match data a with Uint16 _ => Ok tt | _ => Err ValueError end
              | None => Ok tt
              end
    end.

  (** mat3b_from_array and mat1w_from_array, opencv/wrap.pyx 49-70.  They are declared
      "except +" (wrap.pxd), so the ValueError for a wrong or not contiguous array is not
      checked by the caller, which goes on with a null pointer. *)
  Definition mat3b_from_array (a : array) : res mat :=
    match data a with Rgb8 im => if contiguous a then Ok (M3b im) else Err Undefined | _ => Err Undefined end.
  Definition mat1w_from_array (a : array) : res mat :=
    match data a with Uint16 im => if contiguous a then Ok (M1w im) else Err Undefined | _ => Err Undefined end.

  (** save, rgbd_tiff.pyx 127-165.  near is converted to Float32 for
      inverse_depth_map_of_depth_image and for the metadata.  An array that is not a
      float32 image in the conversion of line 140 raises ValueError. *)
  Definition save_page (near : R) (out : list (tiff_type * mat)) (e : string * array) : res (list (tiff_type * mat)) :=
    let (page_type, img) := e in
    if String.eqb page_type Depth then
      match data img with
      | Float32 im =>
          let* inv := inverse_depth_map_of_depth_image f64 junk16 im (f32 near) in
          let* m := mat1w_from_array (Array (Uint16 inv) true) in
          Ok (dset tiff_eqb TInverseDepth m out)
      | _ => Err ValueError
      end
    else if String.eqb page_type InverseDepth then
      let* m := mat1w_from_array img in Ok (dset tiff_eqb TInverseDepth m out)
    else if String.eqb page_type RGB then
      let* m := mat3b_from_array img in Ok (dset tiff_eqb TRgb m out)
    else if String.eqb page_type Category then
      let* m := mat1w_from_array img in Ok (dset tiff_eqb TCategory m out)
    else if String.eqb page_type Instance then
      let* m := mat1w_from_array img in Ok (dset tiff_eqb TInstance m out)
    else Err ValueError.
  Definition save (page_map : pages) (p : path) (near : R) : io file unit :=
    do* _ := ilift (_validate page_map) in
    do* out := ilift (foldM (save_page near) [] page_map) in
    writeRgbdTiff out p (Metadata 0 (f32 near)).

  (** * The classes *)

  (** MultiImageTiff, multi_image_tiff.pyx 16-77: the dict itself; _get_image 59-61. *)
  Definition multi_save (m : pages) (p : path) (near : R) : io file unit := save m p near.
  Definition multi_load (p : path) : io file pages := load p.
  Definition get_image (t : string) (m : pages) : option array := if smem t m then sget t m else None.
  Definition multi_rgb := get_image RGB.
  Definition multi_range := get_image Depth.
  Definition multi_category := get_image Category.
  Definition multi_instance := get_image Instance.

  (** Rgbd360, rgbd_360.pyx 17-63. *)
  Record rgbd360 := Rgbd360 { r_rgb : array; r_range : array }.
  Definition new_rgbd360 (rgb range : array) : res rgbd360 :=
    let* _ := match data rgb with Rgb8 _ => Ok tt | _ => Err TypeError end in
    let* _ := match data range with Float32 _ => Ok tt | _ => Err TypeError end in
    Ok (Rgbd360 rgb range).
  Definition rgbd360_save (x : rgbd360) (p : path) (near : R) : io file unit :=
    save [(RGB, r_rgb x); (Depth, r_range x)] p near.
  Definition rgbd360_load (p : path) : io file rgbd360 :=
    do* m := load p in
    ilift (let* rgb := sgetE RGB m in let* range := sgetE Depth m in new_rgbd360 rgb range).

  (** Rgbdci360, rgbdci_360.pyx 25-84. *)
  Record rgbdci360 := Rgbdci360 { c_rgb : array; c_range : array; c_category : array; c_instance : array }.
  Definition new_rgbdci360 (rgb range category inst : array) : res rgbdci360 :=
    let* _ := match data rgb with Rgb8 _ => Ok tt | _ => Err TypeError end in
    let* _ := match data range with Float32 _ => Ok tt | _ => Err TypeError end in
    let* _ := match data category with Uint16 _ => Ok tt | _ => Err TypeError end in
    let* _ := match data inst with Uint16 _ => Ok tt | _ => Err TypeError end in
    Ok (Rgbdci360 rgb range category inst).
  Definition rgbdci360_save (x : rgbdci360) (p : path) (near : R) : io file unit :=
    save [(RGB, c_rgb x); (Depth, c_range x); (Category, c_category x); (Instance, c_instance x)] p near.
  Definition rgbdci360_load (p : path) : io file rgbdci360 :=
    do* m := load p in
    ilift (let* rgb := sgetE RGB m in let* range := sgetE Depth m in
           let* category := sgetE Category m in let* inst := sgetE Instance m in
           new_rgbdci360 rgb range category inst).
  End Junk.
End Rounding.
