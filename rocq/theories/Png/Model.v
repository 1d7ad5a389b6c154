(** Model of reading .png files: stbi_load_from_memory with req_comp 0, as LoadImageData
    (/repo/sumo-api/sumo/threedee/tiny_gltf/tiny_gltf.h 1396-1456) calls it;
    stb_image.h 973-986, 1018-1032, 1086-1108, 1407-1482, 1223-1228 and 4260-4939 in the
    same folder.  Bytes are numbers.  No picture (NULL) is [Ok None]; a failed assertion
    is [Err Terminate].
    The decompressor (stbi_zlib_decode_malloc_guesssize_headerflag) is the argument
    [inflate], whose first argument is parse_header.  Allocation only fails where
    stbi__malloc_mad3 refuses.  The rows of a picture are lists of their own: the code
    keeps them in one array, packed samples at the right end of their row, and unpacks
    them to the left without overtaking.  Memory that was not written is [Err Undefined].
    Other formats than PNG are not modelled: [None] for them. *)
From Coq Require Import List Bool ZArith Ascii String.
From Verif.Base Require Import Py.
Import ListNotations.
Local Open Scope Z_scope.

(** ** Reading bytes, 1407-1482 *)

(** stbi__get8: 0 at the end. *)
Definition get8 (s : list Z) : Z * list Z := match s with [] => (0, []) | c :: s => (c, s) end.
Definition get16be (s : list Z) : Z * list Z := let (a, s) := get8 s in let (b, s) := get8 s in (a * 256 + b, s).
Definition get32be (s : list Z) : Z * list Z := let (a, s) := get16be s in let (b, s) := get16be s in (a * 65536 + b, s).
(** stbi__skip; [n] becomes an int. *)
Definition skip (s : list Z) (n : Z) : list Z := if 2147483648 <=? n then [] else skipn (Z.to_nat n) s.
(** stbi__getn for 0 <= n < 2^31. *)
Definition getn (s : list Z) (n : Z) : option (list Z * list Z) :=
  if n <=? Z.of_nat (List.length s) then Some (firstn (Z.to_nat n) s, skipn (Z.to_nat n) s) else None.
(** Several bytes or pairs of bytes with stbi__get8 or stbi__get16be. *)
Fixpoint repeatedly {A} (get : list Z -> A * list Z) (n : nat) (s : list Z) : list A * list Z :=
  match n with
  | O => ([], s)
  | S n => let (a, s) := get s in let (l, s) := repeatedly get n s in (a :: l, s)
  end.

(** stbi__check_png_header, 4280-4287. *)
Definition signature : list Z := [137; 80; 78; 71; 13; 10; 26; 10].
Fixpoint check_png_header (sig s : list Z) : option (list Z) :=
  match sig with
  | [] => Some s
  | c :: sig => let (d, s) := get8 s in if d =? c then check_png_header sig s else None
  end.

(** ** Rows, 4296-4453 *)

Inductive filter := F_none | F_sub | F_up | F_avg | F_paeth | F_avg_first | F_paeth_first.
(** The first byte of a row, 4355-4358. *)
Definition filter_of (b : Z) : option filter :=
  if b =? 0 then Some F_none else if b =? 1 then Some F_sub else if b =? 2 then Some F_up
  else if b =? 3 then Some F_avg else if b =? 4 then Some F_paeth else None.
(** first_row_filter, 4308-4315. *)
Definition first_row_filter (f : filter) : filter :=
  match f with F_none => F_none | F_sub => F_sub | F_up => F_none | F_avg => F_avg_first | F_paeth => F_paeth_first | f => f end.
(** stbi__paeth, 4317-4326. *)
Definition paeth (a b c : Z) : Z :=
  let p := a + b - c in
  let pa := Z.abs (p - a) in
  let pb := Z.abs (p - b) in
  let pc := Z.abs (p - c) in
  if (pa <=? pb) && (pa <=? pc) then a else if pb <=? pc then b else c.
(** A byte of a row: the first pixel 4371-4382, the others 4407-4443.  [cur] is the row so
    far; the alpha channel that may be in between is left out. *)
Definition unfilter_byte (f : filter) (fb : nat) (prior cur : list Z) (raw : Z) : Z :=
  let k := List.length cur in
  let up := nth k prior 0 in
  if (k <? fb)%nat then
    match f with
    | F_none | F_sub | F_avg_first | F_paeth_first => raw
    | F_up => (raw + up) mod 256
    | F_avg => (raw + up / 2) mod 256
    | F_paeth => (raw + paeth 0 up 0) mod 256
    end
  else
    let left := nth (k - fb) cur 0 in
    match f with
    | F_none => raw
    | F_sub => (raw + left) mod 256
    | F_up => (raw + up) mod 256
    | F_avg => (raw + (up + left) / 2) mod 256
    | F_paeth => (raw + paeth left up (nth (k - fb) prior 0)) mod 256
    | F_avg_first => (raw + left / 2) mod 256
    | F_paeth_first => (raw + paeth left 0 0) mod 256
    end.
Definition unfilter_row (f : filter) (fb : nat) (prior raw : list Z) : list Z :=
  fold_left (fun cur r => cur ++ [unfilter_byte f fb prior cur r]) raw [].
(** The loop over the rows, 4352-4453; no prior row for the first. *)
Fixpoint unfilter (y width fb : nat) (prior : option (list Z)) (raw : list Z) : option (list (list Z)) :=
  match y with
  | O => Some []
  | S y =>
      let (b, raw) := get8 raw in
      match filter_of b with
      | None => None
      | Some f =>
          let cur := match prior with
                     | None => unfilter_row (first_row_filter f) fb [] (firstn width raw)
                     | Some p => unfilter_row f fb p (firstn width raw)
                     end in
          match unfilter y width fb (Some cur) (skipn width raw) with Some l => Some (cur :: l) | None => None end
      end
  end.

(** ** Samples *)

(** stbi__depth_scale_table, 4328. *)
Definition depth_scale (d : Z) : Z := if d =? 1 then 255 else if d =? 2 then 85 else if d =? 4 then 17 else if d =? 8 then 1 else 0.
(** Unpacking, 4458-4508, and the bytes of 16-bit samples, 4529-4541. *)
Definition unpack (depth color : Z) (count : nat) (row : list Z) : list Z :=
  if depth =? 16 then map (fun k => nth (2 * k) row 0 * 256 + nth (2 * k + 1) row 0) (seq 0 count)
  else if depth =? 8 then row
  else
    let scale := if color =? 0 then depth_scale depth else 1 in
    map (fun k => let bit := Z.of_nat k * depth in
                  (scale * (nth (Z.to_nat (bit / 8)) row 0 / 2 ^ (8 - depth - bit mod 8) mod 2 ^ depth)) mod 256) (seq 0 count).
(** The pixels of a row. *)
Definition pixels (x n : nat) (l : list Z) : list (list Z) := map (fun i => firstn n (skipn (i * n) l)) (seq 0 x).

(** ** The picture so far: stbi__context, stbi__png and the variables of
    stbi__parse_png_file, 4732-4743 *)
Record png := Png { first : bool; iphone : bool; img_x : Z; img_y : Z; depth : Z; color : Z; interlace : Z; img_n : Z; pal_img_n : Z;
  trans : option (list Z); palette : list (list Z); pal_len : Z; idata : list Z }.
Definition start : png := Png true false 0 0 0 0 0 0 0 None [] 0 [].
Definition picture : Type := Z * Z * Z * list Z.

(** stbi__create_png_image_raw, 4331-4541: rows of pixels of [img_n] samples. *)
Definition row_bytes (z : png) (x : Z) : Z := (img_n z * x * depth z + 7) / 8.
Definition out_bytes (z : png) : Z := match trans z with Some _ => img_n z + 1 | None => img_n z end * (if depth z =? 16 then 2 else 1).
Definition create_raw (z : png) (x y : Z) (raw : list Z) : res (option (list (list (list Z)))) :=
  let bytes := if depth z =? 16 then 2 else 1 in
  let width := row_bytes z x in
  if 2147483647 <? x * y * out_bytes z then Ok None
  else if Z.of_nat (List.length raw) <? (width + 1) * y then Ok None
  else if (depth z <? 8) && (x <? width) then Err Terminate
  else
    let fb := if depth z <? 8 then 1 else img_n z * bytes in
    match unfilter (Z.to_nat y) (Z.to_nat width) (Z.to_nat fb) None raw with
    | None => Ok None
    | Some rows => Ok (Some (map (fun r => pixels (Z.to_nat x) (Z.to_nat (img_n z))
                                       (unpack (depth z) (color z) (Z.to_nat (img_n z * x)) r)) rows))
    end.

(** The memory that the passes of an interlaced picture are copied to, by row and column,
    and the copying, 4570-4577. *)
Definition canvas : Type := Z -> Z -> option (list Z).
Definition put (m : canvas) (y x : Z) (px : list Z) : canvas := fun y' x' => if (y' =? y) && (x' =? x) then Some px else m y' x'.
Fixpoint put_row (m : canvas) (y x xspc : Z) (row : list (list Z)) : canvas :=
  match row with [] => m | px :: row => put_row (put m y x px) y (x + xspc) xspc row end.
Fixpoint put_rows (m : canvas) (y x yspc xspc : Z) (rows : list (list (list Z))) : canvas :=
  match rows with [] => m | row :: rows => put_rows (put_row m y x xspc row) (y + yspc) x yspc xspc rows end.
(** The loop over the passes, 4553-4582.  That [final] was allocated is not checked: it is
    NULL if it were too large. *)
Definition passes : list (Z * Z * Z * Z) := [(0, 0, 8, 8); (4, 0, 8, 8); (0, 4, 4, 8); (2, 0, 4, 4); (0, 2, 2, 4); (1, 0, 2, 2); (0, 1, 1, 2)].
Fixpoint weave (z : png) (ps : list (Z * Z * Z * Z)) (raw : list Z) (final : canvas) : res (option canvas) :=
  match ps with
  | [] => Ok (Some final)
  | (xorig, yorig, xspc, yspc) :: ps =>
      let x := (img_x z - xorig + xspc - 1) / xspc in
      let y := (img_y z - yorig + yspc - 1) / yspc in
      if (x =? 0) || (y =? 0) then weave z ps raw final
      else
        let* rows := create_raw z x y raw in
        match rows with
        | None => Ok None
        | Some rows =>
            if 2147483647 <? img_x z * img_y z * out_bytes z then Err Undefined
            else weave z ps (skipn (Z.to_nat ((row_bytes z x + 1) * y)) raw) (put_rows final yorig xorig yspc xspc rows)
        end
  end.
Definition read_at (m : canvas) (y x : nat) : res (list Z) := match m (Z.of_nat y) (Z.of_nat x) with Some px => Ok px | None => Err Undefined end.
(** stbi__create_png_image, 4543-4585. *)
Definition create_png_image (z : png) (raw : list Z) : res (option (list (list (list Z)))) :=
  if interlace z =? 1 then
    let* m := weave z passes raw (fun _ _ => None) in
    match m with
    | None => Ok None
    | Some m =>
        let* rows := mapM (fun y => mapM (read_at m y) (seq 0 (Z.to_nat (img_x z)))) (seq 0 (Z.to_nat (img_y z))) in
        Ok (Some rows)
    end
  else create_raw z (img_x z) (img_y z) raw.
(** stbi__compute_transparency and its version for 16 bits, 4587-4635. *)
Fixpoint same (a b : list Z) : bool :=
  match a, b with [], [] => true | x :: a, y :: b => (x =? y) && same a b | _, _ => false end.
Definition add_alpha (opaque : Z) (tc p : list Z) : list Z := p ++ [if same p tc then 0 else opaque].
(** stbi__expand_png_palette, 4637-4672: entries that were not read are not set. *)
Definition expand (z : png) (p : list Z) : res (list Z) :=
  match nth_error (palette z) (Z.to_nat (hd 0 p)) with
  | Some e => Ok (firstn (Z.to_nat (pal_img_n z)) e)
  | None => Err Undefined
  end.

(** The IEND chunk, 4842-4882, the end of stbi__do_png 4904-4932 and
    stbi__convert_16_to_8. *)
Definition finish (inflate : bool -> list Z -> option (list Z)) (z : png) : res (option picture) :=
  if first z then Ok None
  else
    match idata z with
    | [] => Ok None
    | _ =>
        match inflate (negb (iphone z)) (idata z) with
        | None => Ok None
        | Some raw =>
            let* rows := create_png_image z raw in
            match rows with
            | None => Ok None
            | Some rows =>
                let ps := List.concat rows in
                let ps := match trans z with Some tc => map (add_alpha (if depth z =? 16 then 65535 else 255) tc) ps | None => ps end in
                if pal_img_n z =? 0 then
                  let n := match trans z with Some _ => img_n z + 1 | None => img_n z end in
                  let l := List.concat ps in
                  Ok (Some (img_x z, img_y z, n, if depth z =? 16 then map (fun v => v / 256) l else l))
                else
                  let* ps := mapM (expand z) ps in
                  Ok (Some (img_x z, img_y z, pal_img_n z, List.concat ps))
            end
        end
    end.

(** ** Chunks, 4748-4901 *)

Definition tag (t : string) : Z := fold_left (fun n c => n * 256 + Z.of_N (N_of_ascii c)) (list_ascii_of_string t) 0.

(** IHDR, 4757-4786. *)
Definition read_ihdr (z : png) (len : Z) (s : list Z) : option (png * list Z) :=
  if negb (first z) then None
  else if negb (len =? 13) then None
  else
    let (x, s) := get32be s in
    if 16777216 <? x then None
    else
      let (y, s) := get32be s in
      if 16777216 <? y then None
      else
        let (d, s) := get8 s in
        if negb ((d =? 1) || (d =? 2) || (d =? 4) || (d =? 8) || (d =? 16)) then None
        else
          let (c, s) := get8 s in
          if 6 <? c then None
          else if (c =? 3) && (d =? 16) then None
          else if negb (c =? 3) && Z.odd c then None
          else
            let (comp, s) := get8 s in
            if negb (comp =? 0) then None
            else
              let (filter, s) := get8 s in
              if negb (filter =? 0) then None
              else
                let (interlace, s) := get8 s in
                if 1 <? interlace then None
                else if (x =? 0) || (y =? 0) then None
                else if c =? 3 then
                  if 1073741824 / x / 4 <? y then None
                  else Some (Png false (iphone z) x y d c interlace 1 3 (trans z) (palette z) (pal_len z) (idata z), s)
                else
                  let n := (if Z.testbit c 1 then 3 else 1) + (if Z.testbit c 2 then 1 else 0) in
                  if 1073741824 / x / n <? y then None
                  else Some (Png false (iphone z) x y d c interlace n (pal_img_n z) (trans z) (palette z) (pal_len z) (idata z), s).

(** PLTE, 4788-4800. *)
Definition read_color (s : list Z) : list Z * list Z := let (l, s) := repeatedly get8 3 s in (l ++ [255], s).
Definition read_plte (z : png) (len : Z) (s : list Z) : option (png * list Z) :=
  if first z then None
  else if 768 <? len then None
  else if negb (len / 3 * 3 =? len) then None
  else
    let n := Z.to_nat (len / 3) in
    let (l, s) := repeatedly read_color n s in
    Some (Png (first z) (iphone z) (img_x z) (img_y z) (depth z) (color z) (interlace z) (img_n z) (pal_img_n z)
            (trans z) (l ++ skipn n (palette z)) (len / 3) (idata z), s).

(** tRNS, 4802-4823. *)
Fixpoint set_alphas (l : list (list Z)) (al : list Z) : list (list Z) :=
  match l, al with e :: l, a :: al => (firstn 3 e ++ [a]) :: set_alphas l al | l, _ => l end.
Definition read_trns (z : png) (len : Z) (s : list Z) : option (png * list Z) :=
  if first z then None
  else
    match idata z with
    | _ :: _ => None
    | [] =>
        if negb (pal_img_n z =? 0) then
          if pal_len z =? 0 then None
          else if pal_len z <? len then None
          else
            let (l, s) := repeatedly get8 (Z.to_nat len) s in
            Some (Png (first z) (iphone z) (img_x z) (img_y z) (depth z) (color z) (interlace z) (img_n z) 4
                    (trans z) (set_alphas (palette z) l) (pal_len z) (idata z), s)
        else if negb (Z.odd (img_n z)) then None
        else if negb (len =? img_n z * 2) then None
        else
          let (l, s) := repeatedly get16be (Z.to_nat (img_n z)) s in
          let tc := if depth z =? 16 then l else map (fun v => (v mod 256 * depth_scale (depth z)) mod 256) l in
          Some (Png (first z) (iphone z) (img_x z) (img_y z) (depth z) (color z) (interlace z) (img_n z) (pal_img_n z)
                  (Some tc) (palette z) (pal_len z) (idata z), s)
    end.

(** IDAT, 4825-4840: (int)(ioff + c.length) < (int)ioff says that the sum is 2^31 or more. *)
Definition read_idat (z : png) (len : Z) (s : list Z) : option (png * list Z) :=
  if first z then None
  else if negb (pal_img_n z =? 0) && (pal_len z =? 0) then None
  else if 2147483648 <=? Z.of_nat (List.length (idata z)) + len then None
  else
    match getn s len with
    | None => None
    | Some (l, s) => Some (Png (first z) (iphone z) (img_x z) (img_y z) (depth z) (color z) (interlace z) (img_n z) (pal_img_n z)
                             (trans z) (palette z) (pal_len z) (idata z ++ l), s)
    end.

(** The chunks other than IEND; unknown ones are skipped if bit 5 of the first byte is set,
    4884-4899.  CgBI 4751-4754. *)
Definition read_chunk (z : png) (ty len : Z) (s : list Z) : option (png * list Z) :=
  if ty =? tag "CgBI" then
    Some (Png (first z) true (img_x z) (img_y z) (depth z) (color z) (interlace z) (img_n z) (pal_img_n z) (trans z) (palette z) (pal_len z) (idata z), skip s len)
  else if ty =? tag "IHDR" then read_ihdr z len s
  else if ty =? tag "PLTE" then read_plte z len s
  else if ty =? tag "tRNS" then read_trns z len s
  else if ty =? tag "IDAT" then read_idat z len s
  else if first z then None
  else if negb (Z.testbit ty 29) then None
  else Some (z, skip s len).
(** The loop: each turn but the last reads twelve bytes, or meets the end of the file,
    where the type is 0 and refused. *)
Fixpoint parse (inflate : bool -> list Z -> option (list Z)) (turns : nat) (z : png) (s : list Z) : res (option picture) :=
  match turns with
  | O => Ok None
  | S turns =>
      let (len, s) := get32be s in
      let (ty, s) := get32be s in
      if ty =? tag "IEND" then finish inflate z
      else
        match read_chunk z ty len s with
        | None => Ok None
        | Some (z, s) => let (_, s) := get32be s in parse inflate turns z s
        end
  end.

(** stbi_load_from_memory. *)
Definition load (inflate : bool -> list Z -> option (list Z)) (s : list Z) : res (option picture) :=
  match check_png_header signature s with
  | None => Ok None
  | Some s => parse inflate (S (List.length s)) start s
  end.
