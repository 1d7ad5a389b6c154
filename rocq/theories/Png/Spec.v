(** Pictures, what a viewer sees of them, and the files that hold them, as the PNG
    specification describes them. *)
From Coq Require Import List Bool ZArith Ascii String.
Import ListNotations.
Local Open Scope Z_scope.

Definition byte (b : Z) : Prop := 0 <= b < 256.
Definition len {A} (l : list A) : Z := Z.of_nat (List.length l).

(** * Pictures *)

Inductive kind := Grey | Rgb | Indexed | GreyAlpha | Rgba.
Definition color_type (k : kind) : Z := match k with Grey => 0 | Rgb => 2 | Indexed => 3 | GreyAlpha => 4 | Rgba => 6 end.
Definition channels (k : kind) : Z := match k with Grey | Indexed => 1 | GreyAlpha => 2 | Rgb => 3 | Rgba => 4 end.
Definition allowed (k : kind) (bits : Z) : Prop :=
  match k with
  | Grey => In bits [1; 2; 4; 8; 16]
  | Indexed => In bits [1; 2; 4; 8]
  | _ => In bits [8; 16]
  end.

(** A picture: [body] are its rows of pixels of samples; [colors] and [alphas] the palette
    of an indexed one; [transparent] the color that is not drawn; whether it is interlaced
    in its file. *)
Record photo := Photo { interlaced : bool; shade : kind; bits : Z; width : Z; height : Z; colors : list (list Z); alphas : option (list Z);
  transparent : option (list Z); body : list (list (list Z)) }.
Definition sample (p : photo) (v : Z) : Prop := 0 <= v < 2 ^ bits p.
(** Its samples, without and with alpha. *)
Definition shown_channels (p : photo) : Z :=
  match shade p with
  | Indexed => match alphas p with Some _ => 4 | None => 3 end
  | k => match transparent p with Some _ => channels k + 1 | None => channels k end
  end.
Record photo_ok (p : photo) : Prop := {
  ok_bits : allowed (shade p) (bits p);
  ok_width : 1 <= width p <= 2 ^ 24;
  ok_height : 1 <= height p <= 2 ^ 24;
  ok_rows : len (body p) = height p;
  ok_row : Forall (fun r => len r = width p) (body p);
  ok_pixel : Forall (Forall (fun px => len px = channels (shade p) /\ Forall (sample p) px)) (body p);
  (** not too large for the library *)
  ok_large : width p * height p * (match shade p with Indexed => 4 | k => channels k end) <= 2 ^ 30 /\
    width p * height p * (shown_channels p * (if bits p =? 16 then 2 else 1)) < 2 ^ 31;
  ok_palette : match shade p with
    | Indexed => 1 <= len (colors p) <= 256 /\ Forall (fun c => len c = 3 /\ Forall byte c) (colors p) /\
        match alphas p with Some l => len l <= len (colors p) /\ Forall byte l | None => True end /\
        transparent p = None /\ Forall (Forall (Forall (fun v => v < len (colors p)))) (body p)
    | _ => alphas p = None
    end;
  ok_transparent : match transparent p with
    | Some c => (shade p = Grey \/ shade p = Rgb) /\ len c = channels (shade p) /\ Forall (sample p) c
    | None => True
    end }.

(** What is seen, in 8 bits: all the way from 0 to 255; of 16 bits, the upper half. *)
Definition eight (p : photo) (v : Z) : Z := if bits p =? 16 then v / 256 else v * 255 / (2 ^ bits p - 1).
Definition shown_pixel (p : photo) (px : list Z) : list Z :=
  match shade p with
  | Indexed =>
      let i := Z.to_nat (hd 0 px) in
      nth i (colors p) [] ++ match alphas p with Some l => [nth i l 255] | None => [] end
  | _ => map (eight p) px ++ match transparent p with Some c => [if list_eq_dec Z.eq_dec px c then 0 else 255] | None => [] end
  end.
Definition shown (p : photo) : list Z := flat_map (flat_map (shown_pixel p)) (body p).

(** * Rows of bytes *)

(** The number that bytes spell, high byte first. *)
Definition number (l : list Z) : Z := fold_left (fun n b => n * 256 + b) l 0.
(** The samples one after the other, high bits first, in as few bytes as hold them. *)
Definition packed (d : Z) (samples bytes : list Z) : Prop :=
  Forall byte bytes /\ len bytes = (d * len samples + 7) / 8 /\
  forall k, 0 <= k < len samples ->
    nth (Z.to_nat k) samples 0 = number bytes / 2 ^ (8 * len bytes - d * (k + 1)) mod 2 ^ d.

(** The filters: what is subtracted, by the byte of the pixel to the left, of the one above
    and of the one above to the left. *)
Definition nearest (a b c x : Z) : Prop :=
  let far y := Z.abs (a + b - c - y) in
  (x = a /\ far a <= far b /\ far a <= far c) \/ (x = b /\ far b < far a /\ far b <= far c) \/
  (x = c /\ far c < far a /\ far c < far b).
Definition predicted (f a b c x : Z) : Prop :=
  (f = 0 /\ x = 0) \/ (f = 1 /\ x = a) \/ (f = 2 /\ x = b) \/ (f = 3 /\ x = (a + b) / 2) \/ (f = 4 /\ nearest a b c x).
Definition before (fb : nat) (row : list Z) (k : nat) : Z := if (k <? fb)%nat then 0 else nth (k - fb) row 0.
Definition filtered (f : Z) (fb : nat) (prior row out : list Z) : Prop :=
  List.length out = List.length row /\
  forall k, (k < List.length row)%nat ->
    exists x, predicted f (before fb row k) (nth k prior 0) (before fb prior k) x /\ nth k out 0 = (nth k row 0 - x) mod 256.
(** Rows with their filters; each row may have another. *)
Inductive filtered_rows (fb : nat) : list Z -> list (list Z) -> list Z -> Prop :=
  | fr_nil : forall prior, filtered_rows fb prior [] []
  | fr_cons : forall prior row rows f out raw, filtered f fb prior row out -> 0 <= f <= 4 -> filtered_rows fb row rows raw ->
      filtered_rows fb prior (row :: rows) (f :: out ++ raw).
Definition scanned (p : photo) (pixels : list (list (list Z))) (raw : list Z) : Prop :=
  exists rows, Forall2 (fun pxs row => packed (bits p) (List.concat pxs) row) pixels rows /\
    filtered_rows (Z.to_nat (Z.max 1 (channels (shade p) * bits p / 8))) [] rows raw.
(** Interlaced pictures: the seven passes, as the PNG specification draws them. *)
Definition adam7 : list (list nat) :=
  [[1; 6; 4; 6; 2; 6; 4; 6]; [7; 7; 7; 7; 7; 7; 7; 7]; [5; 6; 5; 6; 5; 6; 5; 6]; [7; 7; 7; 7; 7; 7; 7; 7];
   [3; 6; 4; 6; 3; 6; 4; 6]; [7; 7; 7; 7; 7; 7; 7; 7]; [5; 6; 5; 6; 5; 6; 5; 6]; [7; 7; 7; 7; 7; 7; 7; 7]]%nat.
Definition pass_of (y x : nat) : nat := nth (x mod 8) (nth (y mod 8) adam7 []) 0%nat.
Definition numbered {A} (l : list A) : list (nat * A) := combine (seq 0 (List.length l)) l.
(** The pixels of a pass, without rows that have none. *)
Definition pass (k : nat) (pixels : list (list (list Z))) : list (list (list Z)) :=
  filter (fun row => match row with [] => false | _ => true end)
    (map (fun r => map snd (filter (fun q => (pass_of (fst r) (fst q) =? k)%nat) (numbered (snd r)))) (numbered pixels)).
Definition scanlines (p : photo) (raw : list Z) : Prop :=
  if interlaced p then
    exists part, raw = flat_map part (seq 1 7) /\ forall k, (1 <= k <= 7)%nat -> scanned p (pass k (body p)) (part k)
  else scanned p (body p) raw.

(** * Files *)

Definition letters (t : string) : list Z := map (fun c => Z.of_N (N_of_ascii c)) (list_ascii_of_string t).
(** A chunk: length, type, data, and four bytes for the checksum. *)
Definition chunk (ty data c : list Z) : Prop :=
  exists l crc, c = l ++ ty ++ data ++ crc /\ List.length l = 4%nat /\ Forall byte l /\ number l = len data /\ List.length crc = 4%nat.
(** Chunks that need not be known: the first letter is a small one. *)
Definition ancillary (c : list Z) : Prop :=
  exists ty data, chunk ty data c /\ List.length ty = 4%nat /\ Forall byte ty /\ Z.odd (hd 0 ty / 32) = true /\ ty <> letters "tRNS" /\ len data < 2 ^ 31.
Inductive several (P : list Z -> Prop) : list Z -> Prop :=
  | s_nil : several P []
  | s_cons : forall c r, P c -> several P r -> several P (c ++ r).
(** IDAT chunks, with others in between. *)
Inductive data_chunks : list Z -> list Z -> Prop :=
  | d_nil : data_chunks [] []
  | d_other : forall c z r, ancillary c -> data_chunks z r -> data_chunks z (c ++ r)
  | d_data : forall c d z r, chunk (letters "IDAT") d c -> data_chunks z r -> data_chunks (d ++ z) (c ++ r).

Definition header (p : photo) (l : list Z) : Prop :=
  exists w h, List.length w = 4%nat /\ Forall byte w /\ number w = width p /\ List.length h = 4%nat /\ Forall byte h /\ number h = height p /\
    l = w ++ h ++ [bits p; color_type (shade p); 0; 0; if interlaced p then 1 else 0].
Definition two_bytes (v : Z) (l : list Z) : Prop := exists a b, byte a /\ byte b /\ v = a * 256 + b /\ l = [a; b].
Definition palette_chunk (p : photo) (c : list Z) : Prop :=
  match shade p with Indexed => chunk (letters "PLTE") (List.concat (colors p)) c | _ => c = [] end.
Definition transparency_chunk (p : photo) (c : list Z) : Prop :=
  match shade p with
  | Indexed => match alphas p with Some l => chunk (letters "tRNS") l c | None => c = [] end
  | _ => match transparent p with
         | Some k => exists ls, Forall2 two_bytes k ls /\ chunk (letters "tRNS") (List.concat ls) c
         | None => c = []
         end
  end.
Definition png_file (p : photo) (z file : list Z) : Prop :=
  exists h ih a1 pl a2 tr a3 ds ie rest,
    file = [137; 80; 78; 71; 13; 10; 26; 10] ++ ih ++ a1 ++ pl ++ a2 ++ tr ++ a3 ++ ds ++ ie ++ rest /\
    header p h /\ chunk (letters "IHDR") h ih /\ several ancillary a1 /\ palette_chunk p pl /\ several ancillary a2 /\
    transparency_chunk p tr /\ several ancillary a3 /\ data_chunks z ds /\ chunk (letters "IEND") [] ie.
