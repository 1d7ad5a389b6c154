(** Model of the decompressor of stb_image
    (/repo/sumo-api/sumo/threedee/tiny_gltf/stb_image.h 3786-4214):
    stbi_zlib_decode_malloc_guesssize_headerflag, as stbi__parse_png_file calls it (4850).
    Bytes are numbers.  stbi__err (return 0) is [Err IOError].  Reading memory that was not
    written is [Err Undefined].  The output is a list: stbi__zexpand (3946-3965) always
    makes room, so allocations that fail and outputs of 2^30 bytes or more, where an int may
    overflow, are not modelled.  The loops without bound have turns: [Err Terminate] if they
    run out, which with 8 turns for each byte of input means that the code goes on reading
    the zeros of stbi__zget8 beyond the end. *)
From Coq Require Import List Bool ZArith.
From Verif.Base Require Import Py.
From Verif.Png Require Model.
Import ListNotations.
Local Open Scope Z_scope.

(** ** Bits, 3876-3912 *)

(** stbi__zbuf, 3876-3887; [written] is zout_start up to zout. *)
Record zbuf := Zbuf { input : list Z; num_bits : Z; code_buffer : Z; written : list Z }.
(** stbi__zget8, 3889-3893, is [Png.Model.get8].
    stbi__fill_bits, 3895-3902: at most four rounds, since [num_bits] is not negative.  The
    new bits do not overlap the old ones, as the assertion says, so they are added. *)
Fixpoint fill_rounds (rounds : nat) (a : zbuf) : zbuf :=
  match rounds with
  | O => a
  | S rounds =>
      let (b, s) := Png.Model.get8 (input a) in
      let a := Zbuf s (num_bits a + 8) (code_buffer a + b * 2 ^ num_bits a) (written a) in
      if num_bits a <=? 24 then fill_rounds rounds a else a
  end.
Definition fill_bits (a : zbuf) : zbuf := fill_rounds 4 a.
Definition shift (n : Z) (a : zbuf) : zbuf := Zbuf (input a) (num_bits a - n) (code_buffer a / 2 ^ n) (written a).
(** stbi__zreceive, 3904-3912. *)
Definition zreceive (a : zbuf) (n : Z) : Z * zbuf :=
  let a := if num_bits a <? n then fill_bits a else a in
  (code_buffer a mod 2 ^ n, shift n a).

(** ** Huffman codes, 3791-3874 and 3914-3944 *)

(** stbi__zhuffman, 3795-3803: arrays as functions. *)
Record zhuffman := Zhuffman { fast : Z -> Z; firstcode : Z -> Z; maxcode : Z -> Z; firstsymbol : Z -> Z; size : Z -> option Z; value : Z -> option Z }.
Definition set {A} (f : Z -> A) (i : Z) (v : A) : Z -> A := fun j => if j =? i then v else f j.
(** stbi__bitreverse16 and stbi__bit_reverse, 3805-3820. *)
Definition bitreverse16 (n : Z) : Z :=
  let n := Z.lor (Z.shiftr (Z.land n 43690) 1) (Z.shiftl (Z.land n 21845) 1) in
  let n := Z.lor (Z.shiftr (Z.land n 52428) 2) (Z.shiftl (Z.land n 13107) 2) in
  let n := Z.lor (Z.shiftr (Z.land n 61680) 4) (Z.shiftl (Z.land n 3855) 4) in
  Z.lor (Z.shiftr (Z.land n 65280) 8) (Z.shiftl (Z.land n 255) 8).
Definition bit_reverse (v bits : Z) : Z := Z.shiftr (bitreverse16 v) (16 - bits).
(** stbi__zbuild_huffman, 3822-3867: the numbers of codes of each length (3827-3831). *)
Definition sizes (sizelist : list Z) (i : Z) : Z := if i =? 0 then 0 else Z.of_nat (List.length (List.filter (Z.eqb i) sizelist)).
(** The loop over the lengths, 3835-3847. *)
Fixpoint code_loop (sizelist : list Z) (is : list Z) (code k : Z) (z : zhuffman) : res zhuffman :=
  match is with
  | [] => Ok z
  | i :: is =>
      let n := sizes sizelist i in
      let z := Zhuffman (fast z) (set (firstcode z) i code) (maxcode z) (set (firstsymbol z) i k) (size z) (value z) in
      let code := code + n in
      if negb (n =? 0) && (2 ^ i <=? code - 1) then Err IOError
      else
        let z := Zhuffman (fast z) (firstcode z) (set (maxcode z) i (code * 2 ^ (16 - i))) (firstsymbol z) (size z) (value z) in
        code_loop sizelist is (code * 2) (k + n) z
  end.
(** Lines 3857-3860. *)
Fixpoint set_fast (rounds : nat) (f : Z -> Z) (j step fastv : Z) : Z -> Z :=
  match rounds with
  | O => f
  | S rounds => if j <? 512 then set_fast rounds (set f j fastv) (j + step) step fastv else f
  end.
(** The loop over the symbols, 3849-3865. *)
Fixpoint symbol_loop (sizelist : list Z) (i : Z) (next_code : Z -> Z) (z : zhuffman) : zhuffman :=
  match sizelist with
  | [] => z
  | s :: sizelist =>
      if s =? 0 then symbol_loop sizelist (i + 1) next_code z
      else
        let c := next_code s - firstcode z s + firstsymbol z s in
        let fastv := s * 512 + i in
        let f := if s <=? 9 then set_fast 512 (fast z) (bit_reverse (next_code s) s) (2 ^ s) fastv else fast z in
        let z := Zhuffman f (firstcode z) (maxcode z) (firstsymbol z) (set (size z) c (Some s)) (set (value z) c (Some i)) in
        symbol_loop sizelist (i + 1) (set next_code s (next_code s + 1)) z
  end.
Definition lengths : list Z := [1; 2; 3; 4; 5; 6; 7; 8; 9; 10; 11; 12; 13; 14; 15].
Definition zbuild_huffman (sizelist : list Z) : res zhuffman :=
  if existsb (fun i => 2 ^ i <? sizes sizelist i) lengths then Err IOError
  else
    let* z := code_loop sizelist lengths 0 0 (Zhuffman (fun _ => 0) (fun _ => 0) (fun _ => 0) (fun _ => 0) (fun _ => None) (fun _ => None)) in
    let z := Zhuffman (fast z) (firstcode z) (set (maxcode z) 16 65536) (firstsymbol z) (size z) (value z) in
    Ok (symbol_loop sizelist 0 (firstcode z) z).
(** stbi__zhuffman_decode_slowpath, 3914-3930; no code is [Err IOError], as the callers
    make of -1. *)
Definition zhuffman_decode_slowpath (a : zbuf) (z : zhuffman) : res (Z * zbuf) :=
  let k := bit_reverse (code_buffer a mod 65536) 16 in
  match find (fun s => k <? maxcode z s) [10; 11; 12; 13; 14; 15] with
  | None => Err IOError
  | Some s =>
      let b := k / 2 ^ (16 - s) - firstcode z s + firstsymbol z s in
      match size z b, value z b with
      | Some s', Some v => if s' =? s then Ok (v, shift s a) else Err Terminate
      | _, _ => Err Undefined
      end
  end.
(** stbi__zhuffman_decode, 3932-3944. *)
Definition zhuffman_decode (a : zbuf) (z : zhuffman) : res (Z * zbuf) :=
  let a := if num_bits a <? 16 then fill_bits a else a in
  let b := fast z (code_buffer a mod 512) in
  if b =? 0 then zhuffman_decode_slowpath a z else Ok (b mod 512, shift (b / 512) a).

(** ** Blocks, 3967-4172 *)

(** 3967-3980. *)
Definition zlength_base : list Z := [3; 4; 5; 6; 7; 8; 9; 10; 11; 13; 15; 17; 19; 23; 27; 31; 35; 43; 51; 59; 67; 83; 99; 115; 131; 163; 195; 227; 258; 0; 0].
Definition zlength_extra : list Z := [0; 0; 0; 0; 0; 0; 0; 0; 1; 1; 1; 1; 2; 2; 2; 2; 3; 3; 3; 3; 4; 4; 4; 4; 5; 5; 5; 5; 0; 0; 0].
Definition zdist_base : list Z := [1; 2; 3; 4; 5; 7; 9; 13; 17; 25; 33; 49; 65; 97; 129; 193; 257; 385; 513; 769; 1025; 1537; 2049; 3073; 4097; 6145; 8193; 12289; 16385; 24577; 0; 0].
Definition zdist_extra : list Z := [0; 0; 0; 0; 1; 1; 2; 2; 3; 3; 4; 4; 5; 5; 6; 6; 7; 7; 8; 8; 9; 9; 10; 10; 11; 11; 12; 12; 13; 13; 0; 0].
Definition write (a : zbuf) (l : list Z) : zbuf := Zbuf (input a) (num_bits a) (code_buffer a) (written a ++ l).
(** Lines 4010-4016: byte after byte, so that a copy may overlap itself. *)
Fixpoint copy_bytes (n dist : nat) (out : list Z) : res (list Z) :=
  match n with
  | O => Ok out
  | S n =>
      match nth_error out (List.length out - dist) with
      | None => Err Undefined
      | Some b => copy_bytes n dist (out ++ [b])
      end
  end.
(** A base and its extra bits, 3999-4004. *)
Definition with_extra (a : zbuf) (base extra : list Z) (z : Z) : Z * zbuf :=
  let b := nth (Z.to_nat z) base 0 in
  let e := nth (Z.to_nat z) extra 0 in
  if e =? 0 then (b, a) else let (x, a) := zreceive a e in (b + x, a).
(** stbi__parse_huffman_block, 3982-4020. *)
Fixpoint parse_huffman_block (turns : nat) (a : zbuf) (z_length z_distance : zhuffman) : res zbuf :=
  match turns with
  | O => Err Terminate
  | S turns =>
      let* r := zhuffman_decode a z_length in
      let (z, a) := r in
      if z <? 256 then parse_huffman_block turns (write a [z]) z_length z_distance
      else if z =? 256 then Ok a
      else
        let (len, a) := with_extra a zlength_base zlength_extra (z - 257) in
        let* r := zhuffman_decode a z_distance in
        let (z, a) := r in
        let (dist, a) := with_extra a zdist_base zdist_extra z in
        if Z.of_nat (List.length (written a)) <? dist then Err IOError
        else
          let* out := copy_bytes (Z.to_nat len) (Z.to_nat dist) (written a) in
          parse_huffman_block turns (Zbuf (input a) (num_bits a) (code_buffer a) out) z_length z_distance
  end.
(** stbi__compute_huffman_codes, 4022-4068: the lengths of the code for lengths. *)
Fixpoint code_lengths (order : list nat) (n : Z) (a : zbuf) (l : list Z) : list Z * zbuf :=
  match order with
  | [] => (l, a)
  | i :: order =>
      if n <=? 0 then (l, a)
      else let (s, a) := zreceive a 3 in code_lengths order (n - 1) a (firstn i l ++ [s] ++ skipn (S i) l)
  end.
(** 4042-4063. *)
Fixpoint read_lengths (turns : nat) (ntot : Z) (z : zhuffman) (a : zbuf) (l : list Z) : res (list Z * zbuf) :=
  if ntot <=? Z.of_nat (List.length l) then Ok (l, a)
  else
    match turns with
    | O => Err Terminate
    | S turns =>
        let* r := zhuffman_decode a z in
        let (c, a) := r in
        if 19 <=? c then Err IOError
        else if c <? 16 then read_lengths turns ntot z a (l ++ [c])
        else
          let go (a : zbuf) (c fill : Z) :=
            if ntot - Z.of_nat (List.length l) <? c then Err IOError else read_lengths turns ntot z a (l ++ repeat fill (Z.to_nat c)) in
          if c =? 16 then
            let (x, a) := zreceive a 2 in
            match l with [] => Err IOError | _ => go a (x + 3) (last l 0) end
          else if c =? 17 then let (x, a) := zreceive a 3 in go a (x + 3) 0
          else let (x, a) := zreceive a 7 in go a (x + 11) 0
    end.
Definition length_dezigzag : list nat := [16; 17; 18; 0; 8; 7; 9; 6; 10; 5; 11; 4; 12; 3; 13; 2; 14; 1; 15]%nat.
Definition compute_huffman_codes (a : zbuf) : res (zhuffman * zhuffman * zbuf) :=
  let (x, a) := zreceive a 5 in
  let hlit := x + 257 in
  let (x, a) := zreceive a 5 in
  let hdist := x + 1 in
  let (x, a) := zreceive a 4 in
  let hclen := x + 4 in
  let (l, a) := code_lengths length_dezigzag hclen a (repeat 0 19) in
  let* z := zbuild_huffman l in
  let* r := read_lengths 320 (hlit + hdist) z a [] in
  let (l, a) := r in
  let* z_length := zbuild_huffman (firstn (Z.to_nat hlit) l) in
  let* z_distance := zbuild_huffman (skipn (Z.to_nat hlit) l) in
  Ok (z_length, z_distance, a).
(** stbi__parse_uncompressed_block, 4070-4097: first the bytes that wait in the bit
    buffer. *)
Fixpoint drain (rounds : nat) (a : zbuf) : list Z * zbuf :=
  match rounds with
  | O => ([], a)
  | S rounds =>
      if 0 <? num_bits a then let (l, a') := drain rounds (shift 8 a) in (code_buffer a mod 256 :: l, a') else ([], a)
  end.
Definition parse_uncompressed_block (a : zbuf) : res zbuf :=
  let a := if num_bits a mod 8 =? 0 then a else snd (zreceive a (num_bits a mod 8)) in
  let (h, a) := drain 4 a in
  let (l, s) := Png.Model.repeatedly Png.Model.get8 (4 - List.length h) (input a) in
  match h ++ l with
  | [h0; h1; h2; h3] =>
      let len := h1 * 256 + h0 in
      let nlen := h3 * 256 + h2 in
      if negb (nlen =? Z.lxor len 65535) then Err IOError
      else if Z.of_nat (List.length s) <? len then Err IOError
      else Ok (Zbuf (skipn (Z.to_nat len) s) (num_bits a) (code_buffer a) (written a ++ firstn (Z.to_nat len) s))
  | _ => Err Undefined
  end.
(** stbi__parse_zlib_header, 4099-4110. *)
Definition parse_zlib_header (s : list Z) : res (list Z) :=
  let (cmf, s) := Png.Model.get8 s in
  let (flg, s) := Png.Model.get8 s in
  if negb ((cmf * 256 + flg) mod 31 =? 0) then Err IOError
  else if Z.testbit flg 5 then Err IOError
  else if negb (cmf mod 16 =? 8) then Err IOError
  else Ok s.
(** stbi__zdefault_length and stbi__zdefault_distance, 4112-4127. *)
Definition zdefault_length : list Z := repeat 8 144 ++ repeat 9 112 ++ repeat 7 24 ++ repeat 8 8.
Definition zdefault_distance : list Z := repeat 5 32.
(** stbi__parse_zlib, 4141-4167. *)
Fixpoint parse_blocks (turns : nat) (a : zbuf) : res zbuf :=
  match turns with
  | O => Err Terminate
  | S turns =>
      let (final, a) := zreceive a 1 in
      let (type, a) := zreceive a 2 in
      let* a :=
        (if type =? 0 then parse_uncompressed_block a
         else if type =? 3 then Err IOError
         else if type =? 1 then
           let* z_length := zbuild_huffman zdefault_length in
           let* z_distance := zbuild_huffman zdefault_distance in
           parse_huffman_block turns a z_length z_distance
         else
           let* r := compute_huffman_codes a in
           let '(z_length, z_distance, a) := r in
           parse_huffman_block turns a z_length z_distance) in
      if final =? 0 then parse_blocks turns a else Ok a
  end.
Definition parse_zlib (header : bool) (s : list Z) : res (list Z) :=
  let* s := (if header then parse_zlib_header s else Ok s) in
  let* a := parse_blocks (S (8 * List.length s)) (Zbuf s 0 0 []) in
  Ok (written a).
(** stbi_zlib_decode_malloc_guesssize_headerflag, 4200-4214: the argument of [Png.Model.load]. *)
Definition inflate (header : bool) (s : list Z) : option (list Z) :=
  match parse_zlib header s with Ok l => Some l | Err _ => None end.
