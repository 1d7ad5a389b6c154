(** Compressed data, as RFC 1950 and RFC 1951 have it.  Nothing of the model is used. *)
From Coq Require Import List Bool ZArith.
Import ListNotations.
Local Open Scope Z_scope.

Definition byte (b : Z) : Prop := 0 <= b < 256.
Definition len {A} (l : list A) : Z := Z.of_nat (List.length l).

(** Numbers are packed from the low bit on, Huffman codes from the high bit on. *)
Definition field (n : nat) (x : Z) : list bool := map (fun i => Z.testbit x (Z.of_nat i)) (seq 0 n).
Definition huffman (n : nat) (x : Z) : list bool := rev (field n x).
Definition bits_of (l : list Z) : list bool := flat_map (field 8) l.

(** ** The fixed codes, RFC 1951, 3.2.6 *)
Definition fixed_literal (c : Z) : list bool :=
  if c <=? 143 then huffman 8 (48 + c)
  else if c <=? 255 then huffman 9 (400 + (c - 144))
  else if c <=? 279 then huffman 7 (c - 256)
  else huffman 8 (192 + (c - 280)).
Definition fixed_distance (c : Z) : list bool := huffman 5 c.

(** ** Codes from lengths, 3.2.2: shorter codes before longer ones, codes of one length in
    the order of their symbols.  In units of 2^-15, a code begins where those before it
    end. *)
Definition size_of (sizes : list Z) (c : Z) : Z := nth (Z.to_nat c) sizes 0.
Definition precedes (sizes : list Z) (c d : Z) : bool :=
  (0 <? size_of sizes c) && ((size_of sizes c <? size_of sizes d) || ((size_of sizes c =? size_of sizes d) && (c <? d))).
Definition total (l : list Z) : Z := fold_right Z.add 0 l.
Definition symbols (sizes : list Z) : list Z := map Z.of_nat (seq 0 (List.length sizes)).
Definition start_of (sizes : list Z) (d : Z) : Z :=
  total (map (fun c => if precedes sizes c d then 2 ^ (15 - size_of sizes c) else 0) (symbols sizes)).
Definition canonical (sizes : list Z) (d : Z) : list bool :=
  huffman (Z.to_nat (size_of sizes d)) (start_of sizes d / 2 ^ (15 - size_of sizes d)).
(** There is room for the codes. *)
Definition sizes_ok (sizes : list Z) : Prop :=
  Forall (fun s => 0 <= s <= 15) sizes /\ total (map (fun s => if s =? 0 then 0 else 2 ^ (15 - s)) sizes) <= 2 ^ 15.

(** The symbols that have a code. *)
Definition used (sizes : list Z) (c : Z) : Prop := 0 <= c < len sizes /\ 0 < size_of sizes c.

(** ** Lengths of codes, 3.2.7: the lengths before, the bits, and the lengths after *)
Section lengths.
Variable has : Z -> Prop.
Variable code : Z -> list bool.
Inductive length_codes : list Z -> list bool -> list Z -> Prop :=
  | l_end : forall l, length_codes l [] l
  | l_one : forall l c bits after, 0 <= c <= 15 -> has c -> length_codes (l ++ [c]) bits after -> length_codes l (code c ++ bits) after
  | l_again : forall l x bits after, l <> [] -> has 16 -> 0 <= x < 4 ->
      length_codes (l ++ repeat (last l 0) (Z.to_nat (3 + x))) bits after -> length_codes l (code 16 ++ field 2 x ++ bits) after
  | l_zeros : forall l x bits after, has 17 -> 0 <= x < 8 ->
      length_codes (l ++ repeat 0 (Z.to_nat (3 + x))) bits after -> length_codes l (code 17 ++ field 3 x ++ bits) after
  | l_many_zeros : forall l x bits after, has 18 -> 0 <= x < 128 ->
      length_codes (l ++ repeat 0 (Z.to_nat (11 + x))) bits after -> length_codes l (code 18 ++ field 7 x ++ bits) after.
End lengths.
(** The order in which the lengths of the code for lengths come. *)
Definition length_order : list nat := [16; 17; 18; 0; 8; 7; 9; 6; 10; 5; 11; 4; 12; 3; 13; 2; 14; 1; 15]%nat.

(** ** Lengths and distances, 3.2.5: the first one, and the number of extra bits *)
Definition length_of (c : Z) : Z * nat :=
  if c <=? 264 then (c - 254, 0%nat)
  else if c =? 285 then (258, 0%nat)
  else let e := (c - 261) / 4 in (3 + (4 + (c - 261) mod 4) * 2 ^ e, Z.to_nat e).
Definition distance_of (c : Z) : Z * nat :=
  if c <=? 3 then (c + 1, 0%nat) else let e := c / 2 - 1 in (1 + (2 + c mod 2) * 2 ^ e, Z.to_nat e).

(** The data before, the bits, and the data after. *)
Section codes.
Variables has_literal has_distance : Z -> Prop.
Variables literal distance : Z -> list bool.
Inductive tokens : list Z -> list bool -> list Z -> Prop :=
  | t_end : forall out, has_literal 256 -> tokens out (literal 256) out
  | t_literal : forall out b bits after, byte b -> has_literal b -> tokens (out ++ [b]) bits after -> tokens out (literal b ++ bits) after
  | t_copy : forall out c x d y t bits after,
      257 <= c <= 285 -> has_literal c -> 0 <= x < 2 ^ Z.of_nat (snd (length_of c)) ->
      0 <= d <= 29 -> has_distance d -> 0 <= y < 2 ^ Z.of_nat (snd (distance_of d)) ->
      let n := Z.to_nat (fst (length_of c) + x) in
      let back := Z.to_nat (fst (distance_of d) + y) in
      (back <= List.length out)%nat -> List.length t = n ->
      (forall k, (k < n)%nat -> nth k t 0 = nth (List.length out + k - back) (out ++ t) 0) ->
      tokens (out ++ t) bits after ->
      tokens out (literal c ++ field (snd (length_of c)) x ++ distance d ++ field (snd (distance_of d)) y ++ bits) after.
End codes.

(** ** Blocks, 3.2.3 to 3.2.6, and how many bits follow *)
Inductive block : list Z -> list bool -> nat -> list Z -> Prop :=
  | stored : forall out pad data after, (List.length pad < 8)%nat -> (after mod 8 = 0)%nat -> len data < 65536 -> Forall byte data ->
      block out (field 2 0 ++ pad ++ field 16 (len data) ++ field 16 (65535 - len data) ++ bits_of data) after (out ++ data)
  | fixed : forall out bits after out', tokens (fun c => 0 <= c <= 287) (fun d => 0 <= d <= 31) fixed_literal fixed_distance out bits out' ->
      block out (field 2 1 ++ bits) after out'
  | dynamic : forall out w cl lb ll dl bits after out',
      257 <= len ll <= 288 -> 1 <= len dl <= 32 -> (4 <= List.length w <= 19)%nat -> Forall (fun s => 0 <= s <= 7) w ->
      List.length cl = 19%nat -> (forall k, (k < 19)%nat -> nth (nth k length_order 0%nat) cl 0 = nth k w 0) ->
      sizes_ok cl -> sizes_ok ll -> sizes_ok dl -> length_codes (used cl) (canonical cl) [] lb (ll ++ dl) ->
      tokens (used ll) (used dl) (canonical ll) (canonical dl) out bits out' ->
      block out (field 2 2 ++ field 5 (len ll - 257) ++ field 5 (len dl - 1) ++ field 4 (len w - 4) ++ flat_map (field 3) w ++ lb ++ bits) after out'.
Inductive blocks : list Z -> list bool -> list Z -> Prop :=
  | last_block : forall out b rest out', block out b (List.length rest) out' -> blocks out (true :: b ++ rest) out'
  | more_blocks : forall out b rest mid out', block out b (List.length rest) mid -> blocks mid rest out' -> blocks out (false :: b ++ rest) out'.

(** RFC 1950: a header of two bytes, the blocks, and a checksum that may be anything here. *)
Definition stream (s out : list Z) : Prop :=
  exists cmf flg body, s = cmf :: flg :: body /\ Forall byte s /\ (cmf * 256 + flg) mod 31 = 0 /\ cmf mod 16 = 8 /\ flg / 32 mod 2 = 0 /\
    blocks [] (bits_of body) out.
