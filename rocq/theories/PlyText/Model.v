(** Reading PLY files in the text format: the parts of tinyply/tinyply.cpp that Ply leaves
    to the argument [ascii_data], on top of operator>> of std::istream (libstdc++, classic
    locale: no thousands separator, the decimal point is "."). *)
From Coq Require Import List ZArith NArith Bool String Ascii Reals.
From Verif.Base Require Import Py Vec.
From Verif.Cloud Require Import Model.
From Verif.Ply Require Import Model.
Import ListNotations.
Local Open Scope list_scope.

(** An istream: what is left, eofbit and failbit. *)
Record input := Input { left : bytes; eof : bool; fail : bool }.
Definition null (l : bytes) : bool := match l with [] => true | _ => false end.

(** std::istream::sentry: a stream that is not good fails; white space is skipped, and the
    stream fails at its end. *)
Definition sentry (s : input) : input :=
  if eof s || fail s then Input (left s) (eof s) true
  else match skip_space (left s) with [] => Input [] true true | l => Input l false false end.

(** is >> string, whose result nobody looks at. *)
Definition skip_word (s : input) : input :=
  let s := sentry s in
  if fail s then s else let r := snd (word (left s)) in Input r (null r) false.

(** std::num_get, the characters of a number: _M_extract_float of libstdc++ (several
    leading zeros are handed over as they are, which is the same number).  [m]: a digit
    was seen; [d]: the point; [x]: the e; [a]: just after the e; [y]: a digit after the e.
    The characters, the rest, and whether strtof takes all of them. *)
Definition is_digit (c : ascii) : bool := match digit c with Some _ => true | None => false end.
Definition is_sign (c : ascii) : bool := Ascii.eqb c "+" || Ascii.eqb c "-".
Definition is_e (c : ascii) : bool := Ascii.eqb c "e" || Ascii.eqb c "E".
Fixpoint extract (m d x a y : bool) (l : bytes) : bytes * bytes * bool :=
  match l with
  | [] => ([], [], m && (negb x || y))
  | c :: r =>
      let stop := ([], l, m && (negb x || y)) in
      let go '(w, r, ok) := (c :: w, r, ok) in
      if is_digit c then go (extract true d x false (y || x) r)
      else if Ascii.eqb c "." then if negb d && negb x then go (extract m true x false y r) else stop
      else if is_e c then if negb x && m then go (extract m d true true false r) else stop
      else if is_sign c then if a then go (extract m d x false y r) else stop
      else stop
  end.
Definition extract_float (l : bytes) : bytes * bytes * bool :=
  match l with
  | c :: r => if is_sign c then let '(w, r, ok) := extract false false false false false r in (c :: w, r, ok)
              else extract false false false false false l
  | [] => ([], [], false)
  end.

(** The digits of _M_extract_int, base 10. *)
Fixpoint extract_digits (l : bytes) : bytes * bytes :=
  match l with
  | [] => ([], [])
  | c :: r => if is_digit c then let (w, r) := extract_digits r in (c :: w, r) else ([], l)
  end.
(** The least and the greatest value of the type that is read, tinyply.cpp 427-444: chars
    are read as 32 bit numbers. *)
Definition int_range (t : ptype) : option (Z * Z) :=
  match t with
  | INT8 | INT32 => Some (-2147483648, 2147483647)
  | UINT8 | UINT32 => Some (0, 4294967295)
  | INT16 => Some (-32768, 32767)
  | UINT16 => Some (0, 65535)
  | _ => None
  end%Z.
(** The value, the rest and whether it is fine.  No digits: 0.  Out of range: the bound.
    A negative number for an unsigned type is taken modulo its size. *)
Definition extract_int (lo hi : Z) (l : bytes) : Z * bytes * bool :=
  let (neg, l) := match l with c :: r => if is_sign c then (Ascii.eqb c "-", r) else (false, l) | [] => (false, []) end in
  let (w, r) := extract_digits l in
  let n := Z.of_N (number 0 w) in
  match w with
  | [] => (0, r, false)
  | _ =>
      if (lo =? 0) then if n <=? hi then (if neg then - n else n, r, true) else (hi, r, false)
      else let z := if neg then - n else n in
           if z <? lo then (lo, r, false) else if hi <? z then (hi, r, false) else (z, r, true)
  end%Z.
(** The n low bytes of a number in two's complement. *)
Fixpoint int_bytes (n : nat) (z : Z) : bytes :=
  match n with O => [] | S n => ascii_of_N (Z.to_N (z mod 256)) :: int_bytes n (z / 256)%Z end.

Section Read.
  (** strtof and strtod on a complete text: the bytes of the number, and whether it is in
      range (if not, the bytes are those of the largest number). *)
  Variable real : ptype -> bytes -> bytes * bool.

  (** read_property_ascii, tinyply.cpp 419-452: the bytes written to dest.  [T data; is >>
      data; return data]: if the sentry fails data is not initialised; if num_get fails it
      is 0 or the bound. *)
  Definition read_property_ascii (t : ptype) (s : input) : res (bytes * input) :=
    match t with
    | INVALID => Err InvalidArgument
    | _ =>
        let s := sentry s in
        if fail s then Err Undefined
        else
          match int_range t with
          | Some (lo, hi) =>
              let '(z, r, ok) := extract_int lo hi (left s) in
              Ok (int_bytes (stride t) z, Input r (null r) (negb ok))
          | None =>
              let '(w, r, ok) := extract_float (left s) in
              if ok then let (b, fine) := real t w in Ok (b, Input r (null r) (negb fine))
              else Ok (repeat zero (stride t), Input r (null r) true)
          end
    end.

  (** skip_property_ascii, tinyply.cpp 359-373. *)
  Definition skip_property_ascii (p : property) (s : input) : res (nat * input) :=
    match p_list p with
    | Some lt =>
        let* (b, s) := read_property_ascii lt s in
        let n := N.to_nat (le_value b) in
        Ok ((n * stride (p_type p))%nat, Nat.iter n skip_word s)
    | None => Ok (stride (p_type p), skip_word s)
    end.

  (** parse_data, tinyply.cpp 711-775, with isBinary false. *)
  Definition first_pass_ascii (keys : list N) (els : list element) (s : input) : res (nat * input) :=
    each_property (fun e p (x : nat * input) =>
      let* (n, r) := skip_property_ascii p (snd x) in
      Ok ((if requested keys e p then fst x + n else fst x)%nat, r)) els (0%nat, s).
  Definition second_pass_ascii (capacity : nat) (keys : list N) (els : list element) (s : input) : res (bytes * input) :=
    each_property (fun e p (x : bytes * input) =>
      if requested keys e p then
        match p_list p with
        | Some lt =>
            let* (b, r) := read_property_ascii lt (snd x) in
            foldM (fun (x : bytes * input) (_ : unit) =>
                     let* (b, r) := read_property_ascii (p_type p) (snd x) in
                     let* out := put capacity (fst x) b in Ok (out, r))
                  (fst x, r) (repeat tt (N.to_nat (le_value b)))
        | None =>
            let* (b, r) := read_property_ascii (p_type p) (snd x) in
            let* out := put capacity (fst x) b in Ok (out, r)
        end
      else
        let* (_, r) := skip_property_ascii p (snd x) in Ok (fst x, r)) els ([], s).

  (** read, tinyply.cpp 497-546.  tellg fails on a stream that is at its end; seekg
      clears eofbit and does nothing on a stream that has failed. *)
  Definition read_data_ascii (keys : list N) (els : list element) (s : stream) : res bytes :=
    let start := Input (rest s) (negb (good s)) (negb (good s)) in
    let* (total, r) := first_pass_ascii keys els start in
    let s2 := if fail r then r else start in
    let* (out, _) := second_pass_ascii total keys els s2 in
    if Nat.eqb (List.length out) total then Ok out else Err Undefined.

  (** load_ply with both formats. *)
  Definition load (of_f32 : f32 -> R) (file : option bytes) : res cloud := load_ply read_data_ascii of_f32 file.
End Read.
