(** Reading and writing point clouds as PLY files: threedee/point_cloud_ply_c.cpp,
    point_cloud_ply.pyx, and the parts of tinyply/tinyply.cpp they use.  Files are lists
    of bytes.  A 32 bit float is its four bytes, as the machine (little endian) stores
    them. *)
From Coq Require Import List ZArith NArith Bool String Ascii Reals.
From Verif.Base Require Import Py Vec.
From Verif.Cloud Require Import Model.
Import ListNotations.
Local Open Scope string_scope.
Local Open Scope list_scope.

Definition bytes : Type := list ascii.
Definition text (s : string) : bytes := list_ascii_of_string s.
Definition newline : ascii := "010"%char.

(** * Types, tinyply.h 20-30, tinyply.cpp 94-114 and 258-266 *)

Inductive ptype := INVALID | INT8 | UINT8 | INT16 | UINT16 | INT32 | UINT32 | FLOAT32 | FLOAT64.

Definition stride (t : ptype) : nat :=
  match t with INVALID => 0 | INT8 | UINT8 => 1 | INT16 | UINT16 => 2 | INT32 | UINT32 | FLOAT32 => 4 | FLOAT64 => 8 end.
Definition type_name (t : ptype) : string :=
  match t with
  | INVALID => "INVALID" | INT8 => "char" | UINT8 => "uchar" | INT16 => "short" | UINT16 => "ushort"
  | INT32 => "int" | UINT32 => "uint" | FLOAT32 => "float" | FLOAT64 => "double"
  end.

Definition same (a : bytes) (s : string) : bool := if list_eq_dec ascii_dec a (text s) then true else false.

(** property_type_from_string, tinyply.cpp 94-114. *)
Definition property_type_from_string (t : bytes) : ptype :=
  if same t "int8" || same t "char" then INT8
  else if same t "uint8" || same t "uchar" then UINT8
  else if same t "int16" || same t "short" then INT16
  else if same t "uint16" || same t "ushort" then UINT16
  else if same t "int32" || same t "int" then INT32
  else if same t "uint32" || same t "uint" then UINT32
  else if same t "float32" || same t "float" then FLOAT32
  else if same t "float64" || same t "double" then FLOAT64
  else INVALID.

(** PlyProperty and PlyElement, tinyply.h 76-103. *)
Record property := Property { p_name : bytes; p_type : ptype; p_list : option ptype }.
Record element := Element { e_name : bytes; e_size : N; e_properties : list property }.

(** The parts of PlyFileImpl set by the header. *)
Record header := Header { is_binary : bool; is_big_endian : bool; elements : list element }.
Definition empty_header : header := Header false false [].

(** hash_fnv1a, tinyply.cpp 81-92; char is signed. *)
Definition byte_of (c : ascii) : N := let n := N_of_ascii c in if N.ltb n 128 then n else (n + 4294967040)%N.
Definition hash_fnv1a (s : bytes) : N :=
  fold_left (fun r c => (N.lxor r (byte_of c) * 16777619 mod 4294967296)%N) s 2166136261%N.

(** * Formatted input *)

(** std::isspace in the C locale. *)
Definition is_space (c : ascii) : bool :=
  let n := N_of_ascii c in (N.eqb n 32 || (N.leb 9 n && N.leb n 13))%bool.

Fixpoint skip_space (l : bytes) : bytes :=
  match l with [] => [] | c :: r => if is_space c then skip_space r else l end.
Fixpoint word (l : bytes) : bytes * bytes :=
  match l with
  | [] => ([], [])
  | c :: r => if is_space c then ([], l) else let (w, r) := word r in (c :: w, r)
  end.
(** is >> string: the empty string if there is no word. *)
Definition token (l : bytes) : bytes * bytes := word (skip_space l).

Definition digit (c : ascii) : option N :=
  let n := N_of_ascii c in if (N.leb 48 n && N.leb n 57)%bool then Some (n - 48)%N else None.
Fixpoint number (acc : N) (l : bytes) : N :=
  match l with
  | [] => acc
  | c :: r => match digit c with Some d => number (acc * 10 + d) r | None => acc end
  end.
(** is >> size_t: the digits (0 if there are none); signs are not modelled.  At the end
    of the line the variable stays uninitialised. *)
Definition read_size (l : bytes) : res N :=
  match skip_space l with
  | [] => Err Undefined
  | w => Ok (N.min (number 0 w) 18446744073709551615)
  end.

(** * Header, tinyply.cpp 185-207 and 268-339 *)

(** getline: the line, and the rest if the line was ended. *)
Fixpoint getline (l : bytes) : bytes * option bytes :=
  match l with
  | [] => ([], None)
  | c :: r => if ascii_dec c newline then ([], Some r) else let (w, o) := getline r in (c :: w, o)
  end.

(** PlyProperty(istream), tinyply.cpp 185-196. *)
Definition read_property (l : bytes) : property :=
  let (t, l) := token l in
  if same t "list" then
    let (ct, l) := token l in
    let (t, l) := token l in
    let (n, _) := token l in
    Property n (property_type_from_string t) (Some (property_type_from_string ct))
  else
    let (n, _) := token l in
    Property n (property_type_from_string t) None.

(** PlyElement(istream), tinyply.cpp 202-204. *)
Definition read_element (l : bytes) : res element :=
  let (n, l) := token l in
  let* size := read_size l in
  Ok (Element n size []).

Fixpoint add_to_last (l : list element) (p : property) : option (list element) :=
  match l with
  | [] => None
  | [e] => Some [Element (e_name e) (e_size e) (e_properties e ++ [p])]
  | e :: l => match add_to_last l p with Some l => Some (e :: l) | None => None end
  end.

(** What one line does: the new header, or None at the end of the header or at an
    unexpected line (parse_header 272-296; its result is not looked at by readPoints).
    Comments and obj_info are not kept. *)
Definition header_line (h : header) (line : bytes) : res (option header) :=
  let (t, r) := token line in
  if same t "ply" || same t "PLY" || same t "" then Ok (Some h)
  else if same t "comment" then Ok (Some h)
  else if same t "format" then
    let (s, _) := token r in
    if same s "binary_little_endian" then Ok (Some (Header true (is_big_endian h) (elements h)))
    else if same s "binary_big_endian" then Ok (Some (Header true true (elements h)))
    else Ok (Some h)
  else if same t "element" then
    let* e := read_element r in Ok (Some (Header (is_binary h) (is_big_endian h) (elements h ++ [e])))
  else if same t "property" then
    match add_to_last (elements h) (read_property r) with
    | Some l => Ok (Some (Header (is_binary h) (is_big_endian h) l))
    | None => Err RuntimeError
    end
  else if same t "obj_info" then Ok (Some h)
  else Ok None.

(** A stream: what is left, and whether it is still good. *)
Record stream := Stream { rest : bytes; good : bool }.

(** parse_header.  Each line has at least one byte, so the length of the file bounds
    the number of lines. *)
Fixpoint parse_lines (n : nat) (h : header) (l : bytes) : res (header * stream) :=
  match n with
  | O => Ok (h, Stream l false)
  | S n =>
      match l with
      | [] => Ok (h, Stream [] false)
      | _ =>
          let (line, o) := getline l in
          let* h' := header_line h line in
          match h', o with
          | Some h', Some r => parse_lines n h' r
          | Some h', None => Ok (h', Stream [] false)
          | None, Some r => Ok (h, Stream r true)
          | None, None => Ok (h, Stream [] false)
          end
      end
  end.
Definition parse_header (l : bytes) : res (header * stream) := parse_lines (S (List.length l)) empty_header l.

(** * Data, tinyply.cpp 341-417 and 711-775 *)

(** is.read(scratch, n): on a stream that is not good nothing is read; scratch keeps
    what it had. *)
Record reader := Reader { scratch : bytes; from : stream }.
Definition zero : ascii := "000"%char.
Definition is_read (n : nat) (s : reader) : reader :=
  if good (from s) then
    let got := firstn n (rest (from s)) in
    Reader (got ++ skipn (List.length got) (scratch s))
           (Stream (skipn n (rest (from s))) (Nat.eqb (List.length got) n))
  else s.

(** read_property_binary, tinyply.cpp 375-417: the bytes written to dest; ply_cast and
    endian_swap reverse them for a big endian file. *)
Definition read_property_binary (be : bool) (t : ptype) (s : reader) : res (bytes * reader) :=
  let s := is_read (stride t) s in
  match t with
  | INVALID => Err InvalidArgument
  | _ => let b := firstn (stride t) (scratch s) in Ok (if be then rev b else b, s)
  end.

(** The value of listSize, whose low bytes are overwritten. *)
Fixpoint le_value (b : bytes) : N :=
  match b with [] => 0%N | c :: b => (N_of_ascii c + 256 * le_value b)%N end.

(** skip_property_binary, tinyply.cpp 341-357. *)
Definition skip_property_binary (be : bool) (p : property) (s : reader) : res (nat * reader) :=
  match p_list p with
  | Some lt =>
      let* (b, s) := read_property_binary be lt s in
      let n := N.to_nat (le_value b) in
      Ok ((n * stride (p_type p))%nat, Nat.iter n (is_read (stride (p_type p))) s)
  | None => Ok (stride (p_type p), is_read (stride (p_type p)) s)
  end.

(** userData of the reader: the hashes of the requested properties, which share one
    buffer. *)
Definition requested (keys : list N) (e : element) (p : property) : bool :=
  existsb (N.eqb (hash_fnv1a (e_name e ++ p_name p))) keys.

Definition each_property {S} (f : element -> property -> S -> res S) (els : list element) (s : S) : res S :=
  foldM (fun s e => foldM (fun s (_ : unit) => foldM (fun s p => f e p s) s (e_properties e)) s (repeat tt (N.to_nat (e_size e)))) s els.

(** parse_data with firstPass: totalSizeBytes. *)
Definition first_pass (be : bool) (keys : list N) (els : list element) (s : reader) : res (nat * reader) :=
  each_property (fun e p (x : nat * reader) =>
    let* (n, r) := skip_property_binary be p (snd x) in
    Ok ((if requested keys e p then fst x + n else fst x)%nat, r)) els (0%nat, s).

(** parse_data without firstPass: the bytes put in the buffer, which has room for
    capacity bytes. *)
Definition put (capacity : nat) (out b : bytes) : res bytes :=
  if Nat.leb (List.length out + List.length b) capacity then Ok (out ++ b) else Err Undefined.
Definition second_pass (capacity : nat) (be : bool) (keys : list N) (els : list element) (s : reader) : res (bytes * reader) :=
  each_property (fun e p (x : bytes * reader) =>
    if requested keys e p then
      match p_list p with
      | Some lt =>
          let* (b, r) := read_property_binary be lt (snd x) in
          foldM (fun (x : bytes * reader) (_ : unit) =>
                   let* (b, r) := read_property_binary be (p_type p) (snd x) in
                   let* out := put capacity (fst x) b in Ok (out, r))
                (fst x, r) (repeat tt (N.to_nat (le_value b)))
      | None =>
          let* (b, r) := read_property_binary be (p_type p) (snd x) in
          let* out := put capacity (fst x) b in Ok (out, r)
      end
    else
      let* (_, r) := skip_property_binary be p (snd x) in Ok (fst x, r)) els ([], s).

(** read, tinyply.cpp 497-546: both passes; seekg back to the start does nothing on a
    stream that has failed.  scratch is zero at the start (new PlyFileImpl()). *)
Definition read_data (be : bool) (keys : list N) (els : list element) (s : stream) : res bytes :=
  let* (total, r) := first_pass be keys els (Reader (repeat zero 128) s) in
  let s2 := if good (from r) then s else from r in
  let* (out, _) := second_pass total be keys els (Reader (scratch r) s2) in
  if Nat.eqb (List.length out) total then Ok out else Err Undefined.

Definition find_element (key : string) (l : list element) : option element := find (fun e => same (e_name e) key) l.
Definition find_property (key : string) (l : list property) : option property := find (fun p => same (p_name p) key) l.

(** request_properties_from_element, tinyply.cpp 615-671: the keys and the count. *)
Definition request_properties (els : list element) (name : string) (keys : list string) : res (list N * N) :=
  match els with
  | [] => Err RuntimeError
  | _ =>
      match find_element name els with
      | None => Err InvalidArgument
      | Some e =>
          let* hs := foldM (fun hs key =>
                       match find_property key (e_properties e) with
                       | None => Err InvalidArgument
                       | Some p => let h := hash_fnv1a (e_name e ++ p_name p) in
                                   if existsb (N.eqb h) hs then Err InvalidArgument else Ok (hs ++ [h])
                       end) [] keys in
          Ok (hs, e_size e)
      end
  end.

Definition f32 : Type := ascii * ascii * ascii * ascii.
Fixpoint floats (b : bytes) : list f32 :=
  match b with
  | b0 :: b1 :: b2 :: b3 :: b => (b0, b1, b2, b3) :: floats b
  | _ => []
  end.

(** readPoints, point_cloud_ply_c.cpp 23-50, on the contents of the file.  Reading the
    text format is left to the argument [ascii_data].  memcpy copies all bytes of the
    buffer to a vector of 3 * count zeros. *)
Definition read_points_cpp (ascii_data : list N -> list element -> stream -> res bytes) (file : bytes) : res (list f32) :=
  let* (h, s) := parse_header file in
  let* (keys, count) := request_properties (elements h) "vertex" ["x"; "y"; "z"] in
  let* data := if is_binary h then read_data (is_big_endian h) keys (elements h) s else ascii_data keys (elements h) s in
  let size := (12 * N.to_nat count)%nat in
  if Nat.leb (List.length data) size then Ok (floats (data ++ repeat zero (size - List.length data)))
  else Err Undefined.

(** * Writing, tinyply.cpp 488-495, 556-581, 583-613 and 673-709 *)

(** os << size_t *)
Fixpoint decimal (fuel : nat) (n : N) (acc : bytes) : bytes :=
  let acc := ascii_of_N (48 + n mod 10) :: acc in
  match fuel with
  | O => acc
  | S fuel => if N.eqb (n / 10) 0 then acc else decimal fuel (n / 10) acc
  end.
Definition print_size (n : N) : bytes := decimal (N.size_nat n) n [].

(** write_header, tinyply.cpp 583-613, for a binary file (there are no comments). *)
Definition write_property (p : property) : bytes :=
  match p_list p with
  | Some lt => text "property list " ++ text (type_name lt) ++ text " " ++ text (type_name (p_type p)) ++ text " " ++ p_name p ++ [newline]
  | None => text "property " ++ text (type_name (p_type p)) ++ text " " ++ p_name p ++ [newline]
  end.
Definition write_header (els : list element) : bytes :=
  text "ply" ++ [newline] ++ text "format binary_little_endian 1.0" ++ [newline] ++
  flat_map (fun e => text "element " ++ e_name e ++ text " " ++ print_size (e_size e) ++ [newline] ++ flat_map write_property (e_properties e)) els ++
  text "end_header" ++ [newline].

(** PlyFileImpl while writing: elements, the buffer of each property, and for each
    buffer its data and cursor. *)
Record writer := Writer { w_elements : list element; w_user : list (N * nat); w_buffers : list (bytes * nat) }.
Definition empty_writer : writer := Writer [] [] [].

(** add_properties_to_element, tinyply.cpp 673-709, for properties that are no lists.
    insert does not replace an entry. *)
Fixpoint add_to_element (name : bytes) (els : list element) (ps : list property) (count : N) : list element :=
  match els with
  | [] => [Element name count ps]
  | e :: els => if list_eq_dec ascii_dec (e_name e) name then Element (e_name e) (e_size e) (e_properties e ++ ps) :: els
                else e :: add_to_element name els ps count
  end.
Definition add_properties (w : writer) (name : string) (keys : list string) (t : ptype) (count : N) (data : bytes) : writer :=
  Writer (add_to_element (text name) (w_elements w) (map (fun k => Property (text k) t None) keys) count)
         (fold_left (fun u k => let h := hash_fnv1a (text name ++ text k) in if dmem N.eqb h u then u else dset N.eqb h (List.length (w_buffers w)) u) keys (w_user w))
         (w_buffers w ++ [(data, 0%nat)]).

(** write_property_binary, tinyply.cpp 488-495: the bytes at the cursor, which moves. *)
Fixpoint advance (bs : list (bytes * nat)) (i n : nat) : res (bytes * list (bytes * nat)) :=
  match bs, i with
  | [], _ => Err Undefined
  | (d, o) :: bs, O =>
      if Nat.leb (o + n) (List.length d) then Ok (firstn n (skipn o d), (d, (o + n)%nat) :: bs) else Err Undefined
  | b :: bs, S i => let* (x, bs) := advance bs i n in Ok (x, b :: bs)
  end.

(** write_binary_internal, tinyply.cpp 556-581. *)
Definition write_binary (w : writer) : res bytes :=
  let* (out, _) :=
    each_property (fun e p (x : bytes * list (bytes * nat)) =>
      match dget N.eqb (hash_fnv1a (e_name e ++ p_name p)) (w_user w) with
      | Some i => let* (b, bs) := advance (snd x) i (stride (p_type p)) in Ok (fst x ++ b, bs)
      | None => Err Undefined
      end) (w_elements w) ([], w_buffers w) in
  Ok (write_header (w_elements w) ++ out).

Definition float_bytes (f : f32) : bytes := match f with (a, b, c, d) => [a; b; c; d] end.

(** writePoints 52-73 and writePointsAndColors 75-106, point_cloud_ply_c.cpp. *)
Definition vertex_writer (points : list f32) : writer :=
  add_properties empty_writer "vertex" ["x"; "y"; "z"] FLOAT32 (N.of_nat (List.length points) / 3) (flat_map float_bytes points).
Definition write_points_cpp (points : list f32) : res bytes := write_binary (vertex_writer points).
Definition write_points_and_colors_cpp (points : list f32) (cs : list ascii) : res bytes :=
  write_binary (add_properties (vertex_writer points) "vertex" ["red"; "green"; "blue"] UINT8 (N.of_nat (List.length cs) / 3) cs).

(** * PointCloud, point_cloud.pyx 70-75 and 204-209; point_cloud_ply.pyx *)

(** The conversions double to float and float to double of numpy and Cython are the
    arguments [to_f32] and [of_f32].  The C++ functions are declared without "except +"
    (point_cloud_ply.pxd 13-25), so an exception ends the process. *)
Definition no_except {A} (r : res A) : res A :=
  match r with
  | Err RuntimeError | Err InvalidArgument => Err Terminate
  | _ => r
  end.

(** write_points and write_points_and_colors, point_cloud_ply.pyx 38-65: the array is
    taken column by column. *)
Definition coordinates (to_f32 : R -> f32) (p : vec) : list f32 := [to_f32 (vx p); to_f32 (vy p); to_f32 (vz p)].
Definition color_bytes (c : color) : list ascii := map (fun z => ascii_of_N (Z.to_N z)) [red c; green c; blue c].
Definition write_ply (to_f32 : R -> f32) (c : cloud) : res bytes :=
  let ps := flat_map (coordinates to_f32) (points c) in
  no_except (if colored c then write_points_and_colors_cpp ps (flat_map color_bytes (colors c)) else write_points_cpp ps).

(** read_points, point_cloud_ply.pyx 14-36. *)
Fixpoint columns_of (of_f32 : f32 -> R) (l : list f32) : list vec :=
  match l with
  | x :: y :: z :: l => V (of_f32 x) (of_f32 y) (of_f32 z) :: columns_of of_f32 l
  | _ => []
  end.

(** load_ply, point_cloud.pyx 70-75.  file is None if the file cannot be opened. *)
Definition load_ply (ascii_data : list N -> list element -> stream -> res bytes) (of_f32 : f32 -> R) (file : option bytes) : res cloud :=
  let* fl := no_except (match file with Some f => read_points_cpp ascii_data f | None => Err RuntimeError end) in
  match columns_of of_f32 fl with
  | [] => Err AssertionError
  | ps => init false (Some (array_of ps)) None
  end.
