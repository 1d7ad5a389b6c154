(** Model of how tinygltf finds the data of buffers and images of a .gltf file:
    /repo/sumo-api/sumo/threedee/tiny_gltf/tiny_gltf.h 1126-1390 (paths, base64,
    external files), 1575-1620 (ExpandFilePath), 1736-1846 (data URIs), 2290-2357
    (the URI of an image), 2379-2480 (ParseBuffer) and 4004-4014, 4179-4186, 4499-4513
    (where WriteGltfSceneToFile puts a buffer).
    A std::string is a list of characters, bytes are numbers from 0 to 255.  Lengths
    are unbounded (int in_len, unsigned in_len).  Only regular files exist, each under
    the name it is opened with.  A function that returns false is IOError, which is
    what gltf.pyx 46-53 makes of it in the end. *)
From Coq Require Import List Bool ZArith Ascii String.
From Verif.Base Require Import Py.
Import ListNotations.
Local Open Scope Z_scope.

Definition text := list ascii.
Definition lit (s : string) : text := list_ascii_of_string s.
Definition code (c : ascii) : Z := Z.of_nat (nat_of_ascii c).
Definition text_eqb (a b : text) : bool := if list_eq_dec ascii_dec a b then true else false.

(** ** Paths *)

(** The position of the last character that satisfies [p]: find_last_of and rfind. *)
Fixpoint find_last (p : ascii -> bool) (s : text) : option nat :=
  match s with
  | [] => None
  | c :: s =>
      match find_last p s with
      | Some k => Some (S k)
      | None => if p c then Some O else None
      end
  end.
Definition is_dot (c : ascii) : bool := Ascii.eqb c ".".
Definition is_slash (c : ascii) : bool := Ascii.eqb c "/" || Ascii.eqb c "\".

(** JoinPath 1126-1140. *)
Definition JoinPath (a b : text) : text :=
  match rev a with
  | [] => b
  | c :: _ => if Ascii.eqb c "/" then a ++ b else a ++ lit "/" ++ b
  end.

(** GetFilePathExtension 1163-1167, GetBaseDir 1169-1173, GetBaseFilename 1176-1178
    (npos + 1 is 0). *)
Definition GetFilePathExtension (s : text) : text :=
  match find_last is_dot s with Some k => skipn (S k) s | None => [] end.
Definition GetBaseDir (s : text) : text :=
  match find_last is_slash s with Some k => firstn k s | None => [] end.
Definition GetBaseFilename (s : text) : text :=
  match find_last is_slash s with Some k => skipn (S k) s | None => s end.

(** binFilename and binSaveFilePath, 4499-4513. *)
Definition bin_filename (filename : text) : text :=
  let b := GetBaseFilename filename in
  match find_last is_dot b with Some k => firstn k b ++ lit ".bin" | None => b ++ lit ".bin" end.
Definition bin_path (filename : text) : text :=
  let d := GetBaseDir filename in
  let d := match d with [] => lit "./" | _ => d end in
  JoinPath d (bin_filename filename).

(** ** Base 64 *)

(** base64_chars 1216-1219. *)
Definition base64_chars : text :=
  lit "ABCDEFGHIJKLMNOPQRSTUVWXYZabcdefghijklmnopqrstuvwxyz0123456789+/".
Definition char_at (k : Z) : ascii := nth (Z.to_nat k) base64_chars zero.
(** static_cast<unsigned char>(base64_chars.find(c)): npos becomes 255. *)
Fixpoint position (c : ascii) (s : text) : option Z :=
  match s with
  | [] => None
  | d :: s => if Ascii.eqb c d then Some 0 else match position c s with Some k => Some (k + 1) | None => None end
  end.
Definition find (c : ascii) : Z := match position c base64_chars with Some k => k | None => 255 end.

(** is_base64 1221-1223 (isalnum of the C locale). *)
Definition is_base64 (c : ascii) : bool :=
  let z := code c in
  ((48 <=? z) && (z <=? 57)) || ((65 <=? z) && (z <=? 90)) || ((97 <=? z) && (z <=? 122))
  || Ascii.eqb c "+" || Ascii.eqb c "/".

(** An unsigned char. *)
Definition u8 (z : Z) : Z := z mod 256.

(** char_array_4 from char_array_3, 1238-1243 and 1255-1259. *)
Definition four (a b c : Z) : Z * Z * Z * Z :=
  (u8 (Z.shiftr (Z.land a 252) 2),
   u8 (Z.shiftl (Z.land a 3) 4 + Z.shiftr (Z.land b 240) 4),
   u8 (Z.shiftl (Z.land b 15) 2 + Z.shiftr (Z.land c 192) 6),
   u8 (Z.land c 63)).
(** base64_encode 1226-1269: the loop, three bytes at a time, and the rest. *)
Fixpoint base64_encode (bs : list Z) : text :=
  match bs with
  | [] => []
  | [a] => let '(p, q, _, _) := four a 0 0 in [char_at p; char_at q; "="; "="]%char
  | [a; b] => let '(p, q, r, _) := four a b 0 in [char_at p; char_at q; char_at r; "="]%char
  | a :: b :: c :: bs =>
      let '(p, q, r, s) := four a b c in char_at p :: char_at q :: char_at r :: char_at s :: base64_encode bs
  end.

(** char_array_3 from char_array_4, 1289-1293 and 1309-1312. *)
Definition three (p q r s : Z) : Z * Z * Z :=
  (u8 (Z.shiftl p 2 + Z.shiftr (Z.land q 48) 4),
   u8 (Z.shiftl (Z.land q 15) 4 + Z.shiftr (Z.land r 60) 2),
   u8 (Z.shiftl (Z.land r 3) 6 + s)).
(** The characters the loop of base64_decode reads, 1279-1280. *)
Fixpoint readable (s : text) : text :=
  match s with
  | [] => []
  | c :: s => if negb (Ascii.eqb c "=") && is_base64 c then c :: readable s else []
  end.
(** base64_decode 1271-1319: the loop, four characters at a time, and the rest, which
    is filled with '\0'. *)
Fixpoint decode_blocks (s : text) : list Z :=
  match s with
  | [] => []
  | [c] => []
  | [c; d] => let '(x, _, _) := three (find c) (find d) (find zero) (find zero) in [x]
  | [c; d; e] => let '(x, y, _) := three (find c) (find d) (find e) (find zero) in [x; y]
  | c :: d :: e :: f :: s =>
      let '(x, y, z) := three (find c) (find d) (find e) (find f) in x :: y :: z :: decode_blocks s
  end.
Definition base64_decode (s : text) : list Z := decode_blocks (readable s).

(** ** Data URIs *)

(** in.find(header) == 0, and in.substr(header.size()). *)
Fixpoint after (header s : text) : option text :=
  match header, s with
  | [], _ => Some s
  | h :: header, c :: s => if Ascii.eqb h c then after header s else None
  | _, [] => None
  end.

(** The headers and the mime types they set, 1736-1773 and 1775-1830. *)
Definition headers : list (text * option text) :=
  [(lit "data:application/octet-stream;base64,", None);
   (lit "data:image/jpeg;base64,", Some (lit "image/jpeg"));
   (lit "data:image/png;base64,", Some (lit "image/png"));
   (lit "data:image/bmp;base64,", Some (lit "image/bmp"));
   (lit "data:image/gif;base64,", Some (lit "image/gif"));
   (lit "data:text/plain;base64,", Some (lit "text/plain"));
   (lit "data:application/gltf-buffer;base64,", None)].
Definition IsDataURI (s : text) : bool :=
  existsb (fun h => match after (fst h) s with Some _ => true | None => false end) headers.

(** DecodeDataURI 1775-1846: the mime type ([mime] if it is not set) and the data. *)
Definition decode_step (s : text) (st : text * list Z) (h : text * option text) : text * list Z :=
  let '(mime, data) := st in
  match data with
  | [] =>
      match after (fst h) s with
      | Some rest => (match snd h with Some m => m | None => mime end, base64_decode rest)
      | None => st
      end
  | _ => st
  end.
Definition DecodeDataURI (mime s : text) (required : option Z) : res (text * list Z) :=
  let '(mime, data) := fold_left (decode_step s) headers (mime, []) in
  match data with
  | [] => Err IOError
  | _ =>
      match required with
      | Some n => if Z.of_nat (List.length data) =? n then Ok (mime, data) else Err IOError
      | None => Ok (mime, data)
      end
  end.

(** ** Files *)

(** The contents of the files, by the name they are opened with, and ExpandFilePath
    1575-1620: the first word that wordexp makes of a name, or the name if wordexp fails. *)
Section Files.
  Variable expand : text -> text.
  Definition files := text -> option (list Z).

  (** FindFile 1142-1161. *)
  Fixpoint FindFile (fs : files) (paths : list text) (filepath : text) : text :=
    match paths with
    | [] => []
    | p :: paths =>
        let abs := expand (JoinPath p filepath) in
        match fs abs with Some _ => abs | None => FindFile fs paths filepath end
    end.

  (** LoadExternalFile 1324-1390, with ReadWholeFile 1622-1656. *)
  Definition LoadExternalFile (fs : files) (filename basedir : text) (required : option Z) : res (list Z) :=
    let filepath := FindFile fs [basedir; lit "."] filename in
    match filepath, filename with
    | [], _ | _, [] => Err IOError
    | _, _ =>
        match fs filepath with
        | None | Some [] => Err IOError
        | Some buf =>
            match required with
            | Some n => if Z.of_nat (List.length buf) =? n then Ok buf else Err IOError
            | None => Ok buf
            end
        end
    end.

  (** ParseBuffer 2379-2480 for a .gltf file, and for a buffer with a URI in a .glb file
      ([binary]), where the result of LoadExternalFile is not looked at.  A missing
      "uri" is the empty string; [n] is byteLength. *)
  Definition ParseBuffer (binary : bool) (fs : files) (basedir : text) (n : Z) (uri : text) : res (list Z) :=
    if IsDataURI uri then
      let* (_, data) := DecodeDataURI [] uri (Some n) in Ok data
    else if binary then
      match LoadExternalFile fs uri basedir (Some n) with Ok d => Ok d | Err _ => Ok [] end
    else LoadExternalFile fs uri basedir (Some n).

  (** The URI of an image, ParseImage 2296-2347: the mime type, the URI that is kept and
      the bytes for the image decoder; without bytes the image is kept undecoded. *)
  Definition ParseImage (fs : files) (basedir uri : text) : res (text * text * option (list Z)) :=
    if IsDataURI uri then
      let* (mime, data) := DecodeDataURI [] uri None in Ok (mime, [], Some data)
    else
      match LoadExternalFile fs uri basedir None with
      | Ok d => Ok ([], uri, Some d)
      | Err _ => Ok ([], uri, None)
      end.

  (** SerializeGltfBuffer 4179-4186 and SerializeGltfBufferData 4008-4014 in
      WriteGltfSceneToFile: the files afterwards, byteLength and uri.  (The name is not
      expanded; that the file cannot be written is ignored and not modelled.) *)
  Definition write (fs : files) (name : text) (b : list Z) : files :=
    fun p => if text_eqb p name then Some b else fs p.
  Definition SerializeGltfBuffer (fs : files) (filename : text) (b : list Z) : files * Z * text :=
    (write fs (bin_path filename) b, Z.of_nat (List.length b), bin_filename filename).

  (** SerializeGltfBufferData 3999-4006: a buffer embedded in the .gltf file. *)
  Definition embed (b : list Z) : text := lit "data:application/octet-stream;base64," ++ base64_encode b.

  (** LoadASCIIFromFile 3765: the folder of the .gltf file. *)
  Definition load_buffer (fs : files) (filename : text) (n : Z) (uri : text) : res (list Z) :=
    ParseBuffer false fs (GetBaseDir filename) n uri.
End Files.
