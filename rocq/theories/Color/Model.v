(** Model of /repo/sumo-api/sumo/base/colored_category.pyx.
    The csv file is given as its rows, with the color text already split into
    integers (csv.DictReader and int() are not modelled); a missing file raises
    IOError before anything else. *)
From Coq Require Import List Bool String ZArith.
From Verif.Base Require Import Py.
Import ListNotations.
Local Open Scope Z_scope.

Definition color := list Z.
Record row := Row { r_category : string; r_is_evaluated : string; r_color : color }.

Record colored_category := CC { cc_data : list row; cc_reverse : list (string * color); cc_lut : list color }.

(** __init__, 71-88.  _reverse_data is a dict comprehension over the rows. *)
Definition mk_colored_category (csv : option (list row)) : res colored_category :=
  match csv with
  | None => Err IOError
  | Some rows =>
      Ok (CC rows (fold_left (fun d r => sset (r_category r) (r_color r) d) rows []) [])
  end.

(** np.array of the colors with dtype uint8, 99-100: needs equal lengths and, in
    the model, values that fit (older numpy wraps them instead). *)
Definition uint8_array (l : list color) : res (list color) :=
  if forallb (fun c => Nat.eqb (List.length c) 3 && forallb (fun x => (0 <=? x) && (x <=? 255)) c) l
  then Ok l else Err ValueError.

(** LUT, 90-100: cached unless empty.  Returns the table and the new state. *)
Definition LUT (c : colored_category) : res (list color * colored_category) :=
  match cc_lut c with
  | [] => let* l := uint8_array (map r_color (cc_data c)) in Ok (l, CC (cc_data c) (cc_reverse c) l)
  | l => Ok (l, c)
  end.

(** l[i] of a Python list / the first axis of an array: negative indices count
    from the end. *)
Definition py_index {A} (l : list A) (i : Z) : res A :=
  let n := Z.of_nat (List.length l) in
  let j := if i <? 0 then i + n else i in
  if j <? 0 then Err IndexError
  else match nth_error l (Z.to_nat j) with Some x => Ok x | None => Err IndexError end.

(** category_id_to_rgb, 102-117. *)
Definition category_id_to_rgb (c : colored_category) (category_id : Z) : res color :=
  if (Z.of_nat (List.length (cc_data c)) <? category_id) || (category_id <? 0) then Err KeyError
  else let* r := py_index (cc_data c) category_id in Ok (r_color r).

(** category_name_to_rgb, 119-132. *)
Definition category_name_to_rgb (c : colored_category) (category_name : string) : res color :=
  if negb (smem category_name (cc_reverse c)) then Err KeyError
  else sgetE category_name (cc_reverse c).

(** convert_to_rgb_im, 134-149: LUT[indexed_im]. *)
Definition convert_to_rgb_im (c : colored_category) (im : list (list Z)) : res (list (list color) * colored_category) :=
  let* (lut, c) := LUT c in
  let* out := mapM (mapM (py_index lut)) im in
  Ok (out, c).
