(** A text format and an image format that meet the contracts [json_ok] and [png_ok]
    of Glb/Spec.v: the contracts can be met, and the examples of Glb/Props.v can be
    computed.  Nothing here models /repo. *)
From Coq Require Import List ZArith QArith String Ascii Lia.
From Verif.Base Require Import Py.
From Verif.Mesh Require Import Model.
From Verif.Gltf Require Import Model Spec.
From Verif.Glb Require Import Model Spec.
Import ListNotations.
Local Open Scope string_scope.
Local Open Scope list_scope.
Local Open Scope Z_scope.

(** Writing and reading, with what follows left over. *)
Record codec (A : Type) := Codec {
  enc : A -> bytes;
  dec : bytes -> option (A * bytes);
  dec_enc : forall x r, dec (enc x ++ r) = Some (x, r)
}.
Arguments Codec {A}. Arguments enc {A}. Arguments dec {A}. Arguments dec_enc {A}.

Definition zc : codec Z.
Proof. refine (Codec (fun z => [z]) (fun b => match b with z :: r => Some (z, r) | [] => None end) _). reflexivity. Defined.

Definition iso {A B} (f : A -> B) (g : B -> A) (E : forall x, g (f x) = x) (c : codec B) : codec A.
Proof.
  refine (Codec (fun x => enc c (f x)) (fun b => match dec c b with Some (y, r) => Some (g y, r) | None => None end) _).
  intros x r. rewrite dec_enc, E. reflexivity.
Defined.

Definition pairc {A B} (a : codec A) (b : codec B) : codec (A * B).
Proof.
  refine (Codec (fun xy => enc a (fst xy) ++ enc b (snd xy))
    (fun s => match dec a s with
              | Some (x, r) => match dec b r with Some (y, r) => Some ((x, y), r) | None => None end
              | None => None
              end) _).
  intros [x y] r. cbn [fst snd]. rewrite <- app_assoc, dec_enc, dec_enc. reflexivity.
Defined.

Fixpoint dec_n {A} (c : codec A) (n : nat) (b : bytes) : option (list A * bytes) :=
  match n with
  | O => Some ([], b)
  | S n => match dec c b with
           | Some (x, r) => match dec_n c n r with Some (l, r) => Some (x :: l, r) | None => None end
           | None => None
           end
  end.
Lemma dec_n_ok : forall A (c : codec A) l r, dec_n c (List.length l) (flat_map (enc c) l ++ r) = Some (l, r).
Proof. induction l as [|x l IH]; intro r; cbn [List.length dec_n flat_map app]; [reflexivity|]. rewrite <- app_assoc, dec_enc, IH. reflexivity. Qed.

Definition listc {A} (c : codec A) : codec (list A).
Proof.
  refine (Codec (fun l => Z.of_nat (List.length l) :: flat_map (enc c) l)
    (fun b => match b with n :: r => dec_n c (Z.to_nat n) r | [] => None end) _).
  intros l r. cbn [app]. rewrite Nat2Z.id. apply dec_n_ok.
Defined.

Definition optc {A} (c : codec A) : codec (option A).
Proof.
  refine (iso (fun o => match o with Some x => [x] | None => [] end) (fun l => match l with x :: _ => Some x | [] => None end) _ (listc c)).
  intros [x|]; reflexivity.
Defined.

Definition asciic : codec ascii.
Proof.
  refine (iso (fun a => Z.of_N (N_of_ascii a)) (fun z => ascii_of_N (Z.to_N z)) _ zc). intro a. rewrite N2Z.id. apply ascii_N_embedding.
Defined.
Definition stringc : codec string := iso list_ascii_of_string string_of_list_ascii string_of_list_ascii_of_string (listc asciic).
Definition qc : codec Q.
Proof. refine (iso (fun q => (Qnum q, Zpos (Qden q))) (fun p => Qmake (fst p) (Z.to_pos (snd p))) _ (pairc zc zc)). intros [n d]; reflexivity. Defined.
Definition unitc : codec unit.
Proof. refine (iso (fun _ => 0) (fun _ => tt) _ zc). intros []; reflexivity. Defined.

Definition paramc : codec param.
Proof.
  refine (iso (fun p => (number_array p, number_value p, json p)) (fun t => let '(a, v, j) := t in Param a v j) _
    (pairc (pairc (listc qc) qc) (listc (pairc stringc zc)))). intros []; reflexivity.
Defined.
Definition materialc : codec material.
Proof.
  refine (iso (fun m => (name m, values m)) (fun t => Material (fst t) (snd t)) _ (pairc stringc (listc (pairc stringc paramc)))). intros []; reflexivity.
Defined.
Definition viewc : codec view.
Proof.
  refine (iso (fun v => (v_buffer v, v_offset v, v_length v, v_stride v, v_target v)) (fun t => let '(a, b, c, d, e) := t in View a b c d e) _
    (pairc (pairc (pairc (pairc zc zc) zc) zc) zc)). intros []; reflexivity.
Defined.
Definition accessorc : codec accessor.
Proof.
  refine (iso (fun v => (a_count v, a_offset v, a_view v, a_component v, a_type v)) (fun t => let '(a, b, c, d, e) := t in Accessor a b c d e) _
    (pairc (pairc (pairc (pairc zc zc) zc) zc) zc)). intros []; reflexivity.
Defined.
Definition primitivec : codec primitive.
Proof.
  refine (iso (fun p => (attributes p, p_indices p, p_material p, p_mode p)) (fun t => let '(a, b, c, d) := t in Primitive a b c d) _
    (pairc (pairc (pairc (listc (pairc stringc zc)) zc) zc) zc)). intros []; reflexivity.
Defined.
Definition imagec : codec image.
Proof.
  refine (iso (fun i => (uri i, width i, height i, component i, pixels i)) (fun t => let '(a, b, c, d, e) := t in Image a b c d e) _
    (pairc (pairc (pairc (pairc stringc zc) zc) zc) (listc zc))). intros []; reflexivity.
Defined.
Definition texturec : codec texture.
Proof. refine (iso (fun t => (source t, sampler t)) (fun t => Texture (fst t) (snd t)) _ (pairc zc zc)). intros []; reflexivity. Defined.
Definition modelc : codec gmodel.
Proof.
  refine (iso (fun g => (buffers g, views g, accessors g, meshes g, nodes g, scenes g, defaultScene g, materials g, images g, textures g, samplers g))
    (fun t => let '(a, b, c, d, e, f, g, h, i, j, k) := t in GModel a b c d e f g h i j k) _
    (pairc (pairc (pairc (pairc (pairc (pairc (pairc (pairc (pairc (pairc (listc (listc zc)) (listc viewc)) (listc accessorc)) (listc (listc primitivec)))
       (listc zc)) (listc (listc zc))) zc) (listc materialc)) (listc imagec)) (listc texturec)) (listc unitc))). intros []; reflexivity.
Defined.

Definition jbufferc : codec jbuffer.
Proof. refine (iso (fun b => (jb_uri b, jb_length b)) (fun t => JBuffer (fst t) (snd t)) _ (pairc (optc stringc) (optc zc))). intros []; reflexivity. Defined.
Definition jviewc : codec jview.
Proof.
  refine (iso (fun v => (jv_buffer v, jv_offset v, jv_length v, jv_stride v, jv_target v)) (fun t => let '(a, b, c, d, e) := t in JView a b c d e) _
    (pairc (pairc (pairc (pairc (optc zc) (optc zc)) zc) zc) zc)). intros []; reflexivity.
Defined.
Definition jimagec : codec jimage.
Proof.
  refine (iso (fun i => (ji_uri i, ji_view i, ji_mime i)) (fun t => let '(a, b, c) := t in JImage a b c) _
    (pairc (pairc (optc stringc) (optc zc)) (optc (optc stringc)))). intros []; reflexivity.
Defined.
Definition docc : codec (doc gmodel).
Proof.
  refine (iso (fun d => (d_buffers d, d_views d, d_images d, d_rest d)) (fun t => let '(a, b, c, d) := t in Doc a b c d) _
    (pairc (pairc (pairc (optc (listc jbufferc)) (optc (listc jviewc))) (optc (listc jimagec))) modelc)). intros []; reflexivity.
Defined.
Definition matc : codec mat3b.
Proof.
  refine (iso (fun i => (rows i, cols i, data i)) (fun t => let '(a, b, c) := t in Mat3b a b c) _ (pairc (pairc zc zc) (listc zc))). intros []; reflexivity.
Defined.

(** The formats. *)
Definition toy_write (d : doc gmodel) : bytes := enc docc d.
Definition toy_read (b : bytes) : option (doc gmodel) := match dec docc b with Some (d, _) => Some d | None => None end.
Definition toy_encode (u : string) (m : mat3b) : option bytes := Some (enc matc m).
Definition toy_decode (b : bytes) : option (Z * Z * Z * bytes) :=
  match dec matc b with Some (m, _) => Some (cols m, rows m, 3, data m) | None => None end.

Theorem toy_json : json_ok toy_write toy_read toy_write toy_read.
Proof.
  intros d _. split; [|split].
  - unfold toy_read, toy_write. rewrite <- (app_nil_r (enc docc d)), dec_enc. reflexivity.
  - unfold toy_write. destruct d. discriminate.
  - intros y (n & _ & ->). unfold toy_read, toy_write. rewrite dec_enc. reflexivity.
Qed.

Theorem toy_png : png_ok toy_encode toy_decode.
Proof.
  intros u m _ _. eexists. split; [reflexivity|]. intros y (n & _ & ->). unfold toy_decode. rewrite dec_enc. reflexivity.
Qed.
