(** C42, C67 and C68: packing a document into a .glb file; saving and loading models. *)
From Coq Require Import List Bool ZArith QArith String Lia.
From Verif.Base Require Import Py PyFacts Fs FsFacts.
From Verif.Mesh Require Import Model.
From Verif.Gltf Require Import Model Spec Proofs Props.
From Verif.Glb Require Import Model Spec Proofs SaveProofs LoadProofs Toy.
Import ListNotations.
Local Open Scope string_scope.
Local Open Scope list_scope.
Local Open Scope Z_scope.

(** * C42 *)

Section C42.
  Context {R : Type}.
  Variables (file : string -> res bytes) (guess_type : string -> option string) (dumps : doc R -> bytes).

  Lemma buffers_read : forall bs st off x, pack_buffers file st off bs = Ok x -> exists cs, contents file bs cs.
  Proof.
    induction bs as [|b bs IH]; intros st off x E; [exists []; constructor|]. cbn [pack_buffers] in E. destruct (jb_uri b) as [u|] eqn:U; [|discriminate E].
    step E. destruct (add_to_body st a) as [[st1 o] n]. step E. destruct (IH _ _ _ H0) as (cs & C). exists (a :: cs). constructor; [eauto|exact C].
  Qed.
  Lemma images_read : forall is st vs x, pack_images file guess_type st vs is = Ok x -> exists ucs, Forall2 (image_is file) is ucs.
  Proof.
    induction is as [|i is IH]; intros st vs x E; [exists []; constructor|]. cbn [pack_images] in E. destruct (ji_uri i) as [u|] eqn:U; [|discriminate E].
    destruct (String.eqb_spec u ""); [discriminate E|]. step E. destruct (add_to_body st a) as [[st1 o] m]. step E. destruct (IH _ _ _ H0) as (ucs & C).
    exists ((u, a) :: ucs). constructor; [|exact C]. split; [exact U|]. split; assumption.
  Qed.
  Lemma packed_inv : forall (d : doc R) x, pack_doc file guess_type d = Ok x ->
    exists bs vs c cs ucs, d_buffers d = Some bs /\ contents file bs (c :: cs) /\ d_views d = Some vs /\ image_list file d ucs.
  Proof.
    intros d x E. unfold pack_doc in E. destruct (d_buffers d) as [bs|]; [|discriminate E]. step E. destruct a as [[st last] out]. destruct (buffers_read _ _ _ _ H) as (cs & C).
    destruct (d_views d) as [vs|]; [|discriminate E]. step E. destruct a as [[st' vs'] is]. destruct cs as [|c cs].
    { inversion C; subst. cbn [pack_buffers] in H. injection H as <- <- <-. discriminate E. }
    unfold image_list. destruct (d_images d) as [js|].
    - step H0. destruct (images_read _ _ _ _ H1) as (ucs & D). exists bs, vs, c, cs, ucs. auto.
    - exists bs, vs, c, cs, []. auto.
  Qed.

  (** A successful conversion gives a well-formed .glb file whose document denotes the
      same views, bytes and pictures. *)
  Theorem C42_pack : forall d d' glb, convert file guess_type dumps d = Ok (d', glb) ->
    exists bs cs text bin, d_buffers d = Some bs /\ contents file bs cs /\
      glb_file glb text bin /\ padded (dumps d') text /\ same_document file guess_type d cs d' bin.
  Proof.
    intros d d' glb E. unfold convert in E. step E. destruct a as [d1 st]. destruct (packed_inv _ _ H) as (bs & vs & c & cs & ucs & B & C & V & I).
    destruct (pack_doc_ok file guess_type d bs vs c cs ucs B C V I) as (st' & E' & W & H'). rewrite E' in H. injection H as <- <-. step E. injection E as <- <-.
    exists bs, (c :: cs), (pad (dumps (packed guess_type d vs c cs ucs))), (whole st'). split; [exact B|]. split; [exact C|].
    assert (S : 28 + size (pad (dumps (packed guess_type d vs c cs ucs))) + size (whole st') < 4294967296).
    { destruct (Z.lt_ge_cases (28 + size (pad (dumps (packed guess_type d vs c cs ucs))) + size (whole st')) 4294967296) as [L|L]; [exact L|]. rewrite (export_big _ _ W L) in H. discriminate H. }
    destruct (export_ok (dumps (packed guess_type d vs c cs ucs)) st' W ltac:(rewrite H', size_app, Z.add_mod, !pads_mod by lia; reflexivity) S) as (glb' & E2 & G & _).
    rewrite E2 in H. injection H as <-. split; [exact G|]. split; [apply pad_padded|]. rewrite H'. apply (packed_same file guess_type d bs); assumption.
  Qed.

  (** With everything readable the only way to fail is a file of 4 GiB or more. *)
  Theorem C42_succeeds : forall d bs vs, d_buffers d = Some bs -> bs <> [] -> d_views d = Some vs ->
    Forall (fun b => exists u c, jb_uri b = Some u /\ file u = Ok c) bs ->
    match d_images d with None => True | Some is => Forall (readable_image file) is end ->
    (exists d' glb, convert file guess_type dumps d = Ok (d', glb)) \/
    (convert file guess_type dumps d = Err OverflowError /\
     exists d' cs text bin, contents file bs cs /\ same_document file guess_type d cs d' bin /\ padded (dumps d') text /\ 4294967296 <= 28 + size text + size bin).
  Proof.
    intros d bs vs B BN V FB FI. assert (C : exists cs, contents file bs cs).
    { clear -FB. induction FB as [|b bs (u & c & U & F) FB (cs & C)]; [exists []; constructor|]. exists (c :: cs). constructor; [eauto|exact C]. }
    destruct C as (cs & C). destruct cs as [|c cs]; [inversion C; subst; contradiction|].
    assert (I : exists ucs, image_list file d ucs).
    { unfold image_list. destruct (d_images d) as [is|]; [|eexists; reflexivity]. clear -FI. induction FI as [|i is (u & c & U & N & F) FI (ucs & C)]; [exists []; constructor|].
      exists ((u, c) :: ucs). constructor; [split; [exact U|split; assumption]|exact C]. }
    destruct I as (ucs & I). destruct (pack_doc_ok file guess_type d bs vs c cs ucs B C V I) as (st & E & W & H).
    unfold convert. rewrite E. cbn [bind].
    destruct (Z.lt_ge_cases (28 + size (pad (dumps (packed guess_type d vs c cs ucs))) + size (whole st)) 4294967296) as [L|L].
    - destruct (export_ok (dumps (packed guess_type d vs c cs ucs)) st W ltac:(rewrite H, size_app, Z.add_mod, !pads_mod by lia; reflexivity) L) as (glb & E2 & _).
      left. rewrite E2. eexists. eexists. reflexivity.
    - right. rewrite (export_big _ _ W L). split; [reflexivity|]. exists (packed guess_type d vs c cs ucs), (c :: cs), (pad (dumps (packed guess_type d vs c cs ucs))), (whole st).
      split; [exact C|]. rewrite H in *. split; [apply (packed_same file guess_type d bs); assumption|]. split; [apply pad_padded|exact L].
  Qed.

  Lemma buffers_stop : forall pre b post cs st off e, contents file pre cs ->
    (jb_uri b = None /\ e = KeyError) \/ (exists u, jb_uri b = Some u /\ file u = Err e) ->
    pack_buffers file st off (pre ++ b :: post) = Err e.
  Proof.
    intros pre b post cs st off e C X. revert st off. induction C as [|x c pre cs (u & U & F) C IH]; intros st off; cbn [app pack_buffers].
    - destruct X as [(-> & ->)|(u & -> & ->)]; reflexivity.
    - rewrite U, F. cbn [bind]. destruct (add_to_body st c) as [[st1 o] n]. rewrite IH. reflexivity.
  Qed.
  Lemma images_stop : forall pre i post ucs st vs e, Forall2 (image_is file) pre ucs ->
    (ji_uri i = None /\ e = KeyError) \/ (ji_uri i = Some "" /\ e = ValueError) \/ (exists u, ji_uri i = Some u /\ u <> "" /\ file u = Err e) ->
    pack_images file guess_type st vs (pre ++ i :: post) = Err e.
  Proof.
    intros pre i post ucs st vs e C X. revert st vs. induction C as [|x [u c] pre ucs (U & N & F) C IH]; intros st vs; cbn [app pack_images].
    - destruct X as [(-> & ->)|[(-> & ->)|(u & -> & N & F)]]; [reflexivity|reflexivity|]. destruct (String.eqb_spec u ""); [contradiction|]. rewrite F. reflexivity.
    - cbn [fst snd] in *. rewrite U, F. destruct (String.eqb_spec u ""); [contradiction|]. cbn [bind]. destruct (add_to_body st c) as [[st1 o] n']. rewrite IH. reflexivity.
  Qed.

  (** The errors: no list of buffers or views, no buffer at all, and the first buffer,
      then the first image, that has no URI, an empty one, or no readable file. *)
  Theorem C42_errors : forall d,
    (d_buffers d = None -> convert file guess_type dumps d = Err TypeError) /\
    (forall bs cs, d_buffers d = Some bs -> contents file bs cs -> d_views d = None -> convert file guess_type dumps d = Err TypeError) /\
    (forall pre b post cs e, d_buffers d = Some (pre ++ b :: post) -> contents file pre cs ->
       (jb_uri b = None /\ e = KeyError) \/ (exists u, jb_uri b = Some u /\ file u = Err e) -> convert file guess_type dumps d = Err e) /\
    (forall bs cs vs pre i post e, d_buffers d = Some bs -> contents file bs cs -> d_views d = Some vs ->
       d_images d = Some (pre ++ i :: post) -> Forall (readable_image file) pre ->
       (ji_uri i = None /\ e = KeyError) \/ (ji_uri i = Some "" /\ e = ValueError) \/ (exists u, ji_uri i = Some u /\ u <> "" /\ file u = Err e) ->
       convert file guess_type dumps d = Err e) /\
    (forall vs, d_buffers d = Some [] -> d_views d = Some vs -> d_images d = None -> convert file guess_type dumps d = Err IndexError).
  Proof.
    intro d. unfold convert, pack_doc. split; [intros ->; reflexivity|]. split; [|split; [|split]].
    - intros bs cs -> C ->. destruct (pack_buffers_ok file bs cs (Body 0 []) 0 C eq_refl) as (st & out & last & E & _). rewrite E. reflexivity.
    - intros pre b post cs e -> C X. rewrite (buffers_stop pre b post cs _ _ e C X). reflexivity.
    - intros bs cs vs pre i post e -> C -> -> FI X. destruct (pack_buffers_ok file bs cs (Body 0 []) 0 C eq_refl) as (st & out & last & E & _). rewrite E. cbn [bind].
      assert (I : exists ucs, Forall2 (image_is file) pre ucs).
      { clear -FI. induction FI as [|x is (u & c & U & N & F) FI (ucs & D)]; [exists []; constructor|]. exists ((u, c) :: ucs). constructor; [split; [exact U|split; assumption]|exact D]. }
      destruct I as (ucs & I). rewrite (images_stop pre i post ucs _ _ e I X). reflexivity.
    - intros vs -> -> ->. reflexivity.
  Qed.
End C42.

(** A view without byteOffset means offset 0 of its own buffer; in the packed file it
    is offset 0 of the first one. *)
Theorem C42_default_offset_refuted : exists (file : string -> res bytes) (d d' : doc unit) glb v v' x y,
  convert file (fun _ => None) (fun _ => []) d = Ok (d', glb) /\
  d_views d = Some [v] /\ jv_buffer v = Some 1 /\ jv_offset v = None /\
  file "b" = Ok [7; 8; 9; 10] /\ denotes [7; 8; 9; 10] v x /\
  d_views d' = Some [v'] /\ denotes [1; 2; 3; 4; 7; 8; 9; 10] v' y /\ x = [7; 8] /\ y = [1; 2].
Proof.
  exists (fun u => if (u =? "a")%string then Ok [1; 2; 3; 4] else Ok [7; 8; 9; 10]).
  exists (Doc (Some [JBuffer (Some "a") (Some 4); JBuffer (Some "b") (Some 4)]) (Some [JView (Some 1) None 2 0 0]) None tt).
  do 4 eexists. exists [7; 8], [1; 2]. split; [vm_compute; reflexivity|]. split; [reflexivity|]. split; [reflexivity|]. split; [reflexivity|]. split; [reflexivity|].
  split; [split; [exists [], [9; 10]; split; reflexivity|reflexivity]|]. split; [reflexivity|].
  split; [split; [exists [], [3; 4; 7; 8; 9; 10]; split; reflexivity|reflexivity]|]. split; reflexivity.
Qed.

(** Two buffers, a view into the second, one image, three bytes of text. *)
Definition two_files (u : string) : res bytes :=
  if (u =? "a")%string then Ok [1; 2; 3; 4; 5] else if (u =? "b")%string then Ok [7; 8; 9] else if (u =? "p.png")%string then Ok [50; 51] else Err IOError.
Definition two_doc : doc unit :=
  Doc (Some [JBuffer (Some "a") (Some 5); JBuffer (Some "b") (Some 3)]) (Some [JView (Some 0) None 5 0 34962; JView (Some 1) (Some 1) 2 0 0])
      (Some [JImage (Some "p.png") None None]) tt.
Example C42_two : exists d' glb, convert two_files (fun _ => Some "image/png") (fun _ => [123; 32; 125]) two_doc = Ok (d', glb) /\
  d_views d' = Some [JView (Some 0) (Some 0) 5 0 34962; JView (Some 0) (Some 9) 2 0 0; JView (Some 0) (Some 12) 4 0 0] /\
  d_images d' = Some [JImage None (Some 2) (Some (Some "image/png"))] /\
  d_buffers d' = Some [JBuffer None (Some 16); JBuffer None (Some 4)] /\
  glb = [103; 108; 84; 70; 2; 0; 0; 0; 48; 0; 0; 0; 4; 0; 0; 0; 74; 83; 79; 78; 123; 32; 125; 32; 16; 0; 0; 0; 66; 73; 78; 0;
         1; 2; 3; 4; 5; 32; 32; 32; 7; 8; 9; 32; 50; 51; 32; 32].
Proof. eexists. eexists. repeat (split; [vm_compute; reflexivity|]). vm_compute. reflexivity. Qed.

(** * C67 *)

Section C67.
  Variables (write_json : doc gmodel -> bytes) (loads : bytes -> option (doc gmodel))
            (dumps : doc gmodel -> bytes) (parse : bytes -> option (doc gmodel))
            (encode : string -> mat3b -> option bytes) (decode : bytes -> option (Z * Z * Z * bytes))
            (guess_type : string -> option string).
  Hypothesis formats : json_ok write_json loads dumps parse.
  Hypothesis pictures : png_ok encode decode.

  Definition sum_of (l : list Z) : Z := fold_right Z.add 0 l.

  (** The text, the buffers and the encoded pictures, with padding, do not fit. *)
  Definition too_big (g : gmodel) : Prop :=
    exists d ps, d_rest d = skeleton g /\
      Forall2 (fun i p => exists m, cvImageFromImage i = Ok m /\ encode (uri i) m = Some p) (images g) ps /\
      4294967296 <= 28 + (size (dumps d) + 3) + sum_of (map (fun x => size x + 3) (buffers g ++ ps)).

  Lemma pad_le : forall x, size (pad x) <= size x + 3.
  Proof. intro x. rewrite pad_size. assert (H := align_bounds (size x)). lia. Qed.
  Lemma pads_le : forall l, size (flat_map pad l) <= sum_of (map (fun x => size x + 3) l).
  Proof. induction l as [|x l IH]; [reflexivity|]. cbn [flat_map map]. rewrite size_app. unfold sum_of in *. cbn [fold_right]. assert (H := pad_le x). lia. Qed.

  Lemma too_big_intro : forall g root b, packable g -> buffers g = [b] ->
    4294967296 <= 28 + size (pad (dumps (doc_of encode guess_type g root b))) + size (body_of encode g b) -> too_big g.
  Proof.
    intros g root b PK B L. assert (PI : Forall png_image (images g)) by apply PK. exists (doc_of encode guess_type g root b), (map snd (uris encode g)). split; [reflexivity|]. split.
    - unfold uris. rewrite map_map. cbn [snd]. clear -PI pictures. induction PI as [|i is ((nm & U) & _ & m & C & IM & NE) PI IH]; [constructor|]. cbn [map]. constructor; [|exact IH].
      destruct (pictures nm m IM NE) as (e & EN & _). exists m. split; [exact C|]. unfold image_bytes. rewrite C, U, EN. reflexivity.
    - rewrite B. unfold body_of in L. rewrite size_app in L. rewrite map_app. assert (H1 := pad_le (dumps (doc_of encode guess_type g root b))).
      assert (H2 := pads_le [b]). assert (H3 := pads_le (map snd (uris encode g))).
      assert (X : forall l l', sum_of (l ++ l') = sum_of l + sum_of l') by (unfold sum_of; clear; induction l as [|x l IH]; intro l'; cbn [app fold_right]; [reflexivity|rewrite IH; lia]). rewrite X. unfold bytes in *. lia.
  Qed.

  Let save := save_as_glb write_json loads dumps encode guess_type.
  Let load := load_from_glb parse decode.

  (** Saving to an absolute path changes that file only; loading it gives back every
      mesh, if every material has a name or a parameter, and fails otherwise. *)
  Theorem C67_roundtrip : forall g temp s l root, packable g -> fresh s temp -> sane s ->
    can_write s l -> above temp l = false -> glb_name (last l "") root ->
    exists s', same_but l s s' /\
      ((save temp g (Abs l) s = (s', Ok tt) /\
        ((Forall has_material (materials g) /\
          exists g', load (Abs l) s' = (s', Ok g') /\ primitives g' = primitives g /\ materials g' = materials g /\
            List.length (images g') = List.length (images g) /\
            forall k m, extract_mesh g k = Ok m -> extract_mesh g' k = Ok m) \/
         (~ Forall has_material (materials g) /\ load (Abs l) s' = (s', Err IOError)))) \/
       (save temp g (Abs l) s = (s', Err OverflowError) /\ too_big g /\ load (Abs l) s' = (s', Err IndexError))).
  Proof.
    intros g temp s l root PK FR SA (LN & NL & LD & LF) AT EX. apply splitext_glb_iff in EX. assert (PK' := PK). destruct PK' as ((b & B & _) & _).
    set (s0 := Fs (files s) (temp :: dirs s) temp).
    assert (ID : forall x, isdir_at s0 x = loc_eqb x temp || isdir_at s x) by (intro x; unfold s0; destruct x; cbn [isdir_at dirs existsb]; [rewrite orb_true_r; reflexivity|reflexivity]).
    assert (RS : resolve s0 (Abs l) = l) by (apply resolve_abs, NL).
    assert (NT : loc_eqb l temp = false).
    { destruct (loc_eqb l temp) eqn:E; [|reflexivity]. apply loc_eqb_spec in E. subst l. rewrite above_refl in AT. discriminate AT. }
    destruct (save_as_glb_ok write_json loads dumps parse encode decode guess_type g temp root s b (Abs l) l FR SA PK B formats pictures EX RS LN
      ltac:(fold s0; rewrite ID, LD; apply orb_true_r) ltac:(fold s0; rewrite ID, NT, LF; reflexivity)) as (s' & content & E & CW & DI & FI & CT). fold save in E.
    assert (GL : dget loc_eqb l (files s') = Some content) by (rewrite FI, AT, loc_eqb_refl; reflexivity).
    assert (RD : load (Abs l) s' = (s', let* g := load_binary parse decode content in setURIs g ".png")).
    { unfold load, load_from_glb. unfold ibind, read. rewrite resolve_abs by exact NL. unfold read_at. rewrite GL. reflexivity. }
    exists s'. split.
    { split; [exact CW|]. split; [|exact DI]. intros l' NE. rewrite FI. destruct (above temp l') eqn:A.
      - symmetry. apply (proj1 (proj2 (proj2 FR))), A.
      - destruct (loc_eqb l' l) eqn:Q; [apply loc_eqb_spec in Q; contradiction|reflexivity]. }
    rewrite E, RD. destruct (Z.ltb_spec (28 + size (pad (dumps (doc_of encode guess_type g root b))) + size (body_of encode g b)) 4294967296) as [L|L].
    - left. split; [reflexivity|].
      rewrite (load_binary_ok write_json loads dumps parse encode decode guess_type g root b content PK B formats pictures CT).
      assert (NU : Forall has_material (materials g) <-> existsb null_material (materials g) = false).
      { clear. induction (materials g) as [|m ms IH]; [split; [reflexivity|constructor]|]. cbn [existsb]. rewrite orb_false_iff, <- IH. unfold has_material, null_material.
        split; [intro F; inversion F as [|? ? X Y]; subst; split; [|exact Y]|intros (X & Y); constructor; [|exact Y]].
        - destruct (name m), (values m); try reflexivity. destruct X; contradiction.
        - destruct (name m), (values m); try discriminate X; [right; discriminate|left; discriminate|left; discriminate]. }
      destruct (existsb null_material (materials g)) eqn:N.
      + right. split; [|reflexivity]. rewrite NU. discriminate.
      + left. split; [apply NU; reflexivity|]. cbn [bind]. destruct (set_uris_ok encode g b PK B) as (g' & S & X & M1 & M2 & M3). exists g'. split; [rewrite S; reflexivity|].
        split; [unfold primitives; rewrite M1; reflexivity|]. split; [exact M2|]. split; [exact M3|exact X].
    - right. split; [reflexivity|]. split; [apply (too_big_intro g root b PK B L)|]. rewrite CT. reflexivity.
  Qed.

  (** A model made by adding meshes. *)
  Theorem C67_built : forall ms temp s l root, ms <> [] -> Forall storable ms -> Forall (fun m => plain_material (mat m)) ms ->
    fresh s temp -> sane s -> can_write s l -> above temp l = false -> glb_name (last l "") root ->
    exists g s', foldM add_mesh empty_model ms = Ok g /\ same_but l s s' /\
      ((save temp g (Abs l) s = (s', Ok tt) /\
        ((Forall (fun m => has_material (mat m)) ms /\
          exists g' ms', load (Abs l) s' = (s', Ok g') /\ primitive_meshes g' = Ok ms' /\ Forall2 same_content ms ms') \/
         (~ Forall (fun m => has_material (mat m)) ms /\ load (Abs l) s' = (s', Err IOError)))) \/
       (save temp g (Abs l) s = (s', Err OverflowError) /\ too_big g)).
  Proof.
    intros ms temp s l root NE ST PL FR SA CW AT EX. destruct (add_all ms empty_model [] ST eq_refl) as (g & ms' & E & P & F). cbn [app] in P.
    destruct (built_packable ms empty_model g NE ST PL building_empty E) as (PK & NU). cbn [empty_model materials existsb orb] in NU.
    assert (HM : Forall has_material (materials g) <-> Forall (fun m => has_material (mat m)) ms).
    { assert (H : forall ms, Forall has_material ms <-> existsb null_material ms = false).
      { clear. induction ms as [|m ms IH]; [split; [reflexivity|constructor]|]. cbn [existsb]. rewrite orb_false_iff, <- IH. unfold has_material, null_material.
        split; [intro F; inversion F as [|? ? X Y]; subst; split; [|exact Y]|intros (X & Y); constructor; [|exact Y]].
        - destruct (name m), (values m); try reflexivity. destruct X; contradiction.
        - destruct (name m), (values m); try discriminate X; [right; discriminate|left; discriminate|left; discriminate]. }
      rewrite H, NU. rewrite <- (Forall_map mat has_material ms), H. clear. induction ms as [|m ms IH]; [reflexivity|]. cbn [existsb map]. rewrite !orb_false_iff, IH. reflexivity. }
    exists g. destruct (C67_roundtrip g temp s l root PK FR SA CW AT EX) as (s' & SB & R). exists s'. split; [exact E|]. split; [exact SB|].
    destruct R as [(SV & [(H & g' & LD & PR & _ & _ & X) | (H & LD)]) | (SV & TB & _)].
    - left. split; [exact SV|]. left. split; [apply HM, H|]. exists g', ms'. split; [exact LD|]. split; [|exact F].
      unfold primitive_meshes in *. rewrite PR. clear -P X. revert ms' P. generalize (seq 0 (List.length (primitives g))). intro ks. induction ks as [|k ks IH]; intros ms' P; [exact P|].
      cbn [mapM] in *. step P. rewrite (X _ _ H). cbn [bind]. step P. rewrite (IH _ eq_refl). exact P.
    - left. split; [exact SV|]. right. split; [rewrite <- HM; exact H|exact LD].
    - right. split; [exact SV|exact TB].
  Qed.

  (** With a bare file name the file is written into the temporary folder, which is
      then removed: nothing is left, without an error. *)
  Theorem C68_relative_lost : forall g temp s f root, packable g -> fresh s temp -> sane s ->
    f <> "." -> f <> ".." -> glb_name f root ->
    exists s', unchanged s s' /\ (save temp g (Rel [f]) s = (s', Ok tt) \/ (save temp g (Rel [f]) s = (s', Err OverflowError) /\ too_big g)).
  Proof.
    intros g temp s f root PK FR SA N1 N2 EX. apply splitext_glb_iff in EX. assert (PK' := PK). destruct PK' as ((b & B & _) & _). set (s0 := Fs (files s) (temp :: dirs s) temp).
    assert (ID : forall x, isdir_at s0 x = loc_eqb x temp || isdir_at s x) by (intro x; unfold s0; destruct x; cbn [isdir_at dirs existsb]; [rewrite orb_true_r; reflexivity|reflexivity]).
    assert (FR' := FR). destruct FR' as (TN & NT & NO & _).
    assert (RS : resolve s0 (Rel [f]) = temp ++ [f]) by (unfold resolve; cbn [cwd s0]; apply walk_names; constructor; [auto|constructor]).
    assert (NF : loc_eqb (temp ++ [f]) temp = false).
    { destruct (loc_eqb (temp ++ [f]) temp) eqn:E; [|reflexivity]. apply loc_eqb_spec in E. apply (f_equal (@List.length _)) in E. rewrite app_length in E. cbn in E. lia. }
    destruct (save_as_glb_ok write_json loads dumps parse encode decode guess_type g temp root s b (Rel [f]) (temp ++ [f]) FR SA PK B formats pictures EX RS
      ltac:(intro C; apply app_eq_nil in C; destruct C as (_ & C); discriminate C)
      ltac:(fold s0; rewrite removelast_last, ID, loc_eqb_refl; reflexivity)
      ltac:(fold s0; rewrite ID, NF; apply NO, above_app)) as (s' & content & E & CW & DI & FI & CT). fold save in E.
    exists s'. split.
    - split; [exact CW|]. split; [|exact DI]. intro l. rewrite FI. destruct (above temp l) eqn:A; [symmetry; apply NO, A|].
      destruct (loc_eqb l (temp ++ [f])) eqn:Q; [apply loc_eqb_spec in Q; subst l; rewrite above_app in A; discriminate A|reflexivity].
    - destruct (Z.ltb_spec (28 + size (pad (dumps (doc_of encode guess_type g root b))) + size (body_of encode g b)) 4294967296) as [L|L]; [left; exact E|right].
      split; [exact E|]. apply (too_big_intro g root b PK B L).
  Qed.

  (** Any other extension is refused, and leaves an empty folder behind. *)
  Theorem C68_extension : forall g temp s p, fresh s temp -> (forall root, ~ glb_name (basename p) root) ->
    exists s', save temp g p s = (s', Err AssertionError) /\ files s' = files s /\ cwd s' = cwd s /\
      isdir_at s temp = false /\ isdir_at s' temp = true.
  Proof.
    intros g temp s p (TN & _ & NO & _) Y.
    assert (X : snd (splitext (basename p)) <> ".glb") by (destruct (splitext (basename p)) as [root e] eqn:E; cbn [snd]; intros ->; apply splitext_glb_iff in E; exact (Y root E)). unfold save, save_as_glb. unfold ibind at 1. unfold mkdir_at. destruct (splitext (basename p)) as [root e]. cbn [snd] in X.
    apply String.eqb_neq in X. rewrite X. cbn [negb]. eexists. split; [reflexivity|]. split; [reflexivity|]. split; [reflexivity|]. split; [apply NO, above_refl|].
    destruct temp; [contradiction|]. cbn [isdir_at dirs existsb]. rewrite loc_eqb_refl. reflexivity.
  Qed.
End C67.

(** A small file system: /w (the current folder) and /tmp; mkdtemp gives /tmp/t. *)
Definition small : fs bytes := Fs [(["w"; "keep"], [42])] [["w"]; ["tmp"]] ["w"].
Definition toy_save := save_as_glb toy_write toy_read toy_write toy_encode (fun _ => Some "image/png").
Definition toy_load := load_from_glb toy_read toy_decode.

Lemma small_fresh : fresh small ["tmp"; "t"].
Proof.
  split; [discriminate|]. split; [repeat constructor; discriminate|]. split; [|split; reflexivity].
  intros l A. apply above_spec in A. destruct A as (c & ->). split; reflexivity.
Qed.
Lemma small_sane : sane small.
Proof. split; [repeat constructor; discriminate|reflexivity]. Qed.
Lemma small_writes : can_write small ["w"; "a.glb"].
Proof. split; [discriminate|]. split; [repeat constructor; discriminate|]. split; reflexivity. Qed.

(** A textured triangle comes back. *)
Example C67_textured : exists g s' g' m, add_mesh empty_model red_tri = Ok g /\ packable g /\ Forall has_material (materials g) /\
  toy_save ["tmp"; "t"] g (Abs ["w"; "a.glb"]) small = (s', Ok tt) /\ toy_load (Abs ["w"; "a.glb"]) s' = (s', Ok g') /\
  primitive_meshes g' = Ok [m] /\ geo m = tri /\ tex m = tex red_tri /\ dirs s' = dirs small /\ dget loc_eqb ["w"; "keep"] (files s') = Some [42].
Proof.
  destruct (C40_add empty_model red_tri red_storable) as (g & _ & E & _). exists g.
  assert (PM : plain_material (mat red_tri)).
  { split; [cbn; repeat constructor; intros []|]. constructor; [|constructor]. split; [reflexivity|]. split; [left; reflexivity|]. cbn. repeat constructor; intros []. }
  destruct (add_building empty_model red_tri g red_storable PM building_empty E) as (_ & PK & _).
  do 3 eexists. split; [exact E|]. split; [exact PK|]. clear PK. vm_compute in E. injection E as <-.
  split; [cbn [materials]; repeat apply Forall_cons; try apply Forall_nil; right; discriminate|]. do 6 (split; [vm_compute; reflexivity|]). vm_compute. reflexivity.
Qed.

(** A mesh without a material, as the constructor of Mesh makes it, is saved without an
    error, but the file cannot be loaded. *)
Theorem C68_no_material_refuted : exists g s', add_mesh empty_model (new_mesh tri) = Ok g /\ storable (new_mesh tri) /\
  toy_save ["tmp"; "t"] g (Abs ["w"; "a.glb"]) small = (s', Ok tt) /\ toy_load (Abs ["w"; "a.glb"]) s' = (s', Err IOError).
Proof.
  eexists. eexists. split; [vm_compute; reflexivity|]. split; [|split; [vm_compute; reflexivity|vm_compute; reflexivity]].
  destruct red_storable as (A & B & C & D & F & _). do 5 (split; [assumption|]). exact Logic.I.
Qed.

(** With a bare file name the file is lost. *)
Theorem C68_relative_refuted : exists g s', add_mesh empty_model red_tri = Ok g /\
  toy_save ["tmp"; "t"] g (Rel ["a.glb"]) small = (s', Ok tt) /\ unchanged small s' /\ toy_load (Rel ["a.glb"]) s' = (s', Err IOError).
Proof.
  eexists. eexists. split; [vm_compute; reflexivity|]. split; [vm_compute; reflexivity|]. split; [|vm_compute; reflexivity].
  split; [reflexivity|]. split; reflexivity.
Qed.

(** A model with two buffers: both are written to the same file, so the first is
    lost. *)
Definition two_buffers : gmodel :=
  GModel [[1; 0; 0; 0; 2; 0; 0; 0]; [9; 9; 9; 9; 8; 8; 8; 8]] [View 0 4 4 0 34963; View 1 4 4 0 34963] [Accessor 1 0 0 5125 65; Accessor 1 0 1 5125 65]
         [] [-1] [[0]] 0 [] [] [] [].
Theorem C68_buffers_refuted : exists s' g', toy_save ["tmp"; "t"] two_buffers (Abs ["w"; "a.glb"]) small = (s', Ok tt) /\
  toy_load (Abs ["w"; "a.glb"]) s' = (s', Ok g') /\
  getVector uint_layout two_buffers 0 = Ok [2] /\ getVector uint_layout g' 0 = Ok [134744072].
Proof. eexists. eexists. repeat (split; [vm_compute; reflexivity|]). vm_compute. reflexivity. Qed.

(** The numbers of a colored material are lost. *)
Theorem C68_number_refuted : exists g0 g k s' g' m m', add_mesh empty_model red_tri = Ok g0 /\
  addColoredMaterial g0 "red" (1, 0, 0)%Q (1 # 2)%Q (1 # 4)%Q = (g, k) /\
  toy_save ["tmp"; "t"] g (Abs ["w"; "a.glb"]) small = (s', Ok tt) /\ toy_load (Abs ["w"; "a.glb"]) s' = (s', Ok g') /\
  at_ (materials g) k = Ok m /\ at_ (materials g') k = Ok m' /\
  option_map number_value (sget "metallicFactor" (values m)) = Some (1 # 2)%Q /\
  option_map number_value (sget "metallicFactor" (values m')) = Some 0%Q.
Proof. do 7 eexists. do 7 (split; [vm_compute; reflexivity|]). vm_compute. reflexivity. Qed.

Print Assumptions C42_pack.
Print Assumptions C42_succeeds.
Print Assumptions C42_errors.
Print Assumptions C42_default_offset_refuted.
Print Assumptions C67_roundtrip.
Print Assumptions C67_built.
Print Assumptions C68_relative_lost.
Print Assumptions C68_extension.
Print Assumptions C68_no_material_refuted.
Print Assumptions C68_relative_refuted.
Print Assumptions C68_buffers_refuted.
Print Assumptions C68_number_refuted.
