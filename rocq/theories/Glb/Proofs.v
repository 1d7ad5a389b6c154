(** Proofs about packing a document, without files. *)
From Coq Require Import List Bool ZArith String Lia.
From Verif.Base Require Import Py PyFacts Fs.
From Verif.Mesh Require Import Model.
From Verif.Gltf Require Import Model Spec Proofs.
From Verif.Glb Require Import Model Spec.
Import ListNotations.
Local Open Scope string_scope.
Local Open Scope list_scope.
Local Open Scope Z_scope.

Lemma align_eq : forall n, align n = (n + 3) / 4 * 4.
Proof. intro n. unfold align. change 3 with (Z.ones 2) at 2. rewrite <- Z.ldiff_land, Z.ldiff_ones_r by lia. rewrite Z.shiftr_div_pow2, Z.shiftl_mul_pow2 by lia. reflexivity. Qed.
Lemma align_bounds : forall n, n <= align n < n + 4 /\ align n mod 4 = 0.
Proof. intro n. rewrite align_eq. split; [|apply Z_mod_mult]. assert (H := Z.div_mod (n + 3) 4 ltac:(lia)). assert (M := Z.mod_pos_bound (n + 3) 4 ltac:(lia)). lia. Qed.

Lemma pad_padded : forall b, padded b (pad b).
Proof. intro b. exists (Z.to_nat (align (size b) - size b)). split; [|reflexivity]. assert (H := align_bounds (size b)). lia. Qed.
Lemma size_repeat : forall A (x : A) n, size (repeat x n) = Z.of_nat n.
Proof. intros. unfold size. rewrite repeat_length. reflexivity. Qed.
Lemma pad_size : forall b, size (pad b) = align (size b).
Proof. intro b. unfold pad. rewrite size_app, size_repeat. assert (H := align_bounds (size b)). lia. Qed.
Lemma pad_mod : forall b, size (pad b) mod 4 = 0.
Proof. intro b. rewrite pad_size. apply align_bounds. Qed.
Lemma pad_pre : forall b, exists r, pad b = b ++ r.
Proof. intro b. eexists. reflexivity. Qed.

Lemma pads_mod : forall cs, size (flat_map pad cs) mod 4 = 0.
Proof.
  induction cs as [|c cs IH]; [reflexivity|]. cbn [flat_map]. rewrite size_app, Z.add_mod, pad_mod, IH by lia. reflexivity.
Qed.

Lemma Forall2_length : forall A B (P : A -> B -> Prop) l l', Forall2 P l l' -> List.length l = List.length l'.
Proof. intros A B P l l' F. induction F; cbn [List.length]; congruence. Qed.

(** The offsets of buffers laid one after the other. *)
Fixpoint offs (off : Z) (cs : list bytes) : list Z :=
  match cs with [] => [] | c :: cs => off :: offs (off + size (pad c)) cs end.
Lemma offs_nth : forall cs off k, (k < List.length cs)%nat -> nth_error (offs off cs) k = Some (off + size (flat_map pad (firstn k cs))).
Proof.
  induction cs as [|c cs IH]; intros off k L; cbn [List.length] in L; [lia|]. destruct k as [|k]; cbn [offs nth_error firstn flat_map].
  - f_equal. cbn [size List.length]. unfold size. cbn. lia.
  - rewrite IH by lia. f_equal. rewrite size_app. lia.
Qed.
Lemma offs_length : forall cs off, List.length (offs off cs) = List.length cs.
Proof. induction cs; intro off; cbn [offs List.length]; [reflexivity|]. f_equal. apply IHcs. Qed.

Definition whole (st : body) : bytes := flat_map snd (body_parts st).
Definition wf (st : body) : Prop := body_length st = size (whole st).

Lemma add_wf : forall st c, wf st -> let '(st', o, n) := add_to_body st c in
  wf st' /\ whole st' = whole st ++ pad c /\ o = size (whole st) /\ n = size (pad c).
Proof.
  intros st c W. unfold add_to_body, wf, whole in *. cbn [body_parts body_length]. rewrite flat_map_app. cbn [flat_map snd]. rewrite app_nil_r, size_app. rewrite W. auto.
Qed.

Section Convert.
  Context {R : Type}.
  Variables (file : string -> res bytes) (guess_type : string -> option string) (dumps : doc R -> bytes).

  Lemma pack_buffers_ok : forall bs cs st off, contents file bs cs -> wf st ->
    exists st' out last, pack_buffers file st off bs = Ok (st', last, out) /\ wf st' /\ whole st' = whole st ++ flat_map pad cs /\
      map snd out = offs off cs /\ map fst out = map (fun c => JBuffer None (Some (size (pad c)))) cs.
  Proof.
    intros bs cs st off C. revert st off. induction C as [|b c bs cs (u & U & F) C IH]; intros st off W.
    - exists st, [], off. cbn. rewrite app_nil_r. auto.
    - cbn [pack_buffers]. rewrite U, F. cbn [bind]. assert (A := add_wf st c W). destruct (add_to_body st c) as [[st1 o] n]. destruct A as (W1 & H1 & O1 & N1).
      destruct (IH st1 (off + n) W1) as (st' & out & last & E & W' & H' & S' & F'). rewrite E. cbn [bind].
      exists st'. eexists. exists last. split; [reflexivity|]. split; [exact W'|]. split; [rewrite H', H1, <- app_assoc; reflexivity|].
      cbn [map fst snd offs]. rewrite S', F', N1. split; reflexivity.
  Qed.

  Fixpoint img_views (off : Z) (cs : list bytes) : list jview :=
    match cs with [] => [] | c :: cs => JView (Some 0) (Some off) (size (pad c)) 0 0 :: img_views (off + size (pad c)) cs end.
  Fixpoint img_out (n : Z) (us : list string) : list jimage :=
    match us with [] => [] | u :: us => JImage None (Some n) (Some (guess_type u)) :: img_out (n + 1) us end.

  (** An image with its URI and content. *)
  Definition image_is (i : jimage) (uc : string * bytes) : Prop :=
    ji_uri i = Some (fst uc) /\ fst uc <> "" /\ file (fst uc) = Ok (snd uc).

  Lemma pack_images_ok : forall is ucs st views, Forall2 image_is is ucs -> wf st ->
    exists st', pack_images file guess_type st views is =
        Ok (st', views ++ img_views (size (whole st)) (map snd ucs), img_out (size views) (map fst ucs)) /\
      wf st' /\ whole st' = whole st ++ flat_map pad (map snd ucs).
  Proof.
    intros is ucs st views C. revert st views. induction C as [|i [u c] is ucs (U & N & F) C IH]; intros st views W; cbn [fst snd] in *.
    - exists st. cbn. rewrite !app_nil_r. auto.
    - cbn [pack_images]. rewrite U. destruct (String.eqb_spec u "") as [|_]; [contradiction|]. rewrite F. cbn [bind].
      assert (A := add_wf st c W). destruct (add_to_body st c) as [[st1 o] n]. destruct A as (W1 & H1 & O1 & N1).
      destruct (IH st1 (views ++ [JView (Some 0) (Some o) n 0 0]) W1) as (st' & E & W' & H'). rewrite E. cbn [bind].
      exists st'. split; [|split; [exact W'|rewrite H', H1, <- app_assoc; reflexivity]].
      cbn [map fst snd img_views img_out]. rewrite <- app_assoc. cbn [app]. rewrite H1, !size_app, O1, N1. reflexivity.
  Qed.

  Lemma img_views_nth : forall cs off k c, nth_error cs k = Some c ->
    nth_error (img_views off cs) k = Some (JView (Some 0) (Some (off + size (flat_map pad (firstn k cs)))) (size (pad c)) 0 0).
  Proof.
    induction cs as [|x cs IH]; intros off [|k] c E; cbn [nth_error] in E; try discriminate E; cbn [img_views nth_error firstn flat_map].
    - injection E as ->. do 3 f_equal. unfold size. cbn. lia.
    - rewrite (IH _ _ _ E), size_app. do 3 f_equal. lia.
  Qed.
  Lemma img_views_length : forall cs off, List.length (img_views off cs) = List.length cs.
  Proof. induction cs; intro off; cbn [img_views List.length]; [reflexivity|]. f_equal. apply IHcs. Qed.
  Lemma img_out_nth : forall us n k u, nth_error us k = Some u -> nth_error (img_out n us) k = Some (JImage None (Some (n + Z.of_nat k)) (Some (guess_type u))).
  Proof.
    induction us as [|x us IH]; intros n [|k] u E; cbn [nth_error] in E; try discriminate E; cbn [img_out nth_error].
    - injection E as ->. do 3 f_equal. lia.
    - rewrite (IH _ _ _ E). do 3 f_equal. lia.
  Qed.
  Lemma img_out_length : forall us n, List.length (img_out n us) = List.length us.
  Proof. induction us; intro n; cbn [img_out List.length]; [reflexivity|]. f_equal. apply IHus. Qed.

  Definition image_list (d : doc R) (ucs : list (string * bytes)) : Prop :=
    match d_images d with None => ucs = [] | Some is => Forall2 image_is is ucs end.

  (** The document packing makes. *)
  Definition packed (d : doc R) (vs : list jview) (c : bytes) (cs : list bytes) (ucs : list (string * bytes)) : doc R :=
    let cs := c :: cs in
    Doc (Some (JBuffer None (Some (size (flat_map pad cs ++ flat_map pad (map snd ucs)))) :: map (fun c => JBuffer None (Some (size (pad c)))) (tl cs)))
        (Some (map (move_view (offs 0 cs)) vs ++ img_views (size (flat_map pad cs)) (map snd ucs)))
        (match d_images d with None => None | Some _ => Some (img_out (size vs) (map fst ucs)) end) (d_rest d).

  Lemma size_map : forall A B (f : A -> B) l, size (map f l) = size l.
  Proof. intros. unfold size. rewrite map_length. reflexivity. Qed.

  Lemma pack_doc_ok : forall d bs vs c cs ucs, d_buffers d = Some bs -> contents file bs (c :: cs) -> d_views d = Some vs -> image_list d ucs ->
    exists st, pack_doc file guess_type d = Ok (packed d vs c cs ucs, st) /\ wf st /\
      whole st = flat_map pad (c :: cs) ++ flat_map pad (map snd ucs).
  Proof.
    intros d bs vs c cs ucs B C V I. unfold pack_doc. rewrite B.
    destruct (pack_buffers_ok bs (c :: cs) (Body 0 []) 0 C eq_refl) as (st & out & last & E & W & H & S & F). rewrite E. cbn [bind]. rewrite V, S, F.
    change (whole (Body 0 [])) with (@nil Z) in H. cbn [app] in H. unfold packed, image_list in *. destruct (d_images d) as [is|].
    - destruct (pack_images_ok is ucs st (map (move_view (offs 0 (c :: cs))) vs) I W) as (st' & E' & W' & H'). rewrite E'. cbn [bind map jb_uri].
      exists st'. split; [|split; [exact W'|rewrite H', H; reflexivity]]. rewrite W', H', H, size_map. reflexivity.
    - subst ucs. cbn [bind map jb_uri]. exists st. split; [|split; [exact W|rewrite H; cbn [map flat_map]; rewrite app_nil_r; reflexivity]].
      rewrite W, H. cbn [map img_views flat_map tl]. rewrite !app_nil_r. reflexivity.
  Qed.

  Lemma nth_split_flat : forall cs k (c : bytes), nth_error cs k = Some c -> exists post, flat_map pad cs = flat_map pad (firstn k cs) ++ pad c ++ post.
  Proof.
    induction cs as [|x cs IH]; intros [|k] c E; cbn [nth_error] in E; try discriminate E; cbn [flat_map firstn].
    - injection E as ->. eexists. reflexivity.
    - destruct (IH _ _ E) as (post & ->). exists post. rewrite <- app_assoc. reflexivity.
  Qed.

  Lemma move_view_denotes : forall cs tail_ v b c x, jv_buffer v = Some (Z.of_nat b) -> nth_error cs b = Some c -> denotes c v x ->
    jv_offset v <> None \/ b = O ->
    denotes (flat_map pad cs ++ tail_) (move_view (offs 0 cs) v) x.
  Proof.
    intros cs tl0 v b c x B N ((pre & post & C & S) & L) D. split; [|exact L].
    destruct (nth_split_flat _ _ _ N) as (q & ->). destruct (pad_pre c) as (r & ->). subst c. unfold move_view. rewrite B. cbn [jv_offset].
    exists (flat_map pad (firstn b cs) ++ pre), (post ++ r ++ q ++ tl0). split; [rewrite <- !app_assoc; reflexivity|]. rewrite size_app, S.
    destruct (jv_offset v) as [o|].
    - unfold buffer_map. destruct (Z.ltb_spec (Z.of_nat b) 0); [lia|]. rewrite Nat2Z.id, offs_nth by (apply nth_error_Some; congruence). lia.
    - destruct D as [D| ->]; [congruence|]. reflexivity.
  Qed.

  Lemma packed_same : forall d bs vs c cs ucs, d_buffers d = Some bs -> contents file bs (c :: cs) -> d_views d = Some vs -> image_list d ucs ->
    same_document file guess_type d (c :: cs) (packed d vs c cs ucs) (flat_map pad (c :: cs) ++ flat_map pad (map snd ucs)).
  Proof.
    intros d bs vs c cs ucs B C V I. unfold same_document, packed. cbn [d_rest d_buffers d_views d_images]. split; [reflexivity|].
    split; [eexists; split; [reflexivity|]; cbn [tl List.length]; rewrite map_length; reflexivity|].
    exists vs. eexists. split; [exact V|]. split; [reflexivity|]. split.
    - intros k v b x y N BU NC D O. exists (move_view (offs 0 (c :: cs)) v). split.
      + rewrite nth_error_app1 by (rewrite map_length; apply nth_error_Some; congruence). rewrite nth_error_map, N. reflexivity.
      + split; [reflexivity|]. split; [apply (move_view_denotes _ _ _ _ _ _ BU NC D O)|split; reflexivity].
    - unfold image_list in I. destruct (d_images d) as [is|].
      + eexists. split; [reflexivity|]. rewrite img_out_length, map_length. assert (L := Forall2_length _ _ _ _ _ I). split; [congruence|].
        split; [rewrite app_length, map_length, img_views_length, map_length; lia|].
        intros k i N. assert (X : exists uc, nth_error ucs k = Some uc /\ image_is i uc).
        { clear -I N. revert k N. induction I as [|x y l l' H I IH]; intros [|k] N; cbn [nth_error] in N; try discriminate N; [injection N as ->; exists y; auto|apply IH, N]. }
        destruct X as ([u b] & NU & (X1 & X2 & X3)). cbn [fst snd] in *. exists (JImage None (Some (size vs + Z.of_nat k)) (Some (guess_type u))), u, b.
        eexists. exists (pad b). split; [exact X1|]. split; [exact X3|]. split; [apply img_out_nth; rewrite nth_error_map, NU; reflexivity|].
        split; [reflexivity|]. split; [reflexivity|]. split; [cbn [ji_view]; f_equal; unfold size; lia|]. split.
        { rewrite nth_error_app2 by (rewrite map_length; lia). rewrite map_length. replace (_ + k - _)%nat with k by lia. apply img_views_nth. rewrite nth_error_map, NU. reflexivity. }
        split; [reflexivity|]. split; [|apply pad_padded]. split; [|reflexivity]. cbn [jv_offset].
        assert (NB : nth_error (map snd ucs) k = Some b) by (rewrite nth_error_map, NU; reflexivity).
        destruct (nth_split_flat _ _ _ NB) as (q & ->). eexists. exists q. split; [rewrite app_assoc; reflexivity|]. apply size_app.
      + subst ucs. split; [reflexivity|]. cbn [map img_views]. rewrite app_nil_r, map_length. reflexivity.
  Qed.

  Lemma pack_word : forall n, 0 <= n < 4294967296 -> pack n = Ok (le32 n).
  Proof. intros n H. unfold pack. destruct (Z.leb_spec 0 n); [|lia]. destruct (Z.ltb_spec n 4294967296); [|lia]. reflexivity. Qed.
  Lemma pack_big : forall n, 4294967296 <= n -> pack n = Err OverflowError.
  Proof. intros n H. unfold pack. destruct (Z.ltb_spec n 4294967296); [lia|]. rewrite andb_false_r. reflexivity. Qed.

  Lemma export_ok : forall header st, wf st -> size (whole st) mod 4 = 0 -> 28 + size (pad header) + size (whole st) < 4294967296 ->
    exists glb, export_string header st = Ok glb /\ glb_file glb (pad header) (whole st) /\ size glb = 28 + size (pad header) + size (whole st).
  Proof.
    intros header st W M S. assert (P := size_pos _ (pad header)). assert (Q := size_pos _ (whole st)).
    unfold export_string. rewrite W. rewrite !pack_word by lia. cbn [bind]. eexists. split; [reflexivity|]. fold (whole st).
    match goal with |- glb_file ?g _ _ /\ _ => assert (E : size g = 28 + size (pad header) + size (whole st)) end.
    { rewrite !size_app. cbn [le32 size List.length]. unfold size. cbn [List.length le32]. lia. }
    split; [|exact E]. split; [|split; [rewrite E; exact S|split; [apply pad_mod|exact M]]].
    - rewrite E. replace (28 + size (pad header) + size (whole st)) with (12 + 8 + size (pad header) + 8 + size (whole st)) by lia. reflexivity.
  Qed.
End Convert.

Lemma plain_written : forall m, plain_material m -> write_material m = m.
Proof.
  intros [n vals] (_ & P). unfold write_material. cbn [name values] in *. f_equal. induction P as [|[k p] l (NV & X & _) P IH]; [reflexivity|]. cbn [map fst snd]. rewrite IH. do 2 f_equal.
  destruct p as [a v j]. cbn [snd number_value number_array json] in *. subst v. unfold write_param. cbn [number_array json]. destruct a; [reflexivity|]. destruct X as [X| ->]; [discriminate X|reflexivity].
Qed.
Lemma plain_all : forall ms, Forall plain_material ms -> map write_material ms = ms.
Proof. induction 1 as [|m ms P F IH]; [reflexivity|]. cbn [map]. rewrite IH, plain_written by exact P. reflexivity. Qed.
Lemma skeleton_proper : forall g, writable g -> Forall plain_material (materials g) ->
  writable (skeleton g) /\ buffers (skeleton g) = [] /\ views (skeleton g) = [] /\ images (skeleton g) = [] /\ Forall plain_material (materials (skeleton g)).
Proof. intros g W P. split; [exact W|]. do 3 (split; [reflexivity|]). cbn [skeleton materials]. rewrite plain_all by exact P. exact P. Qed.
