(** Proofs about saving and loading .glb files. *)
From Coq Require Import List Bool ZArith QArith String Ascii Lia.
From Verif.Base Require Import Py PyFacts Fs FsFacts.
From Verif.Mesh Require Import Model.
From Verif.Gltf Require Import Model Spec Proofs.
From Verif.Glb Require Import Model Spec Proofs.
Import ListNotations.
Local Open Scope string_scope.
Local Open Scope list_scope.
Local Open Scope Z_scope.

(** ** Names *)

Lemma length_append : forall a b, String.length (a ++ b)%string = (String.length a + String.length b)%nat.
Proof. induction a as [|c a IH]; intro b; cbn; [reflexivity|]. rewrite IH. reflexivity. Qed.
Lemma suffix_name : forall a b, (2 < String.length b)%nat -> (a ++ b)%string <> "." /\ (a ++ b)%string <> "..".
Proof. intros a b L. split; intro E; apply (f_equal String.length) in E; rewrite length_append in E; cbn in E; lia. Qed.
Lemma suffix_eq : forall a b s s', (a ++ s)%string = (b ++ s')%string -> String.length s = String.length s' -> s = s'.
Proof.
  induction a as [|c a IH]; intros [|d b] s s' E L.
  - exact E.
  - exfalso. apply (f_equal String.length) in E. cbn in E. rewrite length_append in E. lia.
  - exfalso. apply (f_equal String.length) in E. cbn in E. rewrite length_append in E. lia.
  - injection E as _ E. eapply IH; eassumption.
Qed.

(** ** Writing into the temporary folder *)

Definition puts (temp : list string) (s : fs bytes) (kvs : list (string * bytes)) : fs bytes :=
  fold_left (fun s kv => put s (temp ++ [fst kv]) (snd kv)) kvs s.

Lemma puts_app : forall temp s a b, puts temp s (a ++ b) = puts temp (puts temp s a) b.
Proof. intros. apply fold_left_app. Qed.
Lemma puts_dirs : forall temp kvs s, dirs (puts temp s kvs) = dirs s /\ cwd (puts temp s kvs) = cwd s.
Proof. intros temp. induction kvs as [|kv kvs IH]; intro s; [auto|]. cbn [puts fold_left]. destruct (IH (put s (temp ++ [fst kv]) (snd kv))) as (A & B). split; assumption. Qed.
Lemma isdir_same : forall (s s' : fs bytes) l, dirs s' = dirs s -> isdir_at s' l = isdir_at s l.
Proof. intros s s' l E. unfold isdir_at. rewrite E. reflexivity. Qed.
Lemma puts_get : forall temp kvs s x, dget loc_eqb (temp ++ [x]) (files (puts temp s kvs)) =
  match sget x (rev kvs) with Some b => Some b | None => dget loc_eqb (temp ++ [x]) (files s) end.
Proof.
  intros temp kvs. induction kvs as [|[k v] kvs IH] using rev_ind; intros s x; [reflexivity|]. rewrite puts_app, rev_app_distr. cbn [rev app puts fold_left fst snd dget].
  destruct (String.eqb_spec x k) as [->|N]; [apply get_put_same|]. rewrite get_put_other by (intro E; apply app_inj_tail in E; destruct E; congruence). apply IH.
Qed.
Lemma puts_outside : forall temp kvs s l, above temp l = false -> dget loc_eqb l (files (puts temp s kvs)) = dget loc_eqb l (files s).
Proof.
  intros temp kvs s l O. revert s. induction kvs as [|[k v] kvs IH]; intro s; [reflexivity|]. cbn [puts fold_left fst snd]. etransitivity; [apply IH|].
  apply get_put_other. intro E. subst l. rewrite above_app in O. discriminate O.
Qed.

(** [s] is ready for writing into [temp]. *)
Definition ready (temp : list string) (s : fs bytes) : Prop :=
  temp <> [] /\ names temp /\ isdir_at s temp = true /\ forall x, isdir_at s (temp ++ [x]) = false.
Lemma ready_puts : forall temp s kvs, ready temp s -> ready temp (puts temp s kvs).
Proof.
  intros temp s kvs (A & B & C & D). destruct (puts_dirs temp kvs s) as (E & _). split; [exact A|]. split; [exact B|]. split; [rewrite (isdir_same s _ _ E); exact C|].
  intro x. rewrite (isdir_same s _ _ E). apply D.
Qed.
Lemma names_app : forall a b, names a -> names b -> names (a ++ b).
Proof. intros. apply Forall_app. auto. Qed.
Lemma resolve_abs : forall (s : fs bytes) l, names l -> resolve s (Abs l) = l.
Proof. intros s l N. unfold resolve. rewrite walk_names by exact N. reflexivity. Qed.

Lemma try_write_ok : forall temp s x b, ready temp s -> x <> "." -> x <> ".." ->
  try_write (join (Abs temp) (Rel [x])) b s = (put s (temp ++ [x]) b, Ok tt).
Proof.
  intros temp s x b (A & B & C & D) N1 N2. unfold try_write, write. cbn [join]. rewrite resolve_abs by (apply names_app; [exact B|constructor; [auto|constructor]]).
  rewrite write_at_ok; [reflexivity| | |apply D].
  - destruct temp; discriminate.
  - rewrite removelast_last. exact C.
Qed.

Lemma for_each_ok : forall X (f : X -> io bytes unit) (kv : X -> string * bytes) temp l s, ready temp s ->
  (forall x s, In x l -> ready temp s -> f x s = (put s (temp ++ [fst (kv x)]) (snd (kv x)), Ok tt)) ->
  for_each f l s = (puts temp s (map kv l), Ok tt).
Proof.
  intros X f kv temp. induction l as [|x l IH]; intros s R H; [reflexivity|]. cbn [for_each]. unfold ibind. rewrite H; [|left; reflexivity|exact R].
  rewrite IH; [reflexivity| |].
  - apply (ready_puts temp s [kv x]), R.
  - intros y t I. apply H. right. exact I.
Qed.

Section Save.
  Variables (write_json : doc gmodel -> bytes) (loads : bytes -> option (doc gmodel))
            (dumps : doc gmodel -> bytes) (parse : bytes -> option (doc gmodel))
            (encode : string -> mat3b -> option bytes) (decode : bytes -> option (Z * Z * Z * bytes))
            (guess_type : string -> option string).

  (** The image file. *)
  Definition image_bytes (i : image) : bytes :=
    match cvImageFromImage i with
    | Ok m => match encode (uri i) m with Some b => b | None => [] end
    | Err _ => []
    end.

  Definition image_names (g : gmodel) : Prop := Forall (fun i => uri i <> "." /\ uri i <> "..") (images g).

  Lemma save_image_ok : forall temp i s, ready temp s -> pixels i <> [] -> uri i <> "" -> uri i <> "." -> uri i <> ".." ->
    (exists m b, cvImageFromImage i = Ok m /\ encode (uri i) m = Some b) ->
    save_image encode (Abs temp) i s = (put s (temp ++ [uri i]) (image_bytes i), Ok tt).
  Proof.
    intros temp i s R P U U1 U2 (m & b & C & E). unfold save_image, image_bytes. destruct (pixels i); [contradiction|]. rewrite C, E. unfold ibind, ilift.
    destruct (String.eqb_spec (uri i) "") as [|_]; [contradiction|]. rewrite E. apply try_write_ok; assumption.
  Qed.

  (** What ends up in the folder. *)
  Definition saved (g : gmodel) (root : string) : list (string * bytes) :=
    map (fun b => ((root ++ ".bin")%string, b)) (buffers g) ++
    [((root ++ ".gltf")%string, write_json (to_doc g (root ++ ".bin")%string))] ++
    map (fun i => (uri i, image_bytes i)) (images g).

  Lemma save_as_gltf_ok : forall g temp root s, ready temp s ->
    (forall i, In i (images g) -> pixels i <> [] /\ uri i <> "" /\ uri i <> "." /\ uri i <> ".." /\
       exists m b, cvImageFromImage i = Ok m /\ encode (uri i) m = Some b) ->
    save_as_gltf write_json encode g (Abs temp) root s = (puts temp s (saved g root), Ok (Abs (temp ++ [(root ++ ".gltf")%string]))).
  Proof.
    intros g temp root s R I. unfold save_as_gltf, write_gltf_scene_to_file. unfold ibind at 1. unfold isdir.
    assert (R2 := proj1 (proj2 R)). assert (R3 := proj1 (proj2 (proj2 R))). rewrite resolve_abs by exact R2. rewrite R3. cbn [negb].
    destruct (suffix_name root ".bin" ltac:(cbn; lia)) as (B1 & B2). destruct (suffix_name root ".gltf" ltac:(cbn; lia)) as (G1 & G2).
    unfold ibind at 1 2. rewrite (for_each_ok _ _ (fun b => ((root ++ ".bin")%string, b)) temp _ s R); [|intros b t _ Rt; apply try_write_ok; assumption].
    set (s1 := puts temp s _). assert (Q1 : ready temp s1) by apply ready_puts, R. rewrite (try_write_ok temp s1 _ _ Q1 G1 G2).
    set (s2 := put s1 _ _). assert (E2 : s2 = puts temp s1 [((root ++ ".gltf")%string, write_json (to_doc g (root ++ ".bin")%string))]) by reflexivity.
    assert (Q2 : ready temp s2) by (rewrite E2; apply ready_puts, Q1).
    unfold ibind at 1. unfold isfile. cbn [join]. rewrite resolve_abs by (apply names_app; [exact R2|constructor; [auto|constructor]]).
    assert (GP : isfile_at s2 (temp ++ [(root ++ ".gltf")%string]) = true) by (unfold isfile_at, dmem, s2; rewrite get_put_same; reflexivity). rewrite GP. cbn [negb].
    unfold ibind. rewrite (for_each_ok _ _ (fun i => (uri i, image_bytes i)) temp _ s2 Q2).
    - unfold iret. f_equal. rewrite E2. unfold s1, saved. rewrite !puts_app. reflexivity.
    - intros i t II Rt. destruct (I i II) as (P & U & U1 & U2 & M). apply save_image_ok; assumption.
  Qed.

  (** ** Packing the folder *)

  Lemma dget_app : forall (a b : list (string * bytes)) x, sget x (a ++ b) = match sget x a with Some v => Some v | None => sget x b end.
  Proof. induction a as [|[k v] a IH]; intros b x; [reflexivity|]. cbn [app dget]. destruct (String.eqb x k); [reflexivity|apply IH]. Qed.
  Lemma dget_rev_nodup : forall (l : list (string * bytes)) x v, NoDup (map fst l) -> In (x, v) l -> sget x (rev l) = Some v.
  Proof.
    intros l x v N I. apply dget_NoDup; [exact str_eqb_spec| |apply in_rev in I; exact I]. unfold dkeys. rewrite map_rev. apply NoDup_rev, N.
  Qed.
  Lemma dget_rev_none : forall (l : list (string * bytes)) x, ~ In x (map fst l) -> sget x (rev l) = None.
  Proof. intros l x N. apply dget_None; [exact str_eqb_spec|]. intro I. unfold dkeys in I. rewrite map_rev in I. apply in_rev in I. contradiction. Qed.

  Definition other_names (g : gmodel) (root : string) : Prop :=
    forall i, In i (images g) -> uri i <> (root ++ ".bin")%string /\ uri i <> (root ++ ".gltf")%string.

  Lemma saved_gltf : forall g root, other_names g root ->
    sget (root ++ ".gltf")%string (rev (saved g root)) = Some (write_json (to_doc g (root ++ ".bin")%string)).
  Proof.
    intros g root O. unfold saved. rewrite !rev_app_distr, !dget_app. rewrite dget_rev_none; [cbn [rev app dget]; rewrite String.eqb_refl; reflexivity|].
    rewrite map_map. cbn [fst]. intro I. apply in_map_iff in I. destruct I as (i & E & I). destruct (O i I). congruence.
  Qed.
  Lemma saved_image : forall g root i, NoDup (map uri (images g)) -> In i (images g) -> sget (uri i) (rev (saved g root)) = Some (image_bytes i).
  Proof.
    intros g root i N I. unfold saved. rewrite !rev_app_distr, !dget_app. rewrite (dget_rev_nodup _ _ (image_bytes i)); [reflexivity|rewrite map_map; exact N|].
    apply in_map_iff. exists i. auto.
  Qed.
  Lemma saved_bin : forall g root b bs, other_names g root -> buffers g = bs ++ [b] -> sget (root ++ ".bin")%string (rev (saved g root)) = Some b.
  Proof.
    intros g root b bs O B. unfold saved. rewrite !rev_app_distr, !dget_app. rewrite dget_rev_none.
    - cbn [rev app dget]. destruct (String.eqb_spec (root ++ ".bin") (root ++ ".gltf")) as [E|_].
      + exfalso. assert (L := f_equal String.length E). rewrite !length_append in L. cbn in L. lia.
      + rewrite B, map_app, rev_app_distr. cbn [map rev app dget]. rewrite String.eqb_refl. reflexivity.
    - rewrite map_map. cbn [fst]. intro I. apply in_map_iff in I. destruct I as (i & E & I). destruct (O i I). congruence.
  Qed.

  Lemma export_big : forall header st, wf st -> 4294967296 <= 28 + size (pad header) + size (whole st) -> export_string header st = Err OverflowError.
  Proof.
    intros header st W S. unfold export_string. rewrite W. rewrite (pack_word 1179937895), (pack_word 2) by lia. cbn [bind]. rewrite pack_big by lia. reflexivity.
  Qed.

  Definition uris (g : gmodel) : list (string * bytes) := map (fun i => (uri i, image_bytes i)) (images g).
  Definition body_of (g : gmodel) (b : bytes) : bytes := flat_map pad [b] ++ flat_map pad (map snd (uris g)).
  Definition doc_views (g : gmodel) : list jview := match d_views (to_doc g "") with Some vs => vs | None => [] end.
  Definition doc_of (g : gmodel) (root : string) (b : bytes) : doc gmodel :=
    packed guess_type (to_doc g (root ++ ".bin")%string) (doc_views g) b [] (uris g).

  Lemma gltf2glb_ok : forall g temp root s b p lo,
    ready temp s -> packable g -> buffers g = [b] -> json_ok write_json loads dumps parse ->
    (forall i, In i (images g) -> exists m b, cvImageFromImage i = Ok m /\ encode (uri i) m = Some b) ->
    resolve s p = lo -> lo <> [] -> isdir_at s (removelast lo) = true -> isdir_at s lo = false ->
    let s3 := puts temp s (saved g root) in
    let d := doc_of g root b in
    (28 + size (pad (dumps d)) + size (body_of g b) < 4294967296 ->
       exists glb, gltf2glb loads dumps guess_type (Abs (temp ++ [(root ++ ".gltf")%string])) p s3 = (put (put s3 lo []) lo glb, Ok tt) /\
         glb_file glb (pad (dumps d)) (body_of g b)) /\
    (4294967296 <= 28 + size (pad (dumps d)) + size (body_of g b) ->
       gltf2glb loads dumps guess_type (Abs (temp ++ [(root ++ ".gltf")%string])) p s3 = (put s3 lo [], Err OverflowError)).
  Proof.
    intros g temp root s b p lo R PK B J EN RS LN LD LF s3 d.
    destruct PK as (_ & VN & SV & WR & PM & ND & PI).
    assert (O : other_names g root).
    { intros i I. rewrite Forall_forall in PI. destruct (PI i I) as ((nm & U) & _). rewrite U. split; intro E.
      - apply suffix_eq in E; [discriminate E|reflexivity].
      - change (".gltf") with ("." ++ "gltf")%string in E. assert (E' : (nm ++ ".png")%string = ((root ++ ".") ++ "gltf")%string) by (rewrite E; clear; induction root as [|c r IH]; [reflexivity|cbn; f_equal; exact IH]).
        apply suffix_eq in E'; [discriminate E'|reflexivity]. }
    assert (NM : forall x, x <> "." -> x <> ".." -> names (temp ++ [x])) by (intros x X1 X2; apply names_app; [apply R|constructor; [auto|constructor]]).
    destruct (suffix_name root ".bin" ltac:(cbn; lia)) as (B1 & B2). destruct (suffix_name root ".gltf" ltac:(cbn; lia)) as (G1 & G2).
    assert (RD : forall x v, x <> "." -> x <> ".." -> sget x (rev (saved g root)) = Some v -> snd (read (Abs (temp ++ [x])) s3) = Ok v).
    { intros x v X1 X2 G. unfold read. rewrite resolve_abs by (apply NM; assumption). cbn [snd]. unfold read_at, s3. rewrite puts_get, G. reflexivity. }
    set (file := fun u => snd (read (join (dirname (Abs (temp ++ [(root ++ ".gltf")%string]))) (Rel [u])) s3)).
    assert (FI : forall x v, x <> "." -> x <> ".." -> sget x (rev (saved g root)) = Some v -> file x = Ok v).
    { intros x v X1 X2 G. unfold file. cbn [dirname join]. rewrite removelast_last. apply RD; assumption. }
    assert (VS : d_views (to_doc g (root ++ ".bin")%string) = Some (doc_views g)) by (unfold doc_views, to_doc; cbn [d_views]; destruct (views g); [contradiction|reflexivity]).
    assert (IL : image_list file (to_doc g (root ++ ".bin")%string) (uris g)).
    { assert (X : Forall2 (image_is file) (map (fun i => JImage (Some (uri i)) None None) (images g)) (uris g)).
      { assert (Y : forall i, In i (images g) -> image_is file (JImage (Some (uri i)) None None) (uri i, image_bytes i)).
        { intros i I. rewrite Forall_forall in PI. destruct (PI i I) as ((nm & U) & _). split; [reflexivity|]. cbn [fst snd].
          split; [rewrite U; destruct nm; discriminate|]. destruct (suffix_name nm ".png" ltac:(cbn; lia)). apply FI; [rewrite U; assumption|rewrite U; assumption|apply saved_image; assumption]. }
        unfold uris. clear -Y. induction (images g) as [|i l IH]; [constructor|]. cbn [map]. constructor; [apply Y; left; reflexivity|apply IH; intros; apply Y; right; assumption]. }
      unfold image_list, to_doc, uris in *. cbn [d_images]. destruct (images g); [reflexivity|exact X]. }
    assert (CO : contents file [JBuffer (Some (root ++ ".bin")%string) (Some (size b))] [b]).
    { constructor; [|constructor]. exists (root ++ ".bin")%string. split; [reflexivity|]. apply FI; [assumption|assumption|]. apply (saved_bin g root b []); [exact O|exact B]. }
    assert (BU : d_buffers (to_doc g (root ++ ".bin")%string) = Some [JBuffer (Some (root ++ ".bin")%string) (Some (size b))]) by (unfold to_doc; cbn [d_buffers]; rewrite B; reflexivity).
    destruct (pack_doc_ok file guess_type _ _ _ _ _ _ BU CO VS IL) as (st & E & W & H). change (pack_doc file guess_type (to_doc g (root ++ ".bin")%string) = Ok (d, st)) in E. change (whole st = body_of g b) in H.
    assert (LO : loads (write_json (to_doc g (root ++ ".bin")%string)) = Some (to_doc g (root ++ ".bin")%string)).
    { destruct (skeleton_proper g WR PM) as (K1 & K2 & K3 & K4 & K5). apply J. split; [rewrite BU; eauto|]. split; [|repeat (split; [assumption|]); exact K5].
      unfold to_doc. cbn [d_views]. destruct (views g); [contradiction|]. cbn [map]. eauto. }
    assert (DI : forall l, isdir_at s3 l = isdir_at s l) by (intro l; apply isdir_same, puts_dirs).
    assert (RS3 : resolve s3 p = lo) by (rewrite <- RS; unfold resolve, s3; rewrite (proj2 (puts_dirs _ _ _)); reflexivity).
    assert (RT := RD _ _ G1 G2 (saved_gltf g root O)). unfold read in RT. rewrite resolve_abs in RT by (apply NM; assumption). cbn [snd] in RT.
    assert (W1 : @write bytes p [] s3 = (put s3 lo [], Ok tt)) by (unfold write; rewrite RS3; apply write_at_ok; rewrite ?DI; assumption).
    assert (RUN : gltf2glb loads dumps guess_type (Abs (temp ++ [(root ++ ".gltf")%string])) p s3 =
                  match export_string (dumps d) st with Ok glb => write p glb (put s3 lo []) | Err e => (put s3 lo [], Err e) end).
    { unfold gltf2glb. unfold ibind at 1. unfold read at 1. rewrite resolve_abs by (apply NM; assumption). rewrite RT, LO.
      unfold ibind. cbv beta. fold file. rewrite E. cbv beta iota. rewrite W1. reflexivity. }
    rewrite RUN.
    split; intro S.
    - assert (M : size (whole st) mod 4 = 0) by (rewrite H; unfold body_of; rewrite size_app, Z.add_mod, !pads_mod by lia; reflexivity).
      destruct (export_ok (dumps d) st W M ltac:(rewrite H; exact S)) as (glb & X & F & _). rewrite X. exists glb. split; [|rewrite <- H; exact F].
      unfold write. replace (resolve (put s3 lo []) p) with lo by (rewrite <- RS3; reflexivity).
      apply write_at_ok; [assumption|change (isdir_at s3 (removelast lo) = true); rewrite DI; exact LD|change (isdir_at s3 lo = false); rewrite DI; exact LF].
    - rewrite export_big; [reflexivity|exact W|rewrite H; exact S].
  Qed.

  Lemma finish : forall (s s4 : fs bytes) temp, fresh s temp -> sane s -> dirs s4 = temp :: dirs s ->
    exists s', (let (s5, r) := rmtree (Abs temp) s4 in match r with Ok _ => chdir (Abs (cwd s)) s5 | Err e => (s5, Err e) end) = (s', Ok tt) /\
      cwd s' = cwd s /\ (forall l, dget loc_eqb l (files s') = if above temp l then None else dget loc_eqb l (files s4)) /\
      (forall l, isdir_at s' l = isdir_at s l).
  Proof.
    intros s s4 temp (TN & NM & FR & PD & CW) (NC & DC) D. unfold rmtree. rewrite (resolve_abs s4 temp NM).
    assert (DT : isdir_at s4 temp = true) by (unfold isdir_at; rewrite D; destruct temp; [reflexivity|]; cbn [existsb]; rewrite loc_eqb_refl; reflexivity). rewrite DT.
    set (s5 := Fs _ _ _). assert (DS : forall l, isdir_at s5 l = isdir_at s l).
    { intro l. unfold isdir_at. destruct l as [|x l]; [reflexivity|]. unfold s5. cbn [dirs]. rewrite dir_filter, D. cbn [existsb].
      destruct (above temp (x :: l)) eqn:A; cbn [negb andb].
      - destruct (FR _ A) as (_ & F). symmetry. exact F.
      - destruct (loc_eqb (x :: l) temp) eqn:Q; [|reflexivity]. apply loc_eqb_spec in Q. rewrite <- Q, above_refl in A. discriminate A. }
    unfold chdir. rewrite resolve_abs by exact NC. rewrite DS, DC. eexists. split; [reflexivity|]. cbn [cwd files]. split; [reflexivity|]. split; [|exact DS].
    intro l. unfold s5. cbn [files]. apply get_filter.
  Qed.

  Lemma fresh_ready : forall (s : fs bytes) temp c, fresh s temp -> ready temp (Fs (files s) (temp :: dirs s) c).
  Proof.
    intros s temp c (TN & NM & FR & PD & CW). split; [exact TN|]. split; [exact NM|].
    assert (D : forall l, isdir_at (Fs (files s) (temp :: dirs s) c) l = loc_eqb l temp || isdir_at s l) by (intro l; apply (isdir_cons s temp l TN)).
    split; [rewrite D, loc_eqb_refl; reflexivity|]. intro x. rewrite D. destruct (FR (temp ++ [x]) (above_app _ _)) as (_ & ->). rewrite orb_false_r.
    destruct (loc_eqb (temp ++ [x]) temp) eqn:Q; [|reflexivity]. apply loc_eqb_spec in Q. apply (f_equal (@List.length _)) in Q. rewrite app_length in Q. cbn in Q. lia.
  Qed.

  Lemma encodes : forall g, packable g -> png_ok encode decode ->
    forall i, In i (images g) -> pixels i <> [] /\ uri i <> "" /\ uri i <> "." /\ uri i <> ".." /\
       exists m b, cvImageFromImage i = Ok m /\ encode (uri i) m = Some b.
  Proof.
    intros g (_ & _ & _ & _ & _ & _ & PI) PO i I. rewrite Forall_forall in PI. destruct (PI i I) as ((nm & U) & P & m & C & M & NE).
    split; [exact P|]. destruct (suffix_name nm ".png" ltac:(cbn; lia)) as (S1 & S2). rewrite U. split; [destruct nm; discriminate|]. split; [exact S1|]. split; [exact S2|].
    destruct (PO nm m M NE) as (b & E & _). exists m, b. auto.
  Qed.

  (** [lo]: where the path leads once the current folder is [temp]. *)
  Lemma save_as_glb_ok : forall g temp root s b p lo,
    fresh s temp -> sane s -> packable g -> buffers g = [b] -> json_ok write_json loads dumps parse -> png_ok encode decode ->
    splitext (basename p) = (root, ".glb") ->
    resolve (Fs (files s) (temp :: dirs s) temp) p = lo -> lo <> [] ->
    isdir_at (Fs (files s) (temp :: dirs s) temp) (removelast lo) = true -> isdir_at (Fs (files s) (temp :: dirs s) temp) lo = false ->
    let d := doc_of g root b in
    exists s' content, save_as_glb write_json loads dumps encode guess_type temp g p s =
        (s', if 28 + size (pad (dumps d)) + size (body_of g b) <? 4294967296 then Ok tt else Err OverflowError) /\
      cwd s' = cwd s /\ (forall l, isdir_at s' l = isdir_at s l) /\
      (forall l, dget loc_eqb l (files s') = if above temp l then None else if loc_eqb l lo then Some content else dget loc_eqb l (files s)) /\
      if 28 + size (pad (dumps d)) + size (body_of g b) <? 4294967296
      then glb_file content (pad (dumps d)) (body_of g b) else content = [].
  Proof.
    intros g temp root s b p lo FR SA PK B J PO EX RS LN LD LF d.
    set (s2 := Fs (files s) (temp :: dirs s) temp) in *. assert (R : ready temp s2) by apply fresh_ready, FR.
    assert (EN := encodes g PK PO).
    assert (EN' : forall i, In i (images g) -> exists m b, cvImageFromImage i = Ok m /\ encode (uri i) m = Some b) by (intros i I; apply EN, I).
    destruct (gltf2glb_ok g temp root s2 b p lo R PK B J EN' RS LN LD LF) as (GOOD & BAD). fold d in GOOD, BAD.
    set (s3 := puts temp s2 (saved g root)) in *. assert (D3 : dirs s3 = temp :: dirs s) by apply (proj1 (puts_dirs temp (saved g root) s2)).
    assert (RUN : forall s4 r, gltf2glb loads dumps guess_type (Abs (temp ++ [(root ++ ".gltf")%string])) p s3 = (s4, r) -> dirs s4 = temp :: dirs s ->
      exists s', save_as_glb write_json loads dumps encode guess_type temp g p s = (s', r) /\
        cwd s' = cwd s /\ (forall l, dget loc_eqb l (files s') = if above temp l then None else dget loc_eqb l (files s4)) /\
        (forall l, isdir_at s' l = isdir_at s l)).
    { intros s4 r E D. destruct (finish s s4 temp FR SA D) as (s' & F & P). exists s'. split; [|exact P].
      unfold save_as_glb. unfold ibind at 1. unfold mkdir_at. rewrite EX. cbn [String.eqb Ascii.eqb Bool.eqb negb]. unfold ibind at 1. unfold getcwd. cbn [cwd].
      unfold ibind at 1. unfold chdir at 1. assert (NT : names temp) by apply FR. rewrite resolve_abs by exact NT.
      assert (DT : isdir_at (Fs (files s) (temp :: dirs s) (cwd s)) temp = true).
      { unfold isdir_at. destruct temp; [reflexivity|]. cbn [dirs existsb]. rewrite loc_eqb_refl. reflexivity. }
      rewrite DT. cbn [files dirs]. fold s2. unfold ifinally. unfold ibind at 1.
      rewrite (save_as_gltf_ok g temp root s2 R EN). fold s3. rewrite E.
      unfold ibind. rewrite F. reflexivity. }
    destruct (Z.ltb_spec (28 + size (pad (dumps d)) + size (body_of g b)) 4294967296) as [S|S].
    - destruct (GOOD S) as (glb & E & G). destruct (RUN _ _ E D3) as (s' & X & C & GE & DI). exists s', glb. split; [exact X|]. split; [exact C|]. split; [exact DI|]. split; [|exact G].
      intro l. rewrite GE. destruct (above temp l) eqn:A; [reflexivity|]. destruct (loc_eqb l lo) eqn:Q.
      + apply loc_eqb_spec in Q. subst l. apply get_put_same.
      + assert (N : lo <> l) by (intros ->; rewrite loc_eqb_refl in Q; discriminate Q). rewrite !get_put_other by exact N. exact (puts_outside temp (saved g root) s2 l A).
    - destruct (RUN _ _ (BAD S) D3) as (s' & X & C & GE & DI). exists s', []. split; [exact X|]. split; [exact C|]. split; [exact DI|]. split; [|reflexivity].
      intro l. rewrite GE. destruct (above temp l) eqn:A; [reflexivity|]. destruct (loc_eqb l lo) eqn:Q.
      + apply loc_eqb_spec in Q. subst l. apply get_put_same.
      + assert (N : lo <> l) by (intros ->; rewrite loc_eqb_refl in Q; discriminate Q). rewrite !get_put_other by exact N. exact (puts_outside temp (saved g root) s2 l A).
  Qed.
End Save.
