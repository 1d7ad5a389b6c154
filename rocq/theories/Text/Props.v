(** C98: the text of .gltf files: what is read, what is written, and what becomes of
    numbers. *)
From Coq Require Import List Bool ZArith QArith Qpower Qabs Ascii String Lia Lqa Sorted.
From Verif.Base Require Import Py.
From Verif.Round Require Import Model Spec Rounding.
From Verif.Uri Require Import Model.
From Verif.Uri Require Spec Paths Props.
From Verif.Json Require Import Spec.
From Verif.Json Require Import Model.
From Verif.Doc Require Import Model Facts.
From Verif.Doc Require Import Spec.
From Verif.Doc Require Again Props Whole Parts.
From Verif.Text Require Import Model Spec Decimals Strings Parser Writing Atoms Files Single Range.
Import ListNotations.
Local Open Scope Z_scope.

(** * Reading *)

(** The parser reads the documents and nothing else, and refuses with an error. *)
Theorem C98_exact : forall s, (forall j, parse s = Ok j <-> document s j) /\ (forall e, parse s = Err e -> e = IOError).
Proof. intros s. split; [intros j; apply parse_exact|intros e; apply parse_error_io]. Qed.

(** Of two equal keys the first counts; what follows a null character is not looked at;
    a mark may come first. *)
Theorem C98_first : parse (lit "{""a"":1,""a"":2}") = Ok (JObj [("a"%string, JInt 1)]).
Proof. reflexivity. Qed.
Theorem C98_tail : forall s j r, parse s = Ok j -> parse (s ++ ascii_of_nat 0 :: r) = Ok j.
Proof.
  intros s j r P. apply parse_exact in P. apply parse_exact. destruct P as [bom w t j w' tail B W V W' T].
  rewrite <- !app_assoc. constructor; try assumption. right. destruct T as [->|(x & ->)]; [exists r; reflexivity|]. exists (x ++ ascii_of_nat 0 :: r). reflexivity.
Qed.
Example C98_exact_example : parse (mark ++ lit " { ""a"" : [ 1, -2.5e1, ""é\n"" ] , ""b"":18446744073709551616 }" ++ [ascii_of_nat 0; "x"%char]) =
  Ok (JObj [("a"%string, JArr [JInt 1; JNum (-25); JStr (string_of_list_ascii (map ascii_of_nat [195; 169; 10]%nat))]); ("b"%string, JNum (18446744073709551616 # 1))]).
Proof. vm_compute. reflexivity. Qed.
Example C98_refused : map parse [lit "[1,]"; lit "{""a"":01}"; lit "[1 2]"; lit """\x"""; lit "1e400"; lit "nul"; []; lit "1}"; lit "[""" ++ [ascii_of_nat 192] ++ lit """]"] = repeat (Err IOError) 9.
Proof. vm_compute. reflexivity. Qed.

(** * Writing *)

(** What dump writes can be read if and only if no number becomes infinite and all
    strings are UTF-8, and then it is read as it was, but for the doubles. *)
Theorem C98_written : forall j, held j -> (readable j <-> exists j', parse (gltf_text j) = Ok j') /\ forall j', parse (gltf_text j) = Ok j' -> reread j j'.
Proof.
  intros j H. split; [split|].
  - intros R. eexists. apply text_written; assumption.
  - intros (j' & P). apply (text_readable j j' H P).
  - intros j' P. rewrite (text_written j H (text_readable j j' H P)) in P. injection P as <-. apply reread_ok.
Qed.
Lemma f15_double : forall q, double (f15 q).
Proof. intros q. apply round_ok. Qed.
Lemma again_ok : forall j, held j -> readable j -> held (through_text f15 j) /\ readable (through_text f15 j) /\ through_text f15 (through_text f15 j) = through_text f15 j.
Proof.
  induction j as [|b|z|q|t|l IH|o IH] using json_induction; intros H R; cbn [through_text]; try (split; [exact H|split; [exact R|reflexivity]]).
  - destruct R as (y & T & L). apply through15_f15 in T. subst y. split; [split; [apply f15_double|exact L]|]. split; [|rewrite f15_again; reflexivity].
    exists (f15 q). split; [|exact L]. rewrite <- (f15_again q) at 2. apply f15_ok.
  - apply held_arr in H. apply readable_arr in R. rewrite Forall_forall in *. split; [|split].
    + cbn [held]. apply (fold_forall _ held). rewrite Forall_map. apply Forall_forall. intros x X. apply (IH x X (H x X) (R x X)).
    + apply readable_arr. rewrite Forall_map. apply Forall_forall. intros x X. apply (IH x X (H x X) (R x X)).
    + f_equal. rewrite map_map. apply map_ext_in. intros x X. apply (IH x X (H x X) (R x X)).
  - apply held_obj in H. destruct H as [O H]. apply readable_obj in R. rewrite Forall_forall in *. split; [|split].
    + split; [exact (ordered_map _ _ (fun _ => through_text f15) _ O)|]. apply (fold_forall _ (fun m => held (snd m))). rewrite Forall_map. apply Forall_forall. intros x X. destruct (R x X) as [_ RX]. apply (IH x X (H x X) RX).
    + apply readable_obj. rewrite Forall_map. apply Forall_forall. intros x X. destruct (R x X) as [K RX]. split; [exact K|]. apply (IH x X (H x X) RX).
    + f_equal. rewrite map_map. apply map_ext_in. intros x X. destruct (R x X) as [_ RX]. cbn [fst snd]. f_equal. apply (IH x X (H x X) RX).
Qed.
(** A second time nothing changes. *)
Theorem C98_twice : forall j j', held j -> parse (gltf_text j) = Ok j' -> held j' /\ parse (gltf_text j') = Ok j'.
Proof.
  intros j j' H P. assert (R := text_readable j j' H P). rewrite (text_written j H R) in P. injection P as <-. destruct (again_ok j H R) as (H' & R' & E).
  split; [exact H'|]. rewrite text_written, E by assumption. reflexivity.
Qed.
Example C98_written_example :
  let j := JObj [("a", JArr [JNum (1 # 4); JNum 3; JInt 3; JNum (-1 # 8); JNull; JBool true]); ("b", JStr "x""y\")]%string in
  held j /\ readable j /\ dump j = lit "{""a"":[0.25,3.0,3,-0.125,null,true],""b"":""x\""y\\""}" /\ parse (gltf_text j) = Ok j.
Proof.
  assert (F : forall n e, Z.abs n < 2 ^ 53 -> -1074 <= e -> (Qabs (inject_Z n * 2 ^ e) < 2 ^ 1000)%Q -> forall q, (q == inject_Z n * 2 ^ e)%Q -> (double q /\ (Qabs q < 2 ^ 1024)%Q) /\ exists y, through15 q y /\ (Qabs y < 2 ^ 1024)%Q).
  { intros n e N E B q Q. assert (X : (Qabs q < 2 ^ 1000)%Q) by (rewrite Q; exact B). split.
    - split; [exists n, e; split; [exact N|split; [exact E|exact Q]]|]. eapply Qlt_trans; [exact X|reflexivity].
    - exists (f15 q). split; [apply f15_ok|]. apply range15. eapply Qlt_trans; [exact X|vm_compute; reflexivity]. }
  assert (A1 := F 1 (-2) ltac:(lia) ltac:(lia) ltac:(reflexivity) (1 # 4)%Q ltac:(reflexivity)).
  assert (A2 := F 3 0 ltac:(lia) ltac:(lia) ltac:(reflexivity) 3%Q ltac:(reflexivity)).
  assert (A3 := F (-1) (-3) ltac:(lia) ltac:(lia) ltac:(reflexivity) (-1 # 8)%Q ltac:(reflexivity)).
  split; [|split; [|split; [vm_compute; reflexivity|vm_compute; reflexivity]]].
  - cbn [held fold_right snd]. split; [repeat constructor|]. unfold int65. repeat split; try (apply A1 || apply A2 || apply A3); lia.
  - cbn [readable fold_right fst snd]. split; [apply ascii_utf8; reflexivity|]. split; [|split; [apply ascii_utf8; reflexivity|split; [apply ascii_utf8; reflexivity|exact Logic.I]]].
    split; [apply A1|]. split; [apply A2|]. split; [exact Logic.I|]. split; [apply A3|]. repeat split.
Qed.

(** * Numbers *)

(** Doubles that are nearest to a decimal number with 15 digits are kept, in particular
    those that were read from such a number. *)
Theorem C98_short : forall d q y, digits15 d -> rounds_to d q -> through15 q y -> (y == q)%Q.
Proof. intros d q y D R T. apply through15_f15 in T. subst y. apply (f15_short d q D R). Qed.
(** Others change by less than 6 in 10^15. *)
Theorem C98_close : forall q y, through15 q y -> (Qabs (y - q) <= Qabs q * (6 # 1000000000000000) + 2 ^ (-1075))%Q.
Proof. intros q y T. apply through15_f15 in T. subst y. apply f15_close. Qed.
(** Floats are kept when they are converted to float again. *)
Theorem C98_float : forall f32 q y, to_single f32 -> single q -> through15 q y -> (f32 y == q)%Q.
Proof. intros f32 q y F S T. apply through15_f15 in T. subst y. apply (f15_single f32 q F S). Qed.
Theorem C98_float_exists : to_single round32.
Proof. exact round32_ok. Qed.
(** A double becomes infinite from 1.797693134862315e308 on. *)
Theorem C98_range : forall q, (exists y, through15 q y /\ (Qabs y < 2 ^ 1024)%Q) <-> (Qabs q < 1797693134862315 * 10 ^ 293)%Q.
Proof.
  intros q. assert (E : (half == 1797693134862315 * 10 ^ 293)%Q) by (vm_compute; reflexivity). rewrite <- E, <- range15. split.
  - intros (y & T & L). apply through15_f15 in T. subst y. exact L.
  - intros L. exists (f15 q). split; [apply f15_ok|exact L].
Qed.
Example C98_short_example : dump (JNum (round (1 # 10))) = lit "0.1" /\ parse (lit "0.1") = Ok (JNum (round (1 # 10))).
Proof. split; vm_compute; reflexivity. Qed.
Example C98_float_example : let x := round32 (1 # 10) in
  dump (JNum x) = lit "0.100000001490116" /\ parse (lit "0.100000001490116") = Ok (JNum (f15 x)) /\ f15 x <> x /\ round32 (f15 x) = x.
Proof. vm_compute. repeat split; congruence. Qed.

(** 0.1 + 0.2 is written as 0.3, which is another double. *)
Theorem C98_same_refuted : exists q, double q /\ dump (JNum q) = lit "0.3" /\ parse (dump (JNum q)) = Ok (JNum (round (3 # 10))) /\ ~ (round (3 # 10) == q)%Q.
Proof.
  exists (round (round (1 # 10) + round (2 # 10))). split; [apply round_ok|]. split; [vm_compute; reflexivity|]. split; [vm_compute; reflexivity|]. vm_compute. discriminate.
Qed.
(** The largest double, the usual start of a minimum, is written and cannot be read. *)
Theorem C98_largest_refuted : let q := (inject_Z (2 ^ 53 - 1) * 2 ^ 971)%Q in
  held (JNum q) /\ dump (JNum q) = lit "1.79769313486232e+308" /\ parse (gltf_text (JNum q)) = Err IOError.
Proof.
  split; [|split; vm_compute; reflexivity]. split; [|vm_compute; reflexivity]. exists (2 ^ 53 - 1), 971. split; [lia|]. split; [lia|reflexivity].
Qed.
(** A string that is not UTF-8 is written and cannot be read. *)
Theorem C98_latin1_refuted : let j := JStr (string_of_list_ascii [ascii_of_nat 233]) in held j /\ parse (gltf_text j) = Err IOError.
Proof. split; [exact Logic.I|vm_compute; reflexivity]. Qed.

(** * Files *)

(** A model is saved in two files, and loading them gives the model of C97, every double
    through 15 digits. *)
Theorem C98_reload : forall expand decode f32 fs d root m, Uri.Spec.expands expand -> Uri.Spec.folder d -> Forall Uri.Spec.plain d ->
  Uri.Spec.simple root -> Forall Uri.Spec.plain root -> model_ok m -> of_model finite15 utf8_string m ->
  let filename := Uri.Spec.in_folder d (root ++ Uri.Model.lit ".gltf") in
  let bin := Uri.Spec.in_folder d (root ++ Uri.Model.lit ".bin") in
  exists fs' text j, save_file fs filename m = Ok fs' /\ fs' filename = Some text /\ document (map char text) j /\
    fs' bin = Some (List.concat (map bu_data (buffers m))) /\ (forall p, p <> filename -> p <> bin -> fs' p = fs p) /\
    forall pxs, Forall2 (picture fs' d decode) (images m) pxs ->
    exists f, (forall q, through15 q (f q)) /\
    load_file expand decode f32 fs' filename = Ok (after_model f f32 (string_of_list_ascii (root ++ Uri.Model.lit ".bin")) pxs m).
Proof.
  intros expand decode f32 fs d root m X FO PD SI PR M A filename bin.
  destruct (file_written expand decode f32 fs d root m X FO PD SI PR M) as (fs' & j & S & D & W & B & O & L & _). fold filename bin in S, W, B, O, L.
  destruct (model_held _ m j M A (name_utf8 root PR) D) as [H R].
  exists fs', (map code (gltf_text j)), (through_text f15 j). split; [exact S|]. split; [exact W|].
  split; [rewrite bytes_text; apply parse_exact, text_written; assumption|]. split; [exact B|]. split; [exact O|].
  intros pxs PX. exists f15. split; [apply f15_ok|]. apply L; assumption.
Qed.
(** A second time the model stays as it is. *)
Theorem C98_again : forall expand decode f32 fs d root m fs' pxs, Uri.Spec.expands expand -> Uri.Spec.folder d -> Forall Uri.Spec.plain d ->
  Uri.Spec.simple root -> Forall Uri.Spec.plain root -> model_ok m -> of_model finite15 utf8_string m -> to_single f32 ->
  let filename := Uri.Spec.in_folder d (root ++ Uri.Model.lit ".gltf") in
  save_file fs filename m = Ok fs' -> Forall2 (picture fs' d decode) (images m) pxs -> Forall (lens_ok f15 f32) (cameras m) ->
  exists m', load_file expand decode f32 fs' filename = Ok m' /\
  (of_model finite15 utf8_string m' -> exists fs'', save_file fs' filename m' = Ok fs'' /\
     (Forall2 (picture fs'' d decode) (images m') pxs -> load_file expand decode f32 fs'' filename = Ok m')).
Proof.
  intros expand decode f32 fs d root m fs' pxs X FO PD SI PR M A F filename S PX LE.
  destruct (file_written expand decode f32 fs d root m X FO PD SI PR M) as (fs1 & j & S1 & D & W & B & O & L & _). fold filename in S1, W, O, L.
  rewrite S in S1. injection S1 as <-. destruct (model_held _ m j M A (name_utf8 root PR) D) as [H R]. specialize (L H R pxs PX).
  set (bin := string_of_list_ascii (root ++ Uri.Model.lit ".bin")) in *. set (m' := after_model f15 f32 bin pxs m) in *. exists m'. split; [exact L|]. intros A'.
  assert (LP : List.length pxs = List.length (images m)) by (clear -PX; induction PX; cbn; congruence).
  destruct (Again.model_again f15 f32 (stable15 f32 F) bin pxs m M LE LP) as (M' & _ & E). fold m' in M', E.
  destruct (file_written expand decode f32 fs' d root m' X FO PD SI PR M') as (fs2 & j2 & S2 & D2 & _ & _ & _ & L2 & _). fold filename bin in S2, D2, L2.
  exists fs2. split; [exact S2|]. intros PX2. destruct (model_held _ m' j2 M' A' (name_utf8 root PR) D2) as [H2 R2]. rewrite (L2 H2 R2 pxs PX2), E. reflexivity.
Qed.

(** One bound of an accessor that becomes infinite, or the name of one node that is not
    UTF-8: the model is saved and cannot be loaded. *)
Theorem C98_unloadable : forall expand decode f32 fs d root m, Uri.Spec.expands expand -> Uri.Spec.folder d -> Forall Uri.Spec.plain d ->
  Uri.Spec.simple root -> Forall Uri.Spec.plain root -> model_ok m -> of_model (fun q => double q /\ (Qabs q < 2 ^ 1024)%Q) (fun _ => True) m ->
  (exists a q, In a (accessors m) /\ In q (ac_min a ++ ac_max a) /\ (1797693134862315 * 10 ^ 293 <= Qabs q)%Q) \/
  (exists n, In n (nodes m) /\ ~ utf8_string (no_name n)) ->
  let filename := Uri.Spec.in_folder d (root ++ Uri.Model.lit ".gltf") in
  exists fs', save_file fs filename m = Ok fs' /\ forall m', load_file expand decode f32 fs' filename <> Ok m'.
Proof.
  intros expand decode f32 fs d root m X FO PD SI PR M A BAD filename.
  destruct (file_written expand decode f32 fs d root m X FO PD SI PR M) as (fs' & j & S & D & _ & _ & _ & _ & N). fold filename in S, N.
  exists fs'. split; [exact S|]. intros m' L.
  assert (H : held j) by (apply fine_only_held; exact (fine_document _ _ (fun _ _ => Logic.I) _ m j M A Logic.I D)).
  assert (R := N H m' L). destruct (Whole.materials_text f15 _ (ok_materials _ M)) as (js & MJ & ML & _).
  destruct (Whole.document_contents (string_of_list_ascii (root ++ Uri.Model.lit ".bin")) m js MJ ML) as (D' & DD & C). rewrite D in DD. injection DD as <-. destruct C.
  destruct BAD as [(a & q & IA & IQ & B)|(n & IN & U)].
  - assert (RA : readable (s_accessor a)) by (apply (readable_member (map s_accessor (accessors m))); [apply (readable_find _ _ _ c_F1 R)|apply in_map, IA]).
    assert (K : forall k l, l <> [] -> find k (s_accessor a) = Some (array_of (doubles l)) -> In q l -> False).
    { intros k l NE F I. apply (readable_find _ _ _ F) in RA. apply (readable_member _ (JNum q)) in RA; [|apply in_map, I].
      cbn [readable] in RA. apply C98_range in RA. apply (Qlt_not_le _ _ RA B). }
    apply in_app_or in IQ. destruct IQ as [I|I].
    + apply (K "min"%string (ac_min a)); [intros E; rewrite E in I; exact I| |exact I]. assert (F : find "min" (s_accessor a) = Parts.numbers_json (doubles (ac_min a))) by (unfold s_accessor; cbv zeta; Parts.look). rewrite F. destruct (ac_min a); [destruct I|reflexivity].
    + apply (K "max"%string (ac_max a)); [intros E; rewrite E in I; exact I| |exact I]. assert (F : find "max" (s_accessor a) = Parts.numbers_json (doubles (ac_max a))) by (unfold s_accessor; cbv zeta; Parts.look). rewrite F. destruct (ac_max a); [destruct I|reflexivity].
  - assert (RN : readable (s_node n)).
    { unfold Parts.section_json in c_F11. destruct (nodes m) as [|n0 l] eqn:EN; [destruct IN|]. 
      apply (readable_member (map s_node (n0 :: l))); [apply (readable_find _ _ _ c_F11 R)|apply in_map, IN]. }
    apply U. unfold utf8_string. change (readable (JStr (no_name n))). assert (F : find "name" (s_node n) = Some (JStr (no_name n))) by (unfold s_node; cbv zeta; Parts.look). apply (readable_find _ _ _ F RN).
Qed.
(** The models of C98_reload: one with something of most kinds, and one of C98_unloadable. *)
Definition sample15 (low : Q) : model :=
  match Props.sample with
  | Model _ an bu vi ma me no te im sk sa _ sc li ex ds eu er at_ xs =>
    Model [Accessor 0 "points" 0 true 5126 3 VEC3 VNull [low; 0; 0]%Q [1; 1; 1 # 2]%Q] an bu vi ma me no te im sk sa
      [Camera "perspective" "front" (Perspective (5 # 4) 1 100 (1 # 8) [] VNull) new_orthographic [] VNull] sc li ex ds eu er at_ xs
  end.
Lemma sample15_ok : forall low, model_ok (sample15 low).
Proof.
  intros low. destruct Props.sample_ok. constructor; try assumption.
  - split; [discriminate|]. destruct ok_accessors as [_ F]. inversion F; subst. constructor; [assumption|constructor].
  - constructor; [|constructor]. right. split; [reflexivity|]. split; [reflexivity|left; reflexivity].
Qed.
Ltac parts N I HF HF1 HF2 S := repeat first [ progress cbn | match goal with |- _ /\ _ => split | |- Forall _ [] => constructor | |- Forall _ (_ :: _) => constructor | |- of_map _ _ [] => constructor
  | |- True => exact Logic.I | |- forall q, None = Some q -> _ => discriminate | |- forall q, Some _ = Some q -> _ => intros ? [= <-]
  | |- of_parameters _ _ _ => unfold of_parameters | |- of_parameter _ _ _ => unfold of_parameter | |- of_primitive _ _ _ => unfold of_primitive | |- of_ints _ _ => unfold of_ints | |- of_map _ _ _ => unfold of_map
  | |- of_orthographic _ _ _ => unfold of_orthographic | |- of_perspective _ _ _ => unfold of_perspective end
  | assumption | exact HF | exact HF1 | exact HF2 | apply I; lia | apply (N 0 0); [lia|lia|reflexivity|reflexivity] | apply S; reflexivity ].
Lemma sample15_parts : forall (num : Q -> Prop) (str : string -> Prop) low, (forall q, double q -> (Qabs q < 2 ^ 1000)%Q -> num q) -> num low ->
  (forall t, forallb (fun c => code c <? 128) (list_ascii_of_string t) = true -> str t) -> of_model num str (sample15 low).
Proof.
  intros num str low H L S.
  assert (N : forall n e q, Z.abs n < 2 ^ 53 -> -1074 <= e -> (q == inject_Z n * 2 ^ e)%Q -> (Qabs q < 2 ^ 1000)%Q -> num q)
    by (intros n e q A B C D; apply H; [exists n, e; auto|exact D]).
  assert (I : forall z, Z.abs z < 2 ^ 53 -> num (z # 1)).
  { intros z Z. apply (N z 0); [exact Z|lia|unfold Qeq; cbn; lia|]. apply Qabs_Qlt_condition. change (2 ^ 1000)%Q with ((2 ^ 1000)%Z # 1). assert (2 ^ 53 < 2 ^ 1000) by (apply Z.pow_lt_mono_r; lia).
    set (b := 2 ^ 1000) in *. clearbody b. unfold Qlt. cbn. lia. }
  assert (HF1 : num (5 # 4)%Q) by (apply (N 5 (-2)); [lia|lia|reflexivity|reflexivity]). assert (HF2 : num (1 # 8)%Q) by (apply (N 1 (-3)); [lia|lia|reflexivity|reflexivity]).
  assert (HF : num (1 # 2)%Q) by (apply (N 1 (-1)); [lia|lia|reflexivity|reflexivity]).
  constructor; cbn [sample15 Props.sample accessors animations buffers views materials meshes nodes textures images skins samplers cameras scenes lights extensions extensions_used extensions_required m_asset m_extras];
    parts N I HF HF1 HF2 S.
Qed.
Example C98_reload_example : model_ok (sample15 (-1 # 1)) /\ of_model finite15 utf8_string (sample15 (-1 # 1)).
Proof.
  assert (W : forall q, double q -> (Qabs q < 2 ^ 1000)%Q -> finite15 q).
  { intros q D L. split; [exact D|]. split; [eapply Qlt_trans; [exact L|reflexivity]|]. apply C98_range. eapply Qlt_trans; [exact L|vm_compute; reflexivity]. }
  split; [apply sample15_ok|]. apply sample15_parts; [exact W| |exact ascii_utf8]. apply W; [|vm_compute; reflexivity]. exists (-1), 0. split; [lia|]. split; [lia|reflexivity].
Qed.
Example C98_unloadable_example : let m := sample15 (inject_Z (1 - 2 ^ 53) * 2 ^ 971) in
  model_ok m /\ of_model (fun q => double q /\ (Qabs q < 2 ^ 1024)%Q) (fun _ => True) m /\
  exists a q, In a (accessors m) /\ In q (ac_min a ++ ac_max a) /\ (1797693134862315 * 10 ^ 293 <= Qabs q)%Q.
Proof.
  split; [apply sample15_ok|]. split.
  - apply sample15_parts; [|split; [|vm_compute; reflexivity]|auto].
    + intros q D L. split; [exact D|]. eapply Qlt_trans; [exact L|reflexivity].
    + exists (1 - 2 ^ 53), 971. split; [lia|]. split; [lia|reflexivity].
  - do 2 eexists. split; [left; reflexivity|]. split; [left; reflexivity|]. vm_compute. discriminate.
Qed.
Example C98_again_example : let m := sample15 (-1 # 1) in
  Forall (lens_ok f15 round32) (cameras m) /\ images m = [] /\ of_model finite15 utf8_string (after_model f15 round32 "a.bin" [] m).
Proof.
  assert (W : forall q, double q -> (Qabs q < 2 ^ 1000)%Q -> finite15 q).
  { intros q D L. split; [exact D|]. split; [eapply Qlt_trans; [exact L|reflexivity]|]. apply C98_range. eapply Qlt_trans; [exact L|vm_compute; reflexivity]. }
  assert (N : forall n e q, Z.abs n < 2 ^ 53 -> -1074 <= e -> (q == inject_Z n * 2 ^ e)%Q -> (Qabs q < 2 ^ 1000)%Q -> finite15 q)
    by (intros n e q A B C D; apply W; [exists n, e; auto|exact D]).
  assert (I : forall z, Z.abs z < 2 ^ 53 -> finite15 (z # 1)).
  { intros z Z. apply (N z 0); [exact Z|lia|unfold Qeq; cbn; lia|]. apply Qabs_Qlt_condition. change (2 ^ 1000)%Q with ((2 ^ 1000)%Z # 1). assert (2 ^ 53 < 2 ^ 1000) by (apply Z.pow_lt_mono_r; lia).
    set (b := 2 ^ 1000) in *. clearbody b. unfold Qlt. cbn. lia. }
  assert (HF1 : finite15 (5 # 4)%Q) by (apply (N 5 (-2)); [lia|lia|reflexivity|reflexivity]). assert (HF2 : finite15 (1 # 8)%Q) by (apply (N 1 (-3)); [lia|lia|reflexivity|reflexivity]).
  assert (HF : finite15 (1 # 2)%Q) by (apply (N 1 (-1)); [lia|lia|reflexivity|reflexivity]).
  split; [|split; [reflexivity|]].
  - constructor; [|constructor]. intros _. split; [vm_compute; reflexivity|right; vm_compute; reflexivity].
  - remember (after_model f15 round32 "a.bin" [] (sample15 (-1 # 1))) as m' eqn:E. vm_compute in E. subst m'. clear W.
    pose (S := ascii_utf8). constructor; cbn [accessors animations buffers views materials meshes nodes textures images skins samplers cameras scenes lights extensions extensions_used extensions_required m_asset m_extras];
    generalize dependent finite15; intros num N I HF1 HF2 HF; clearbody S; generalize dependent utf8_string; intros str S; parts N I HF HF1 HF2 S.
Qed.

Print Assumptions C98_exact.
Print Assumptions C98_first.
Print Assumptions C98_tail.
Print Assumptions C98_written.
Print Assumptions C98_twice.
Print Assumptions C98_short.
Print Assumptions C98_close.
Print Assumptions C98_float.
Print Assumptions C98_float_exists.
Print Assumptions C98_range.
Print Assumptions C98_same_refuted.
Print Assumptions C98_largest_refuted.
Print Assumptions C98_latin1_refuted.
Print Assumptions C98_reload.
Print Assumptions C98_again.
Print Assumptions C98_unloadable.
