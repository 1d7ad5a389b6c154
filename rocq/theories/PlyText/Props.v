(** C100: PLY files as text, with lists and any spacing. *)
From Coq Require Import List ZArith NArith Bool String Ascii Reals Lia.
From Verif.Base Require Import Py PyFacts Vec.
From Verif.Cloud Require Import Model.
From Verif.Ply Require Import Model Spec Proofs Props.
From Verif.PlyText Require Import Model Spec Header Data Whole.
Import ListNotations.
Local Open Scope string_scope.
Local Open Scope list_scope.

Definition point_at (of_f32 : f32 -> R) (t : f32 * f32 * f32) : vec := V (of_f32 (fst (fst t))) (of_f32 (snd (fst t))) (of_f32 (snd t)).
Lemma load_read : forall real of_f32 file ts, read_points_cpp (read_data_ascii real) file = Ok (flat_map triple_floats ts) -> ts <> [] ->
  load real of_f32 (Some file) = Ok (Cloud (map (point_at of_f32) ts) []).
Proof. intros real of_f32 file ts E NE. unfold load, load_ply. rewrite E. cbn [no_except bind]. rewrite columns_triples. destruct ts as [|t ts]; [congruence|]. reflexivity. Qed.

(** Binary files of either byte order, whose properties may be lists. *)
Theorem C100_binary : forall real of_f32 f pre e post hd dpre rows dpost extra, f <> Text ->
  e_name e = text "vertex" -> (forall x, In x (pre ++ post) -> e_name x <> text "vertex") -> has_xyz e -> no_collision (pre ++ e :: post) ->
  ply_header f (pre ++ e :: post) hd ->
  Forall2 (table (binary_value f)) pre dpre -> table (binary_value f) e rows -> Forall2 (table (binary_value f)) post dpost -> rows <> [] ->
  exists ts, Forall2 (holds (float_of (big f)) e) rows ts /\
    load real of_f32 (Some (hd ++ List.concat (List.concat (List.concat (dpre ++ rows :: dpost))) ++ extra)) = Ok (Cloud (map (point_at of_f32) ts) []).
Proof.
  intros real of_f32 f pre e post hd dpre rows dpost extra NT N NP H NC HD FP FR FQ NE.
  assert (X : exists ts, Forall2 (holds (float_of (big f)) e) rows ts).
  { destruct FR as (_ & FR). clear -FR N NP H NC. induction FR as [|row rows F FR (ts & IH)]; [exists []; constructor|].
    destruct (row_pay _ (binary_value f) (swap (big f)) e row (requested_here pre e post N NC) H F) as (x & y & z & _ & (Cx & Cy & Cz) & Bx & By & Bz).
    assert (W : forall k v, binary_value f (Property (text k) FLOAT32 None) v -> exists g, float_of (big f) v g). { intros k v B. inversion B as [? ? ? W|]; subst. inversion W as [| | | | | |L|]; subst. destruct (float_of_exists (big f) v) as (g & G & _); [congruence|]. exists g. exact G. }
    destruct (W _ _ Bx) as (gx & Gx). destruct (W _ _ By) as (gy & Gy). destruct (W _ _ Bz) as (gz & Gz). exists ((gx, gy, gz) :: ts). constructor; [|exact IH]. exists x, y, z. cbn [fst snd]. auto 10. }
  destruct X as (ts & G). exists ts. split; [exact G|]. apply load_read; [apply (read_binary_file pre e post N NP H NC (read_data_ascii real) f); assumption|]. intros ->. inversion G; subst. congruence.
Qed.

(** Text files: the words of the values with any white space, and anything after them. *)
Theorem C100_text : forall real of_f32 pre e post hd dpre rows dpost more data ts,
  e_name e = text "vertex" -> (forall x, In x (pre ++ post) -> e_name x <> text "vertex") -> has_xyz e -> no_collision (pre ++ e :: post) ->
  ply_header Text (pre ++ e :: post) hd ->
  Forall2 (table text_value) pre dpre -> table text_value e rows -> Forall2 (table text_value) post dpost -> rows <> [] ->
  spaced space (List.concat (List.concat (List.concat (dpre ++ rows :: dpost))) ++ more) data ->
  Forall2 (holds (reads real) e) rows ts ->
  load real of_f32 (Some (hd ++ data)) = Ok (Cloud (map (point_at of_f32) ts) []).
Proof.
  intros real of_f32 pre e post hd dpre rows dpost more data ts N NP H NC HD FP FR FQ NE SP G. apply load_read; [apply (read_text_file pre e post N NP H NC real hd dpre rows dpost more); assumption|]. intros ->. inversion G; subst. congruence.
Qed.

(** A text file that is cut short: the coordinates are memory that was not initialised. *)
Definition single (p : property) : Prop := p_list p = None.
Lemma skip_failed : forall s, fail s = true -> fail (skip_word s) = true.
Proof. intros s H. unfold skip_word, sentry. rewrite H, orb_true_r. reflexivity. Qed.
Lemma skip_end : forall s, at_words [] s -> fail (skip_word s) = true.
Proof.
  intros s (F & S & _). unfold skip_word, sentry. rewrite F. destruct (eof s); [reflexivity|]. cbn [orb]. rewrite (spaced_none space (fun c X => X) _ S). reflexivity.
Qed.
Lemma first_short : forall real keys l, Forall (fun ep => single (snd ep)) l -> forall ws t s, (List.length ws < List.length l)%nat -> at_words ws s \/ fail s = true ->
  exists n s', foldM (tstep1 real keys) (t, s) l = Ok (n, s') /\ fail s' = true.
Proof.
  intros real keys l F. induction F as [|ep l P F IH]; intros ws t s L A; [cbn in L; lia|]. cbn [foldM].
  assert (ST : exists n, tstep1 real keys (t, s) ep = Ok (n, skip_word s)) by (unfold tstep1, skip_property_ascii; cbn [snd]; rewrite P; eexists; reflexivity). destruct ST as (n & ->). cbn [bind].
  assert (B : fail (skip_word s) = true -> exists n' s', foldM (tstep1 real keys) (n, skip_word s) l = Ok (n', s') /\ fail s' = true).
  { intro X. clear -F X. revert n s X. induction F as [|ep l P F IH]; intros n s X; [exists n, (skip_word s); split; [reflexivity|exact X]|]. cbn [foldM].
    assert (ST : exists m, tstep1 real keys (n, skip_word s) ep = Ok (m, skip_word (skip_word s))) by (unfold tstep1, skip_property_ascii; cbn [snd]; rewrite P; eexists; reflexivity). destruct ST as (m & ->). cbn [bind]. apply IH, skip_failed, X. }
  destruct A as [A|A]; [|apply B, skip_failed, A]. destruct ws as [|w ws]; [apply B, skip_end, A|]. apply (IH ws); [cbn in L; lia|]. left. exact (skip_word_at w ws s A).
Qed.
Lemma second_failed : forall real cap keys l, Forall (fun ep => single (snd ep) /\ p_type (snd ep) <> INVALID) l -> (exists ep, In ep l /\ requested keys (fst ep) (snd ep) = true) -> forall out s, fail s = true ->
  foldM (tstep2 real cap keys) (out, s) l = Err Undefined.
Proof.
  intros real cap keys l F. induction F as [|ep l (P & T) F IH]; intros (q & I & RQ) out s X; [destruct I|]. cbn [foldM]. destruct (requested keys (fst ep) (snd ep)) eqn:E.
  - assert (ST : tstep2 real cap keys (out, s) ep = Err Undefined); [|rewrite ST; reflexivity]. unfold tstep2. rewrite E, P. cbn [snd]. unfold read_property_ascii, sentry. rewrite X, orb_true_r. destruct (p_type (snd ep)); try congruence; reflexivity.
  - assert (ST : tstep2 real cap keys (out, s) ep = Ok (out, skip_word s)) by (unfold tstep2; rewrite E; unfold skip_property_ascii; cbn [snd]; rewrite P; reflexivity). rewrite ST. cbn [bind]. apply IH; [|apply skip_failed, X]. exists q. split; [|exact RQ]. destruct I as [-> |I]; [congruence|exact I].
Qed.
Theorem C100_truncated_refuted : forall real of_f32 e hd ws data, e_name e = text "vertex" -> has_xyz e -> no_collision [e] -> Forall single (e_properties e) -> ply_header Text [e] hd ->
  spaced space ws data -> (N.of_nat (List.length ws) < e_size e * N.of_nat (List.length (e_properties e)))%N ->
  load real of_f32 (Some (hd ++ data)) = Err Undefined.
Proof.
  intros real of_f32 e hd ws data N H NC SG HD SP L. unfold load, load_ply, read_points_cpp. rewrite (parse_ply Text _ hd _ HD). cbn [bind elements is_binary is_big_endian].
  rewrite (request_ok [] e [] N ltac:(intros x []) H : request_properties [e] "vertex" ["x"; "y"; "z"] = _). cbn [bind binary]. unfold read_data_ascii. cbn [rest good negb]. rewrite tfirst_flat.
  assert (FL : flat [e] = List.concat (repeat (map (pair e) (e_properties e)) (N.to_nat (e_size e)))) by (unfold flat; cbn [flat_map]; apply app_nil_r).
  assert (FS : Forall (fun ep : element * property => single (snd ep) /\ p_type (snd ep) <> INVALID) (flat [e])).
  { apply Forall_forall. intros ep I. destruct (in_flat _ _ I) as ([<- |[]] & IP). split; [exact (proj1 (Forall_forall _ _) SG _ IP)|]. apply (header_types Text _ hd HD e); [left; reflexivity|exact IP]. }
  assert (LEN : List.length (flat [e]) = (N.to_nat (e_size e) * List.length (e_properties e))%nat).
  { rewrite FL. generalize (N.to_nat (e_size e)). intro m. induction m as [|m IH]; [reflexivity|]. cbn [repeat List.concat]. rewrite app_length, map_length, IH. reflexivity. }
  destruct (first_short real xyz_keys (flat [e]) (Forall_impl _ (fun a X => proj1 X) FS) ws 0%nat (Input data false false)) as (n & s' & E & X); [rewrite LEN; lia|left; split; [reflexivity|split; [exact SP|reflexivity]]|]. rewrite E. cbn [bind]. rewrite X, tsecond_flat.
  rewrite second_failed; [reflexivity|exact FS| |exact X]. destruct (N.to_nat (e_size e)) as [|m] eqn:SZ; [lia|]. exists (e, Property (text "x") FLOAT32 None).
  assert (IP : In (Property (text "x") FLOAT32 None) (e_properties e)). { assert (J : In (Property (text "x") FLOAT32 None) (filter is_xyz (e_properties e))) by (unfold has_xyz in H; rewrite H; left; reflexivity). apply filter_In in J. apply J. }
  split; [|cbn [fst snd]; rewrite (requested_here [] e [] N NC _ IP); reflexivity]. rewrite FL. cbn [repeat List.concat]. apply in_or_app. left. apply in_map, IP.
Qed.

(** * Cutting a concrete text into words *)
Fixpoint split (l : bytes) : list bytes :=
  match l with
  | [] => []
  | c :: r =>
      if is_space c then split r
      else match r with
           | [] => [[c]]
           | d :: _ => if is_space d then [c] :: split r else match split r with w :: ws => (c :: w) :: ws | [] => [[c]] end
           end
  end.
Lemma is_space_true : forall c, is_space c = true -> space c.
Proof. intros c H. unfold is_space in H. apply orb_true_iff in H. destruct H as [H|H]; [left; apply N.eqb_eq, H|right]. apply andb_true_iff in H. destruct H as (A & B). split; apply N.leb_le; assumption. Qed.
Lemma not_space_word : forall c, is_space c = false -> (N_of_ascii c <> 32 /\ ~ (9 <= N_of_ascii c <= 13))%N.
Proof. intros c H. split; [intro E; rewrite (space_is c (or_introl E)) in H; discriminate H|intro E; rewrite (space_is c (or_intror E)) in H; discriminate H]. Qed.
Lemma spaced_split : forall (B : ascii -> Prop) l, (forall c, B c -> space c) -> Forall (fun c => is_space c = true -> B c) l -> spaced B (split l) l.
Proof.
  intros B l BS F. induction F as [|c l C F IH]; [constructor; constructor|]. cbn [split]. destruct (is_space c) eqn:SC.
  - inversion IH as [s G E1|s w ws r G W S E]; subst; [constructor; constructor; auto|]. apply (spaced_word B (c :: s)); auto.
  - assert (WC : word_ok [c]) by (split; [discriminate|constructor; [apply not_space_word, SC|constructor]]). destruct l as [|d l]; [exact (spaced_word B [] [c] [] [] (Forall_nil _) WC (spaced_end B [] (Forall_nil _)) (or_introl eq_refl))|].
    destruct (is_space d) eqn:SD.
    + apply (spaced_word B [] [c] _ (d :: l)); [constructor|exact WC|exact IH|]. right. exists d, l. split; [reflexivity|]. inversion F; subst. auto.
    + generalize dependent (split (d :: l)). intros q IH. destruct q as [|w ws]; inversion IH as [s G E1 E2|s w' ws' r G (WN & WF) S E E1 E2]; subst.
      * exfalso. inversion G as [|? ? D _]; subst. rewrite (space_is d (BS d D)) in SD. discriminate SD.
      * destruct s as [|d' s]; [|exfalso; cbn in E2; injection E2 as -> E2; inversion G as [|? ? D _]; subst; rewrite (space_is d (BS d D)) in SD; discriminate SD].
        cbn [app]. apply (spaced_word B [] (c :: w) ws r); [constructor|split; [discriminate|constructor; [apply not_space_word, SC|exact WF]]|exact S|exact E].
Qed.
Lemma line_split : forall l, Forall (fun c => c <> newline) l -> line (split l) (l ++ [newline]).
Proof.
  intros l F. exists l. split; [|reflexivity]. apply spaced_split; [intros c (H & _); exact H|]. eapply Forall_impl; [|exact F]. intros c N S. split; [apply is_space_true, S|exact N].
Qed.

(** * A text file of another program *)
Definition cr : bytes := ["013"%char].
Definition sample_header : list bytes :=
  [text "ply" ++ cr; text "format ascii 1.0" ++ cr; text "comment made by hand" ++ cr; text "element vertex 2" ++ cr; text "property float x" ++ cr; text "property list uchar int seen_by" ++ cr;
   text "property  float  y" ++ cr; cr; text "property float z" ++ cr; text "element face 1" ++ cr; text "property list uchar int vertex_indices" ++ cr; text "end_header" ++ cr].
Definition sample_vertex : element := Element (text "vertex") 2 [Property (text "x") FLOAT32 None; Property (text "seen_by") INT32 (Some UINT8); Property (text "y") FLOAT32 None; Property (text "z") FLOAT32 None].
Definition sample_face : element := Element (text "face") 1 [Property (text "vertex_indices") INT32 (Some UINT8)].
Definition sample_data : bytes := text "1 2 7 8 2.5 -3e1" ++ cr ++ [newline] ++ text "  .5 0 +1. 2" ++ [newline] ++ text "3 0 1 0".
Definition unlines' (l : list bytes) : bytes := List.concat (map (fun b => b ++ [newline]) l).
Lemma lines_split : forall ls l, ls = map split l -> Forall (Forall (fun c => c <> newline)) l -> Forall2 line ls (map (fun b => b ++ [newline]) l).
Proof. intros ls l -> F. induction F as [|b l H F IH]; cbn [map]; constructor; [apply line_split, H|exact IH]. Qed.
Ltac word_tac := apply word_bool; [discriminate|reflexivity].
Ltac number_tac := split; [discriminate|split; [repeat constructor; vm_compute; discriminate|reflexivity]].
Lemma sample_header_ok : ply_header Text [sample_vertex; sample_face] (unlines' sample_header).
Proof.
  exists (map split (firstn 9 (skipn 2 sample_header))), (map (fun b => b ++ [newline]) sample_header), (text "1.0"). split; [|split; [word_tac|split; [|reflexivity]]].
  - change (map split (firstn 9 (skipn 2 sample_header))) with
      (map text ["comment"; "made"; "by"; "hand"] :: [text "element"; text "vertex"; text "2"] ::
       ([map text ["property"; "float"; "x"]; map text ["property"; "list"; "uchar"; "int"; "seen_by"]; map text ["property"; "float"; "y"]; []; map text ["property"; "float"; "z"]] ++
        ([text "element"; text "face"; text "1"] :: [map text ["property"; "list"; "uchar"; "int"; "vertex_indices"]] ++ []))).
    apply el_noise; [left; reflexivity|]. apply (el_more sample_vertex); [word_tac|reflexivity|number_tac| |].
    + apply pl_more; [apply (pw_one _ FLOAT32 "float"); [constructor|word_tac]|]. apply pl_more; [apply (pw_list _ INT32 "int" UINT8 "uchar"); [constructor|constructor|word_tac]|]. apply pl_more; [apply (pw_one _ FLOAT32 "float"); [constructor|word_tac]|].
      apply pl_noise; [exact Logic.I|]. apply pl_more; [apply (pw_one _ FLOAT32 "float"); [constructor|word_tac]|]. apply pl_none.
    + apply (el_more sample_face); [word_tac|reflexivity|number_tac| |apply el_none]. apply pl_more; [apply (pw_list _ INT32 "int" UINT8 "uchar"); [constructor|constructor|word_tac]|apply pl_none].
  - apply lines_split; [reflexivity|]. repeat constructor; discriminate.
Qed.
Definition sample_rows : list (list (list bytes)) := [[[text "1"]; [text "2"; text "7"; text "8"]; [text "2.5"]; [text "-3e1"]]; [[text ".5"]; [text "0"]; [text "+1."]; [text "2"]]].
Lemma sample_collision : no_collision [sample_vertex; sample_face].
Proof.
  intros e p k IE IP IK EQ. destruct IE as [<- |[<- |[]]]; cbn [e_name e_properties sample_vertex sample_face] in *.
  - destruct IP as [<- |[<- |[<- |[<- |[]]]]]; destruct IK as [<- |[<- |[<- |[]]]]; try (split; reflexivity); exfalso; vm_compute in EQ; discriminate EQ.
  - destruct IP as [<- |[]]; destruct IK as [<- |[<- |[<- |[]]]]; exfalso; vm_compute in EQ; discriminate EQ.
Qed.
Lemma real_case : forall s a p b x, sign s -> digits a -> digits b -> (p = text "." \/ p = [] /\ b = []) -> a ++ b <> [] -> exponent x -> forall w, w = s ++ a ++ p ++ b ++ x -> real_text w.
Proof. intros. subst. constructor; assumption. Qed.
Ltac digits_tac := repeat constructor; vm_compute; discriminate.
Ltac real_tac s a p b x := apply (real_case s a p b x); [cbn; auto|digits_tac|digits_tac|first [left; reflexivity|right; split; reflexivity]|discriminate|left; reflexivity|reflexivity].
Ltac list_tac := apply tv_list; [exact wh_2|number_tac|reflexivity|repeat (apply Forall_cons; [word_tac|]); apply Forall_nil].
(** The file means two points, whatever strtof makes of the words. *)
Example C100_text_case : forall real of_f32 (f : nat -> f32),
  (forall i w, In (i, w) [(0%nat, "1"); (1%nat, "2.5"); (2%nat, "-3e1"); (3%nat, ".5"); (4%nat, "+1."); (5%nat, "2")] -> real FLOAT32 (text w) = (stored (f i), true)) ->
  load real of_f32 (Some (unlines' sample_header ++ sample_data)) =
  Ok (Cloud [V (of_f32 (f 0%nat)) (of_f32 (f 1%nat)) (of_f32 (f 2%nat)); V (of_f32 (f 3%nat)) (of_f32 (f 4%nat)) (of_f32 (f 5%nat))] []).
Proof.
  intros real of_f32 f RL.
  apply (C100_text real of_f32 [] sample_vertex [sample_face] _ [] sample_rows [[[[text "3"; text "0"; text "1"; text "0"]]]] [] _ [(f 0, f 1, f 2); (f 3, f 4, f 5)]%nat).
  - reflexivity.
  - intros x [<- |[]]. discriminate.
  - reflexivity.
  - exact sample_collision.
  - exact sample_header_ok.
  - constructor.
  - split; [reflexivity|]. repeat apply Forall_cons; [| |apply Forall_nil]; (repeat apply Forall2_cons; [| | | |apply Forall2_nil]); first [apply tv_one; word_tac|list_tac].
  - apply Forall2_cons; [|apply Forall2_nil]. split; [reflexivity|]. apply Forall_cons; [|apply Forall_nil]. apply Forall2_cons; [|apply Forall2_nil]. list_tac.
  - discriminate.
  - change (List.concat (List.concat (List.concat ([] ++ sample_rows :: [[[[text "3"; text "0"; text "1"; text "0"]]]]))) ++ []) with (split sample_data). apply spaced_split; [trivial|]. apply Forall_forall. intros c _ H. apply is_space_true, H.
  - assert (RR : forall i w, In (i, w) [(0%nat, "1"); (1%nat, "2.5"); (2%nat, "-3e1"); (3%nat, ".5"); (4%nat, "+1."); (5%nat, "2")] -> real_text (text w) -> reads real [text w] (f i)) by (intros i w I T; exists (text w); split; [reflexivity|split; [exact T|apply RL, I]]).
    assert (C : forall (row : list (list bytes)) k v i, nth_error (e_properties sample_vertex) i = Some (Property (text k) FLOAT32 None) -> nth_error row i = Some v -> cell sample_vertex row k v) by (intros row k v i A B; exists i; eexists; split; [exact A|split; [reflexivity|exact B]]).
    assert (HO : forall row a b c i j k, nth_error row 0 = Some [text a] -> nth_error row 2 = Some [text b] -> nth_error row 3 = Some [text c] ->
      In (i, a) [(0%nat, "1"); (1%nat, "2.5"); (2%nat, "-3e1"); (3%nat, ".5"); (4%nat, "+1."); (5%nat, "2")] -> In (j, b) [(0%nat, "1"); (1%nat, "2.5"); (2%nat, "-3e1"); (3%nat, ".5"); (4%nat, "+1."); (5%nat, "2")] -> In (k, c) [(0%nat, "1"); (1%nat, "2.5"); (2%nat, "-3e1"); (3%nat, ".5"); (4%nat, "+1."); (5%nat, "2")] ->
      real_text (text a) -> real_text (text b) -> real_text (text c) -> holds (reads real) sample_vertex row (f i, f j, f k)).
    { intros row a b c i j k A B D IA IB ID TA TB TD. exists [text a], [text b], [text c]. cbn [fst snd]. split; [apply (C _ _ _ 0%nat); [reflexivity|exact A]|]. split; [apply RR; assumption|]. split; [apply (C _ _ _ 2%nat); [reflexivity|exact B]|]. split; [apply RR; assumption|]. split; [apply (C _ _ _ 3%nat); [reflexivity|exact D]|]. apply RR; assumption. }
    apply Forall2_cons; [apply (HO _ "1" "2.5" "-3e1"); try reflexivity; try (cbn; auto 10; fail)|apply Forall2_cons; [apply (HO _ ".5" "+1." "2"); try reflexivity; try (cbn; auto 10; fail)|apply Forall2_nil]].
    + real_tac (@nil ascii) (text "1") (@nil ascii) (@nil ascii) (@nil ascii).
    + real_tac (@nil ascii) (text "2") (text ".") (text "5") (@nil ascii).
    + apply (real_case (text "-") (text "3") [] [] (text "e1")); [cbn; auto|digits_tac|digits_tac|right; split; reflexivity|discriminate| |reflexivity]. right. exists (text "e"), [], (text "1"). split; [reflexivity|]. split; [left; reflexivity|]. split; [left; reflexivity|]. split; [digits_tac|discriminate].
    + real_tac (@nil ascii) (@nil ascii) (text ".") (text "5") (@nil ascii).
    + real_tac (text "+") (text "1") (text ".") (@nil ascii) (@nil ascii).
    + real_tac (@nil ascii) (text "2") (@nil ascii) (@nil ascii) (@nil ascii).
Qed.

(** A binary file with lists, big endian. *)
Example C100_binary_case : forall real of_f32, load real of_f32 (Some (unlines' (map (fun l => if same l "format ascii 1.0" then text "format binary_big_endian 1.0" else l) (map (fun l => removelast l) sample_header)) ++
    text "ABCD" ++ ["002"%char] ++ text "........" ++ text "EFGHIJKL" ++ text "abcd" ++ ["000"%char] ++ text "efghijkl" ++ ["001"%char] ++ text "....")) =
  Ok (Cloud [V (of_f32 ("D", "C", "B", "A")%char) (of_f32 ("H", "G", "F", "E")%char) (of_f32 ("L", "K", "J", "I")%char); V (of_f32 ("d", "c", "b", "a")%char) (of_f32 ("h", "g", "f", "e")%char) (of_f32 ("l", "k", "j", "i")%char)] []).
Proof. intros. vm_compute. reflexivity. Qed.

(** * What goes wrong *)
Definition simple_header (f T : string) : bytes := unlines' (map text ["ply"; ("format " ++ f ++ " 1.0")%string; "element vertex 1"; ("property " ++ T ++ " x")%string; ("property " ++ T ++ " y")%string; ("property " ++ T ++ " z")%string; "end_header"]).
Definition simple_vertex (t : ptype) : element := Element (text "vertex") 1 (map (fun k => Property (text k) t None) ["x"; "y"; "z"]).
Lemma simple_header_ok : forall f t T, spelled t T -> ply_header f [simple_vertex t] (simple_header (format_word f) T).
Proof.
  intros f t T S. eexists _, (map (fun b => b ++ [newline]) (map text ["ply"; ("format " ++ format_word f ++ " 1.0")%string; "element vertex 1"; ("property " ++ T ++ " x")%string; ("property " ++ T ++ " y")%string; ("property " ++ T ++ " z")%string; "end_header"])), (text "1.0"). split; [|split; [word_tac|split; [|reflexivity]]].
  - rewrite <- (app_nil_r (_ :: _)). apply (el_more (simple_vertex t) (text "1")); [word_tac|reflexivity|number_tac| |apply el_none]. do 3 (apply pl_more; [apply (pw_one _ t T); [exact S|word_tac]|]). apply pl_none.
  - apply lines_split; [destruct f, S; reflexivity|]. destruct f, S; repeat constructor; discriminate.
Qed.
(** Coordinates of a whole number type: the bits of the number are taken for a float, in
    text and in binary. *)
Theorem C100_integer_refuted : forall real of_f32,
  ply_header Text [simple_vertex INT32] (simple_header "ascii" "int") /\ ply_header Little [simple_vertex INT32] (simple_header "binary_little_endian" "int") /\
  load real of_f32 (Some (simple_header "ascii" "int" ++ text "1 2 3")) = Ok (Cloud [V (of_f32 ("001", zero, zero, zero)%char) (of_f32 ("002", zero, zero, zero)%char) (of_f32 ("003", zero, zero, zero)%char)] []) /\
  forall a b c, load real of_f32 (Some (simple_header "binary_little_endian" "int" ++ stored a ++ stored b ++ stored c)) = Ok (Cloud [V (of_f32 a) (of_f32 b) (of_f32 c)] []).
Proof.
  intros real of_f32. split; [apply (simple_header_ok Text INT32 "int"); constructor|]. split; [apply (simple_header_ok Little INT32 "int"); constructor|]. split; [vm_compute; reflexivity|]. intros [[[a1 a2] a3] a4] [[[b1 b2] b3] b4] [[[c1 c2] c3] c4]. vm_compute. reflexivity.
Qed.
(** nan and inf cannot be read: what follows is memory that was not initialised. *)
Theorem C100_nan_refuted : forall real of_f32 w, In w ["nan"; "inf"; "-nan"; "-inf"] -> load real of_f32 (Some (simple_header "ascii" "float" ++ text (w ++ " 2 3"))) = Err Undefined.
Proof. intros real of_f32 w [<- |[<- |[<- |[<- |[]]]]]; vm_compute; reflexivity. Qed.
(** A word that is no number is read as two coordinates. *)
Theorem C100_glued_refuted : forall real of_f32 v a b c, In v [".2"; "-2"; "+2"] -> real FLOAT32 (text "1.5") = (stored a, true) -> real FLOAT32 (text v) = (stored b, true) -> real FLOAT32 (text "3") = (stored c, true) ->
  load real of_f32 (Some (simple_header "ascii" "float" ++ text ("1.5" ++ v ++ " 3 4"))) = Ok (Cloud [V (of_f32 a) (of_f32 b) (of_f32 c)] []) /\ ~ real_text (text ("1.5" ++ v)).
Proof.
  intros real of_f32 v a b c V A B C. split.
  - destruct a as [[[a1 a2] a3] a4], b as [[[b1 b2] b3] b4], c as [[[c1 c2] c3] c4]. unfold load, load_ply, read_points_cpp.
    rewrite (parse_ply Text _ _ _ (simple_header_ok Text FLOAT32 "float" ltac:(constructor)) : parse_header (simple_header "ascii" "float" ++ text ("1.5" ++ v ++ " 3 4")) = _). cbn [bind elements is_binary is_big_endian binary].
    replace (request_properties [simple_vertex FLOAT32] "vertex" ["x"; "y"; "z"]) with (@Ok (list N * N) (xyz_keys, 1%N)) by (vm_compute; reflexivity). cbn [bind]. unfold read_data_ascii. cbn [rest good negb]. rewrite tfirst_flat.
    replace (foldM (tstep1 real xyz_keys) (0%nat, Input (text ("1.5" ++ v ++ " 3 4")) false false) (flat [simple_vertex FLOAT32])) with (@Ok (nat * input) (12%nat, Input [] true false)) by (destruct V as [<- |[<- |[<- |[]]]]; vm_compute; reflexivity). cbn [bind fail]. rewrite tsecond_flat.
    replace (flat [simple_vertex FLOAT32]) with (map (fun k => (simple_vertex FLOAT32, Property (text k) FLOAT32 None)) ["x"; "y"; "z"]) by reflexivity. cbn [map foldM].
    assert (RQ : forall k, In k ["x"; "y"; "z"] -> requested xyz_keys (simple_vertex FLOAT32) (Property (text k) FLOAT32 None) = true) by (intros k [<- |[<- |[<- |[]]]]; vm_compute; reflexivity).
    assert (ST : forall k out l w r g, In k ["x"; "y"; "z"] -> sentry (Input l false false) = Input (w ++ r) false false -> extract_float (w ++ r) = (w, r, true) -> real FLOAT32 w = (stored g, true) -> (List.length out + 4 <= 12)%nat ->
      tstep2 real 12 xyz_keys (out, Input l false false) (simple_vertex FLOAT32, Property (text k) FLOAT32 None) = Ok (out ++ stored g, Input r (null r) false)).
    { intros k out l w r g I SE EX RL L. unfold tstep2. cbn [fst snd p_list p_type]. rewrite (RQ k I). unfold read_property_ascii. rewrite SE. cbn [fail left int_range]. rewrite EX, RL. cbn [bind]. rewrite put_ok by (destruct g as [[[? ?] ?] ?]; exact L). reflexivity. }
    rewrite (ST "x" [] (text ("1.5" ++ v ++ " 3 4")) (text "1.5") (text (v ++ " 3 4")) _ ltac:(cbn; auto) eq_refl ltac:(destruct V as [<- |[<- |[<- |[]]]]; reflexivity) A) by (cbn; lia). cbn [bind]. cbn [null text list_ascii_of_string].
    assert (N : null (text (v ++ " 3 4")) = false) by (destruct V as [<- |[<- |[<- |[]]]]; reflexivity). try rewrite N.
    rewrite (ST "y" _ (text (v ++ " 3 4")) (text v) (text " 3 4") _ ltac:(cbn; auto) ltac:(destruct V as [<- |[<- |[<- |[]]]]; reflexivity) ltac:(destruct V as [<- |[<- |[<- |[]]]]; reflexivity) B) by (cbn; lia). cbn [bind]. cbn [null text list_ascii_of_string].
    rewrite (ST "z" _ (text " 3 4") (text "3") (text " 4") _ ltac:(cbn; auto) eq_refl eq_refl C) by (cbn; lia). reflexivity.
  - intro H. assert (E := extract_real (text ("1.5" ++ v)) [] H (or_introl eq_refl)). destruct V as [<- |[<- |[<- |[]]]]; vm_compute in E; discriminate E.
Qed.

Print Assumptions C100_binary.
Print Assumptions C100_text.
Print Assumptions C100_truncated_refuted.
Print Assumptions C100_integer_refuted.
Print Assumptions C100_nan_refuted.
Print Assumptions C100_glued_refuted.
