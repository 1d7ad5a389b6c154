(** Whole files. *)
From Coq Require Import List ZArith NArith Bool String Ascii Reals Lia.
From Verif.Base Require Import Py PyFacts Vec.
From Verif.Ply Require Import Model Spec Proofs.
From Verif.PlyText Require Import Model Spec Header Data.
Import ListNotations.
Local Open Scope string_scope.
Local Open Scope list_scope.

Lemma unique_name : forall ps, NoDup (map p_name (filter is_xyz ps)) -> forall i j p q, nth_error ps i = Some p -> nth_error ps j = Some q -> is_xyz p = true -> p_name p = p_name q -> i = j.
Proof.
  assert (X : forall p q, is_xyz p = true -> p_name p = p_name q -> is_xyz q = true) by (intros p q H E; unfold is_xyz in *; rewrite <- E; exact H).
  assert (Y : forall ps i q, nth_error ps i = Some q -> is_xyz q = true -> In (p_name q) (map p_name (filter is_xyz ps))) by (intros ps i q E H; apply in_map, filter_In; split; [eapply nth_error_In; exact E|exact H]).
  intro ps. induction ps as [|a ps IH]; intros N i j p q A B P E; [destruct i; discriminate A|]. cbn [filter] in N.
  assert (N' : NoDup (map p_name (filter is_xyz ps))) by (destruct (is_xyz a); [inversion N; assumption|exact N]).
  destruct i as [|i], j as [|j]; cbn [nth_error] in A, B; [reflexivity| | |f_equal; eapply IH; eassumption].
  - injection A as ->. rewrite P in N. exfalso. inversion N as [|? ? NI _]; subst. apply NI. rewrite E. exact (Y ps j q B (X p q P E)).
  - injection B as ->. rewrite (X p q P E) in N. exfalso. inversion N as [|? ? NI _]; subst. apply NI. rewrite <- E. exact (Y ps i p A P).
Qed.
Lemma cell_unique : forall V e (row : list V) k a b, has_xyz e -> In k ["x"; "y"; "z"] -> cell e row k a -> cell e row k b -> a = b.
Proof.
  intros V e row k a b H IK (i & p & P1 & P2 & P3) (j & q & Q1 & Q2 & Q3). assert (i = j); [|subst j; congruence].
  apply (unique_name (e_properties e)) with (p := p) (q := q); try assumption; [|apply is_xyz_spec; eauto|congruence]. unfold has_xyz in H. rewrite H. cbn. repeat constructor; cbn; intuition discriminate.
Qed.

Section Table.
  Variable V : Type.
  Variable R : property -> V -> Prop.
  Lemma table_row : forall e row, Forall2 R (e_properties e) row -> Forall2 (fun (ep : element * property) v => R (snd ep) v) (map (pair e) (e_properties e)) row.
  Proof. intros e row H. induction H as [|p v ps row W F IH]; cbn [map]; constructor; assumption. Qed.
  Lemma table_rows : forall e rows, Forall (fun row => Forall2 R (e_properties e) row) rows -> Forall2 (fun (ep : element * property) v => R (snd ep) v) (List.concat (repeat (map (pair e) (e_properties e)) (List.length rows))) (List.concat rows).
  Proof. intros e rows F. induction F as [|row rows H F IH]; cbn [List.length repeat List.concat]; [constructor|]. apply Forall2_concat_app; [apply table_row, H|exact IH]. Qed.
  Lemma tables_flat : forall els d, Forall2 (table R) els d -> Forall2 (fun (ep : element * property) v => R (snd ep) v) (flat els) (List.concat (List.concat d)).
  Proof.
    intros els d F. induction F as [|e rows els d (L & H) F IH]; cbn [flat flat_map List.concat]; [constructor|]. rewrite concat_app. apply Forall2_concat_app; [|exact IH]. rewrite <- L, Nat2N.id. apply table_rows, H.
  Qed.

  Variable pay : V -> bytes.
  (** The three values of a row. *)
  Lemma row_pay : forall e row, (forall p, In p (e_properties e) -> requested xyz_keys e p = is_xyz p) -> has_xyz e -> Forall2 R (e_properties e) row ->
    exists x y z, flat_map (taken_by pay xyz_keys) (combine (map (pair e) (e_properties e)) row) = pay x ++ pay y ++ pay z /\
      (cell e row "x" x /\ cell e row "y" y /\ cell e row "z" z) /\
      (R (Property (text "x") FLOAT32 None) x /\ R (Property (text "y") FLOAT32 None) y /\ R (Property (text "z") FLOAT32 None) z).
  Proof.
    intros e row RQ H F.
    assert (T : forall ps row, (forall p, In p ps -> requested xyz_keys e p = is_xyz p) -> flat_map (taken_by pay xyz_keys) (combine (map (pair e) ps) row) = flat_map (fun q => pay (snd q)) (filter (fun q => is_xyz (fst q)) (combine ps row))).
    { intro ps. induction ps as [|p ps IH]; intros [|v rw] Q; try reflexivity. cbn [map combine flat_map filter]. rewrite IH by (intros; apply Q; right; assumption). unfold taken_by at 1. cbn [fst snd]. rewrite Q by (left; reflexivity). destruct (is_xyz p); reflexivity. }
    rewrite (T _ _ RQ). set (qs := filter (fun q => is_xyz (fst q)) (combine (e_properties e) row)).
    assert (M : map fst qs = filter is_xyz (e_properties e)).
    { unfold qs. clear -F. induction F as [|p v ps rw _ F IH]; [reflexivity|]. cbn [combine filter fst]. destruct (is_xyz p); cbn [map fst]; rewrite IH; reflexivity. }
    assert (Q : forall p v, In (p, v) qs -> R p v /\ exists i, nth_error (e_properties e) i = Some p /\ nth_error row i = Some v).
    { intros p v I. apply filter_In in I. destruct I as (I & _). clear -F I. induction F as [|q g ps rw W F IH]; [destruct I|]. destruct I as [E|I].
      - injection E as -> ->. split; [exact W|]. exists 0%nat. split; reflexivity.
      - destruct (IH I) as (L & i & A & B). split; [exact L|]. exists (S i). split; assumption. }
    rewrite H in M. destruct qs as [|[px x] [|[py y] [|[pz z] [|]]]]; try discriminate M. cbn [map fst] in M. injection M as -> -> ->.
    destruct (Q _ x ltac:(left; reflexivity)) as (Rx & ix & Ax & Bx). destruct (Q _ y ltac:(right; left; reflexivity)) as (Ry & iy & Ay & By). destruct (Q _ z ltac:(right; right; left; reflexivity)) as (Rz & iz & Az & Bz).
    exists x, y, z. split; [cbn [flat_map snd]; rewrite app_nil_r; reflexivity|]. split; [|auto]. split; [exists ix|split; [exists iy|exists iz]]; (eexists; split; [eassumption|split; [reflexivity|assumption]]).
  Qed.
  Variable P : V -> f32 -> Prop.
  Hypothesis pays : forall v f, P v f -> pay v = float_bytes f.
  Lemma rows_pay : forall e rows ts, (forall p, In p (e_properties e) -> requested xyz_keys e p = is_xyz p) -> has_xyz e -> Forall (fun row => Forall2 R (e_properties e) row) rows -> Forall2 (holds P e) rows ts ->
    flat_map (taken_by pay xyz_keys) (combine (List.concat (repeat (map (pair e) (e_properties e)) (List.length rows))) (List.concat rows)) = flat_map triple_bytes ts.
  Proof.
    intros e rows ts RQ H F G. induction G as [|row t rows ts HO G IH]; [reflexivity|]. inversion F as [|? ? F0 F1]; subst. cbn [List.length repeat List.concat flat_map]. rewrite combine_app' by (rewrite map_length; exact (Forall2_len _ _ _ _ _ F0)). rewrite flat_map_app, (IH F1). f_equal.
    destruct (row_pay e row RQ H F0) as (x & y & z & E & (Cx & Cy & Cz) & _). destruct HO as (x' & y' & z' & Dx & Px & Dy & Py & Dz & Pz). rewrite E.
    rewrite (cell_unique _ e row "x" x x' H) by (try assumption; cbn; auto). rewrite (cell_unique _ e row "y" y y' H) by (try assumption; cbn; auto). rewrite (cell_unique _ e row "z" z z' H) by (try assumption; cbn; auto).
    rewrite (pays _ _ Px), (pays _ _ Py), (pays _ _ Pz). reflexivity.
  Qed.

  Lemma taken_none : forall l vs, (forall ep, In ep l -> requested xyz_keys (fst ep) (snd ep) = false) -> flat_map (taken_by pay xyz_keys) (combine l vs) = [].
  Proof.
    intro l. induction l as [|ep l IH]; intros [|v vs] H; try reflexivity. cbn [combine flat_map]. unfold taken_by at 1. cbn [fst snd]. rewrite H by (left; reflexivity). apply IH. intros x I. apply H. right. exact I.
  Qed.
  Lemma in_flat : forall els ep, In ep (flat els) -> In (fst ep) els /\ In (snd ep) (e_properties (fst ep)).
  Proof. intros els ep I. unfold flat in I. apply in_flat_map in I. destruct I as (x & IX & I). apply in_concat in I. destruct I as (l & IL & I). apply repeat_spec in IL. subst l. apply in_map_iff in I. destruct I as (q & <- & IQ). split; assumption. Qed.

  Variables (pre : list element) (e : element) (post : list element).
  Hypothesis N : e_name e = text "vertex".
  Hypothesis NP : forall x, In x (pre ++ post) -> e_name x <> text "vertex".
  Hypothesis H : has_xyz e.
  Hypothesis NC : no_collision (pre ++ e :: post).
  Lemma requested_here : forall p, In p (e_properties e) -> requested xyz_keys e p = is_xyz p.
  Proof. intros p I. apply eq_true_iff_eq. assert (IE : In e (pre ++ e :: post)) by (apply in_or_app; right; left; reflexivity). rewrite (requested_spec _ e p NC IE I). split; [intros (_ & X); exact X|intro X; split; assumption]. Qed.
  Lemma requested_elsewhere : forall els, incl els (pre ++ post) -> forall ep, In ep (flat els) -> requested xyz_keys (fst ep) (snd ep) = false.
  Proof.
    intros els IN ep I. apply in_flat in I. destruct I as (IX & IQ). destruct (requested xyz_keys (fst ep) (snd ep)) eqn:E; [|reflexivity]. exfalso. assert (IX' := IN _ IX). apply requested_spec with (els := pre ++ e :: post) in E; [|exact NC|apply in_app_iff; apply in_app_iff in IX'; cbn; tauto|exact IQ]. apply (NP _ IX'), E.
  Qed.
  Lemma xyz_plain : plain_keys xyz_keys (flat (pre ++ e :: post)).
  Proof.
    intros ep I RQ. destruct (in_flat _ _ I) as (IE & IP). assert (S := RQ). apply (requested_spec _ _ _ NC IE IP) in S. destruct S as (NE & X). assert (EE : fst ep = e). { apply in_app_iff in IE. destruct IE as [IE|[IE|IE]]; [|congruence|]; exfalso; apply (NP (fst ep)); try exact NE; apply in_or_app; auto. }
    rewrite EE in IP. assert (J : In (snd ep) (filter is_xyz (e_properties e))) by (apply filter_In; split; assumption). unfold has_xyz in H. rewrite H in J. destruct J as [<- |[<- |[<- |[]]]]; split; reflexivity.
  Qed.
  Lemma all_pay : forall dpre rows dpost ts, Forall2 (table R) pre dpre -> table R e rows -> Forall2 (table R) post dpost -> Forall2 (holds P e) rows ts ->
    flat_map (taken_by pay xyz_keys) (combine (flat (pre ++ e :: post)) (List.concat (List.concat (dpre ++ rows :: dpost)))) = flat_map triple_bytes ts /\ N.to_nat (e_size e) = List.length ts.
  Proof.
    intros dpre rows dpost ts FP (LR & FR) FQ G. split; [|rewrite <- LR, Nat2N.id; exact (Forall2_len _ _ _ _ _ G)].
    unfold flat. rewrite flat_map_app. cbn [flat_map]. fold (flat pre) (flat post). rewrite concat_app. cbn [List.concat]. rewrite !concat_app.
    rewrite combine_app' by (apply (Forall2_len _ _ _ _ _ (tables_flat _ _ FP))). rewrite <- LR, Nat2N.id.
    rewrite combine_app' by (apply (Forall2_len _ _ _ _ _ (table_rows _ _ FR))). rewrite !flat_map_app, (rows_pay e rows ts requested_here H FR G).
    rewrite !taken_none; [rewrite app_nil_r; reflexivity| |]; apply requested_elsewhere; intros x I; apply in_or_app; auto.
  Qed.
End Table.

Lemma finish : forall n ts, n = List.length ts ->
  (if Nat.leb (List.length (flat_map triple_bytes ts)) (12 * n) then Ok (floats (flat_map triple_bytes ts ++ repeat zero (12 * n - List.length (flat_map triple_bytes ts)))) else Err Undefined) = Ok (flat_map triple_floats ts).
Proof. intros n ts ->. rewrite triples_length, Nat.leb_refl, Nat.sub_diag. cbn [repeat]. rewrite triples_bytes, floats_bytes. cbn [floats]. rewrite app_nil_r. reflexivity. Qed.

Section File.
  Variables (pre : list element) (e : element) (post : list element).
  Hypothesis N : e_name e = text "vertex".
  Hypothesis NP : forall x, In x (pre ++ post) -> e_name x <> text "vertex".
  Hypothesis H : has_xyz e.
  Hypothesis NC : no_collision (pre ++ e :: post).
  Let request : request_properties (pre ++ e :: post) "vertex" ["x"; "y"; "z"] = Ok (xyz_keys, e_size e).
  Proof. apply request_ok; [exact N| |exact H]. intros x I. apply NP, in_or_app. left. exact I. Qed.

  Lemma read_binary_file : forall ascii_data f hd dpre rows dpost extra ts, f <> Text -> ply_header f (pre ++ e :: post) hd ->
    Forall2 (table (binary_value f)) pre dpre -> table (binary_value f) e rows -> Forall2 (table (binary_value f)) post dpost ->
    Forall2 (holds (float_of (big f)) e) rows ts ->
    read_points_cpp ascii_data (hd ++ List.concat (List.concat (List.concat (dpre ++ rows :: dpost))) ++ extra) = Ok (flat_map triple_floats ts).
  Proof.
    intros ascii_data f hd dpre rows dpost extra ts NT HD FP FR FQ G. unfold read_points_cpp. rewrite (parse_ply f _ hd _ HD). cbn [bind elements is_binary is_big_endian]. rewrite request. cbn [bind]. replace (binary f) with true by (destruct f; [congruence|reflexivity|reflexivity]).
    assert (DF : Forall2 (table (binary_value f)) (pre ++ e :: post) (dpre ++ rows :: dpost)) by (apply Forall2_concat_app; [exact FP|constructor; assumption]).
    rewrite (read_binary_data f xyz_keys _ _ extra (tables_flat _ _ _ _ DF) (xyz_plain pre e post NP H NC)). cbn [bind].
    destruct (all_pay _ (binary_value f) (swap (big f)) (float_of (big f)) ltac:(intros v [[[a b] c] d] X; unfold float_of in X; subst v; destruct (big f); reflexivity) pre e post N NP H NC dpre rows dpost ts FP FR FQ G) as (OUT & LT).
    unfold bytes in *. rewrite OUT. apply finish, LT.
  Qed.
  Lemma read_text_file : forall real hd dpre rows dpost more data ts, ply_header Text (pre ++ e :: post) hd ->
    Forall2 (table text_value) pre dpre -> table text_value e rows -> Forall2 (table text_value) post dpost ->
    spaced space (List.concat (List.concat (List.concat (dpre ++ rows :: dpost))) ++ more) data ->
    Forall2 (holds (reads real) e) rows ts ->
    read_points_cpp (read_data_ascii real) (hd ++ data) = Ok (flat_map triple_floats ts).
  Proof.
    intros real hd dpre rows dpost more data ts HD FP FR FQ SP G. unfold read_points_cpp. rewrite (parse_ply Text _ hd _ HD). cbn [bind elements is_binary is_big_endian]. rewrite request. cbn [bind binary].
    assert (DF : Forall2 (table text_value) (pre ++ e :: post) (dpre ++ rows :: dpost)) by (apply Forall2_concat_app; [exact FP|constructor; assumption]).
    assert (RD : Forall2 (readable real xyz_keys) (flat (pre ++ e :: post)) (List.concat (List.concat (dpre ++ rows :: dpost)))).
    { assert (OTHER : forall els d, incl els (pre ++ post) -> Forall2 (table text_value) els d -> Forall2 (readable real xyz_keys) (flat els) (List.concat (List.concat d))).
      { intros els d IN F. assert (F' := tables_flat _ _ _ _ F). assert (Q := requested_elsewhere pre e post NP NC els IN). clear -F' Q. induction F' as [|ep v l vs _ F IH]; constructor; [|apply IH; intros x I; apply Q; right; exact I]. intro RQ. rewrite Q in RQ by (left; reflexivity). discriminate RQ. }
      unfold flat. rewrite flat_map_app. cbn [flat_map]. fold (flat pre) (flat post). rewrite concat_app. cbn [List.concat]. rewrite !concat_app. apply Forall2_concat_app; [apply OTHER; [intros x I; apply in_or_app; auto|exact FP]|]. apply Forall2_concat_app; [|apply OTHER; [intros x I; apply in_or_app; auto|exact FQ]].
      destruct FR as (LR & FR). rewrite <- LR, Nat2N.id. clear -FR G H N NC. induction G as [|row t rows ts HO G IH]; [constructor|]. inversion FR as [|? ? F0 F1]; subst. cbn [List.length repeat List.concat]. apply Forall2_concat_app; [|exact (IH F1)].
      assert (CELL : forall i p v, nth_error (e_properties e) i = Some p -> nth_error row i = Some v -> readable real xyz_keys (e, p) v).
      { intros i p v EP EV RQ. cbn [fst snd] in RQ. rewrite (requested_here pre e post N NC p (nth_error_In _ _ EP)) in RQ. apply is_xyz_spec in RQ. destruct RQ as (k & IK & NK). assert (C : cell e row k v) by (exists i, p; auto). destruct HO as (x & y & z & Cx & Rx & Cy & Ry & Cz & Rz).
        destruct IK as [<- |[<- |[<- |[]]]]; [rewrite (cell_unique _ e row "x" v x H ltac:(cbn; auto) C Cx); eexists; exact Rx|rewrite (cell_unique _ e row "y" v y H ltac:(cbn; auto) C Cy); eexists; exact Ry|rewrite (cell_unique _ e row "z" v z H ltac:(cbn; auto) C Cz); eexists; exact Rz]. }
      clear -F0 CELL. revert CELL. generalize (e_properties e) row F0. intros ps rw F. induction F as [|p v ps rw _ F IH]; intro C; cbn [map]; constructor; [apply (C 0%nat p v); reflexivity|]. apply IH. intros i q u A B. apply (C (S i) q u A B). }
    rewrite (read_text_data real xyz_keys _ _ more data (tables_flat _ _ _ _ DF) RD (xyz_plain pre e post NP H NC) SP). cbn [bind].
    destruct (all_pay _ text_value (pay real) (reads real) ltac:(intros v f (w & -> & _ & RL); unfold pay; cbn [List.concat]; rewrite app_nil_r, RL; destruct f as [[[? ?] ?] ?]; reflexivity) pre e post N NP H NC dpre rows dpost ts FP FR FQ G) as (OUT & LT).
    unfold bytes in *. rewrite OUT. apply finish, LT.
  Qed.
End File.
