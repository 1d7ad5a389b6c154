(** Values, rows and whole files. *)
From Coq Require Import List ZArith NArith Bool String Ascii Reals Lia.
From Verif.Base Require Import Py PyFacts Vec.
From Verif.Ply Require Import Model Spec Proofs.
From Verif.PlyText Require Import Model Spec Header.
Import ListNotations.
Local Open Scope string_scope.
Local Open Scope list_scope.

Lemma iter_swap : forall A (f : A -> A) n x, f (Nat.iter n f x) = Nat.iter n f (f x).
Proof. intros A f n x. induction n as [|n IH]; [reflexivity|]. cbn [Nat.iter nat_rect]. unfold Nat.iter in *. cbn. rewrite IH. reflexivity. Qed.

(** Requested properties are single floats. *)
Definition plain_keys (keys : list N) (l : list (element * property)) : Prop :=
  forall ep, In ep l -> requested keys (fst ep) (snd ep) = true -> p_type (snd ep) = FLOAT32 /\ p_list (snd ep) = None.
Lemma keys_tail : forall keys ep l, plain_keys keys (ep :: l) -> plain_keys keys l.
Proof. intros keys ep l H q I. apply H. right. exact I. Qed.
Lemma reqd_cons : forall keys ep l, plain_keys keys (ep :: l) -> reqd keys (ep :: l) = ((if requested keys (fst ep) (snd ep) then 4 else 0) + reqd keys l)%nat.
Proof.
  intros keys ep l H. unfold reqd. cbn [map list_sum fold_right]. f_equal. destruct (requested keys (fst ep) (snd ep)) eqn:E; [|reflexivity]. destruct (H ep ltac:(left; reflexivity) E) as (-> & _). reflexivity.
Qed.
Definition taken_by {V} (pay : V -> bytes) (keys : list N) (x : (element * property) * V) : bytes :=
  if requested keys (fst (fst x)) (snd (fst x)) then pay (snd x) else [].

(** * Binary *)
Lemma le_number : forall b, le_value b = number_of b.
Proof. intro b. induction b as [|c b IH]; [reflexivity|]. cbn. rewrite IH. reflexivity. Qed.
Lemma iter_read : forall t items, Forall (fun b => width t (List.length b)) items -> forall sc r, (8 <= List.length sc)%nat ->
  exists sc', (8 <= List.length sc')%nat /\ Nat.iter (List.length items) (is_read (stride t)) (Reader sc (Stream (List.concat items ++ r) true)) = Reader sc' (Stream r true).
Proof.
  intros t items F. induction F as [|b items W F IH]; intros sc r H; [exists sc; split; [exact H|reflexivity]|]. cbn [List.length List.concat].
  rewrite <- app_assoc. destruct (width_stride t _ W) as (L & _). assert (S8 := stride_8 t).
  assert (R := is_read_good (stride t) sc b (List.concat items ++ r) (eq_sym L)).
  destruct (IH (b ++ skipn (stride t) sc) r) as (sc' & H' & E); [rewrite app_length, skipn_length; lia|]. exists sc'. split; [exact H'|]. rewrite <- E, <- R. exact (iter_swap _ _ _ _).
Qed.
Lemma skip_binary : forall f p b, binary_value f p b -> forall sc r, (8 <= List.length sc)%nat ->
  exists sc' n, (8 <= List.length sc')%nat /\ skip_property_binary (big f) p (Reader sc (Stream (b ++ r) true)) = Ok (n, Reader sc' (Stream r true)) /\ (p_list p = None -> n = stride (p_type p)).
Proof.
  intros f p b V sc r H. destruct V as [n t b W|n t c nb items W C F]; unfold skip_property_binary; cbn [p_list p_type].
  - destruct (width_stride t _ W) as (L & _). assert (S8 := stride_8 t). rewrite (is_read_good _ sc b r (eq_sym L)). eexists _, _. split; [|split; reflexivity]. rewrite app_length, skipn_length. lia.
  - destruct (width_stride c _ W) as (L & NI). assert (S8 := stride_8 c). rewrite (read_binary _ c _ NI), <- app_assoc, (is_read_good _ sc nb _ (eq_sym L)). cbn [bind scratch].
    assert (FST : firstn (stride c) (nb ++ skipn (stride c) sc) = nb) by (rewrite L, firstn_app, Nat.sub_diag, firstn_all; cbn; apply app_nil_r). rewrite FST.
    assert (N : N.to_nat (le_value (swap (big f) nb)) = List.length items). { rewrite le_number. replace (swap (big f) nb) with (in_order f nb) by (destruct f; reflexivity). rewrite C. apply Nat2N.id. }
    rewrite N. destruct (iter_read t items F (nb ++ skipn (stride c) sc) r) as (sc' & H' & E); [rewrite app_length, skipn_length; lia|]. rewrite E. eexists _, _. split; [exact H'|]. split; [reflexivity|]. discriminate.
Qed.
Lemma first_binary : forall f keys l vs, Forall2 (fun ep b => binary_value f (snd ep) b) l vs -> plain_keys keys l -> forall t sc r, (8 <= List.length sc)%nat ->
  exists sc', (8 <= List.length sc')%nat /\ foldM (step1 (big f) keys) (t, Reader sc (Stream (List.concat vs ++ r) true)) l = Ok ((t + reqd keys l)%nat, Reader sc' (Stream r true)).
Proof.
  intros f keys l vs F. induction F as [|ep b l vs B F IH]; intros P t sc r H.
  - exists sc. split; [exact H|]. cbn. rewrite Nat.add_0_r. reflexivity.
  - rewrite (reqd_cons _ _ _ P). cbn [foldM List.concat]. rewrite <- app_assoc. destruct (skip_binary f _ b B sc (List.concat vs ++ r) H) as (sc1 & n & H1 & E & Z).
    assert (ST : step1 (big f) keys (t, Reader sc (Stream (b ++ List.concat vs ++ r) true)) ep = Ok ((if requested keys (fst ep) (snd ep) then t + n else t)%nat, Reader sc1 (Stream (List.concat vs ++ r) true))) by (unfold step1; cbn [fst snd]; rewrite E; reflexivity).
    rewrite ST. cbn [bind]. destruct (requested keys (fst ep) (snd ep)) eqn:RQ.
    + destruct (P ep ltac:(left; reflexivity) RQ) as (T & NL). rewrite (Z NL), T. destruct (IH (keys_tail _ _ _ P) (t + stride FLOAT32)%nat sc1 r H1) as (sc' & H' & E'). exists sc'. split; [exact H'|]. rewrite E'. f_equal. f_equal. cbn [stride]. lia.
    + destruct (IH (keys_tail _ _ _ P) t sc1 r H1) as (sc' & H' & E'). exists sc'. split; [exact H'|]. rewrite E'. reflexivity.
Qed.
Lemma second_binary : forall cap f keys l vs, Forall2 (fun ep b => binary_value f (snd ep) b) l vs -> plain_keys keys l -> forall out sc r, (8 <= List.length sc)%nat -> (List.length out + reqd keys l <= cap)%nat ->
  exists sc', foldM (step2 cap (big f) keys) (out, Reader sc (Stream (List.concat vs ++ r) true)) l = Ok (out ++ flat_map (taken_by (swap (big f)) keys) (combine l vs), Reader sc' (Stream r true)).
Proof.
  intros cap f keys l vs F. induction F as [|ep b l vs B F IH]; intros P out sc r H C.
  - exists sc. cbn. rewrite app_nil_r. reflexivity.
  - rewrite (reqd_cons _ _ _ P) in C. cbn [foldM List.concat combine flat_map]. rewrite <- app_assoc. unfold taken_by at 1. cbn [fst snd]. destruct (requested keys (fst ep) (snd ep)) eqn:RQ.
    + destruct (P ep ltac:(left; reflexivity) RQ) as (T & NL). destruct ep as [e [n t lt]]. cbn [fst snd p_type p_list] in *. subst t lt. inversion B as [? ? ? W|]; subst. destruct (width_stride _ _ W) as (L & NI). cbn [stride] in L.
      assert (ST : step2 cap (big f) keys (out, Reader sc (Stream (b ++ List.concat vs ++ r) true)) (e, Property n FLOAT32 None) = Ok (out ++ swap (big f) b, Reader (b ++ skipn 4 sc) (Stream (List.concat vs ++ r) true))).
      { unfold step2. cbn [fst snd p_list p_type]. rewrite RQ, (read_binary _ _ _ NI). cbn [stride]. rewrite (is_read_good 4 sc b _ (eq_sym L)). cbn [bind scratch].
        assert (FST : firstn 4 (b ++ skipn 4 sc) = b) by (rewrite L at 1; rewrite firstn_app, Nat.sub_diag, firstn_all; cbn; apply app_nil_r). rewrite FST. rewrite put_ok by (rewrite swap_length; lia). reflexivity. }
      rewrite ST. cbn [bind]. destruct (IH (keys_tail _ _ _ P) (out ++ swap (big f) b) (b ++ skipn 4 sc) r) as (sc' & E); [rewrite app_length, skipn_length; lia|rewrite app_length, swap_length; lia|]. exists sc'. rewrite E, <- app_assoc. reflexivity.
    + destruct (skip_binary f _ b B sc (List.concat vs ++ r) H) as (sc1 & n & H1 & E & _).
      assert (ST : step2 cap (big f) keys (out, Reader sc (Stream (b ++ List.concat vs ++ r) true)) ep = Ok (out, Reader sc1 (Stream (List.concat vs ++ r) true))) by (unfold step2; cbn [fst snd]; rewrite RQ, E; reflexivity).
      rewrite ST. cbn [bind app]. destruct (IH (keys_tail _ _ _ P) out sc1 r H1) as (sc' & E'); [lia|]. exists sc'. rewrite E'. reflexivity.
Qed.
Lemma taken_size : forall V (pay : V -> bytes) keys l vs, Forall2 (fun ep v => requested keys (fst ep) (snd ep) = true -> List.length (pay v) = 4%nat) l vs -> plain_keys keys l ->
  List.length (flat_map (taken_by pay keys) (combine l vs)) = reqd keys l.
Proof.
  intros V pay keys l vs F. induction F as [|ep v l vs H F IH]; intro P; [reflexivity|]. rewrite (reqd_cons _ _ _ P). cbn [combine flat_map]. rewrite app_length, (IH (keys_tail _ _ _ P)). f_equal. unfold taken_by. cbn [fst snd]. destruct (requested keys (fst ep) (snd ep)); [apply H; reflexivity|reflexivity].
Qed.
Lemma binary_sizes : forall f keys l vs, Forall2 (fun ep b => binary_value f (snd ep) b) l vs -> plain_keys keys l ->
  Forall2 (fun ep v => requested keys (fst ep) (snd ep) = true -> List.length (swap (big f) v) = 4%nat) l vs.
Proof.
  intros f keys l vs F. induction F as [|ep v l vs H F IH]; intro P; constructor; [|apply IH; exact (keys_tail _ _ _ P)]. intro RQ. destruct (P ep ltac:(left; reflexivity) RQ) as (T & NL). rewrite swap_length. inversion H as [n t b W EP|n t c nb items W C FI EP]; subst; rewrite <- EP in *; cbn [p_type p_list] in *; [|discriminate NL]. subst t. inversion W. reflexivity.
Qed.
Lemma read_binary_data : forall f keys els vs extra, Forall2 (fun ep b => binary_value f (snd ep) b) (flat els) vs -> plain_keys keys (flat els) ->
  read_data (big f) keys els (Stream (List.concat vs ++ extra) true) = Ok (flat_map (taken_by (swap (big f)) keys) (combine (flat els) vs)).
Proof.
  intros f keys els vs extra F P. unfold read_data. rewrite first_flat. destruct (first_binary f keys _ _ F P 0%nat (repeat zero 128) extra) as (sc & H & E); [rewrite repeat_length; lia|]. rewrite E. cbn [bind from good scratch]. rewrite second_flat.
  destruct (second_binary (0 + reqd keys (flat els)) f keys _ _ F P [] sc extra H) as (sc' & E2); [cbn; lia|]. rewrite E2. cbn [bind app]. rewrite (taken_size _ _ _ _ _ (binary_sizes _ _ _ _ F P) P), Nat.eqb_refl. reflexivity.
Qed.

(** * Text *)
Definition at_words (ws : list bytes) (s : input) : Prop := fail s = false /\ spaced space ws (left s) /\ (ws <> [] -> eof s = false).
Lemma sentry_at : forall w ws s, at_words (w :: ws) s -> exists r, sentry s = Input (w ++ r) false false /\ word (w ++ r) = (w, r) /\ ends r /\ at_words ws (Input r (null r) false) /\ word_ok w.
Proof.
  intros w ws s (F & S & E). destruct (spaced_next space (fun c H => H) w ws _ S) as (r & SK & WD & EN & SR & W). exists r. unfold sentry. rewrite F, E by discriminate. cbn [orb]. rewrite SK.
  destruct (w ++ r) eqn:X; [destruct W as (NW & _); destruct w; [congruence|discriminate X]|]. rewrite <- X in *. split; [reflexivity|]. split; [exact WD|]. split; [exact EN|]. split; [|exact W]. split; [reflexivity|]. split; [exact SR|]. cbn [eof left].
  intro NE. destruct r; [|reflexivity]. inversion SR as [|s0 w0 ws0 r0 F0 W0 S0 E0 A0 B0]; subst; [congruence|]. apply app_eq_nil in B0. destruct B0 as (_ & B0). apply app_eq_nil in B0. destruct W0 as (W0 & _). destruct B0; congruence.
Qed.
Lemma skip_word_at : forall w ws s, at_words (w :: ws) s -> at_words ws (skip_word s).
Proof. intros w ws s H. destruct (sentry_at w ws s H) as (r & E & WD & _ & A & _). unfold skip_word. rewrite E. cbn [fail left]. rewrite WD. exact A. Qed.
Lemma skip_words_at : forall items ws s, at_words (items ++ ws) s -> at_words ws (Nat.iter (List.length items) skip_word s).
Proof.
  intros items. induction items as [|w items IH]; intros ws s H; [exact H|]. cbn [List.length]. change (at_words ws (skip_word (Nat.iter (List.length items) skip_word s))). rewrite iter_swap. apply IH. exact (skip_word_at w _ s H).
Qed.

(** Whole numbers. *)
Lemma digit_char : forall c, (48 <= N_of_ascii c <= 57)%N -> is_digit c = true /\ is_sign c = false.
Proof. intros c H. destruct (digit_facts c H) as (_ & D). split; [unfold is_digit; rewrite D; reflexivity|]. unfold is_sign. destruct (Ascii.eqb_spec c "+"); [subst; cbn in H; lia|]. destruct (Ascii.eqb_spec c "-"); [subst; cbn in H; lia|reflexivity]. Qed.
Lemma space_char : forall c, is_space c = true -> is_digit c = false /\ is_sign c = false /\ is_e c = false /\ Ascii.eqb c "." = false.
Proof. intros [[] [] [] [] [] [] [] []] H; try discriminate H; repeat split. Qed.
Lemma extract_digits_all : forall w r, Forall (fun c => (48 <= N_of_ascii c <= 57)%N) w -> ends r -> extract_digits (w ++ r) = (w, r).
Proof.
  intros w r F E. induction F as [|c w D F IH]; cbn [app extract_digits].
  - destruct E as [-> |(c & r' & -> & S)]; [reflexivity|]. cbn [extract_digits]. destruct (space_char c S) as (-> & _). reflexivity.
  - destruct (digit_char c D) as (-> & _). rewrite IH. reflexivity.
Qed.
Lemma int_bytes_value : forall k n, (n < 256 ^ N.of_nat k)%N -> le_value (int_bytes k (Z.of_N n)) = n.
Proof.
  intro k. induction k as [|k IH]; intros n H; [cbn in *; lia|]. cbn [int_bytes le_value]. rewrite Nat2N.inj_succ, N.pow_succ_r' in H.
  change 256%Z with (Z.of_N 256). rewrite <- N2Z.inj_mod, <- N2Z.inj_div, N2Z.id. assert (M := N.mod_lt n 256 ltac:(discriminate)). rewrite N_ascii_embedding by exact M. rewrite IH by (apply N.div_lt_upper_bound; lia). assert (DM := N.div_mod n 256 ltac:(discriminate)). lia.
Qed.
Lemma count_read : forall real c nw n ws s, whole c -> number_text nw n -> (n < counts c)%N -> at_words (nw :: ws) s ->
  exists b s', read_property_ascii real c s = Ok (b, s') /\ le_value b = n /\ at_words ws s'.
Proof.
  intros real c nw n ws s WH NT LT A. destruct (sentry_at nw ws s A) as (r & E & _ & EN & A' & _). destruct NT as (NE & D & V).
  assert (NV : number 0 nw = n) by (rewrite <- (app_nil_r nw); apply number_stop; [exact D|exact V|left; reflexivity]).
  assert (X : forall lo hi, (lo <= 0)%Z -> (Z.of_N n <= hi)%Z -> extract_int lo hi (nw ++ r) = (Z.of_N n, r, true)).
  { intros lo hi LO HI. unfold extract_int. destruct nw as [|d nw]; [congruence|]. assert (D1 := D). inversion D1 as [|? ? D0 _]; subst d nw. cbn [app]. destruct (digit_char _ D0) as (_ & ->). rewrite app_comm_cons, extract_digits_all by assumption. rewrite NV.
    destruct (Z.eqb_spec lo 0) as [Z0|Z0]; [rewrite (proj2 (Z.leb_le _ _) HI); reflexivity|]. destruct (Z.ltb_spec (Z.of_N n) lo); [lia|]. destruct (Z.ltb_spec hi (Z.of_N n)); [lia|reflexivity]. }
  assert (Y : exists lo hi, int_range c = Some (lo, hi) /\ (lo <= 0)%Z /\ (Z.of_N n <= hi)%Z /\ (n < 256 ^ N.of_nat (stride c))%N /\ c <> INVALID).
  { destruct WH; cbn [counts] in LT; cbn [int_range stride]; eexists _, _; (split; [reflexivity|]); (split; [lia|]); (split; [lia|]); (split; [|discriminate]); (eapply N.lt_le_trans; [exact LT|]); vm_compute; discriminate. }
  destruct Y as (lo & hi & IR & LO & HI & BD & NI). exists (int_bytes (stride c) (Z.of_N n)), (Input r (null r) false). split; [|split; [apply int_bytes_value, BD|exact A']].
  unfold read_property_ascii. destruct c; try congruence; rewrite E; cbn [fail left]; rewrite IR, (X lo hi LO HI); reflexivity.
Qed.

(** Real numbers. *)
Lemma extract_stop : forall m d x a y r, ends r -> extract m d x a y r = ([], r, m && (negb x || y)).
Proof. intros m d x a y r [-> |(c & r' & -> & S)]; [reflexivity|]. cbn [extract]. destruct (space_char c S) as (-> & -> & -> & ->). reflexivity. Qed.
Lemma extract_run : forall w l m d x a y, digits w -> w <> [] ->
  extract m d x a y (w ++ l) = let '(v, r, ok) := extract true d x false (y || x) l in (w ++ v, r, ok).
Proof.
  intros w. induction w as [|c w IH]; intros l m d x a y D NE; [congruence|]. inversion D as [|? ? C D']; subst. cbn [app extract]. destruct (digit_char c C) as (-> & _). destruct w as [|c' w].
  - cbn [app]. destruct (extract true d x false (y || x) l) as [[v r] ok]. reflexivity.
  - rewrite IH by (try exact D'; discriminate). rewrite <- orb_assoc, orb_diag. destruct (extract true d x false (y || x) l) as [[v r] ok]. reflexivity.
Qed.
Definition exponent (x : bytes) : Prop := x = [] \/ exists e s' d, x = e ++ s' ++ d /\ In e [text "e"; text "E"] /\ sign s' /\ digits d /\ d <> [].
Lemma extract_exponent : forall d a x r, exponent x -> ends r -> extract true d false a false (x ++ r) = (x, r, true).
Proof.
  intros d a x r [-> |(e & s & w & -> & IE & SG & D & NE)] EN; [apply extract_stop, EN|].
  assert (T : forall a, extract true d true a false (w ++ r) = (w, r, true)) by (intro a'; rewrite extract_run by assumption; rewrite extract_stop by exact EN; cbn; rewrite app_nil_r; reflexivity).
  assert (U : extract true d true true false (s ++ w ++ r) = (s ++ w, r, true)).
  { destruct SG as [<- |[<- |[<- |[]]]]; cbn [text list_ascii_of_string app]; [apply T| |]; cbn [extract]; change (is_digit "+") with false; change (is_digit "-") with false; cbn; rewrite T; reflexivity. }
  rewrite <- !app_assoc. destruct IE as [<- |[<- |[]]]; cbn [text list_ascii_of_string app]; cbn [extract]; change (is_digit "e") with false; change (is_digit "E") with false; cbn [Ascii.eqb Bool.eqb is_e andb negb orb]; unfold is_e; cbn [Ascii.eqb Bool.eqb andb negb orb]; rewrite U; reflexivity.
Qed.
Lemma extract_unsigned : forall a p b x r, digits a -> digits b -> (p = text "." \/ p = [] /\ b = []) -> a ++ b <> [] -> exponent x -> ends r ->
  extract false false false false false (a ++ p ++ b ++ x ++ r) = (a ++ p ++ b ++ x, r, true).
Proof.
  intros a p b x r DA DB P NE X EN.
  assert (R : forall m, (m = true \/ b <> []) -> extract m false false false false (p ++ b ++ x ++ r) = (p ++ b ++ x, r, true)).
  { intros m M. destruct P as [-> |(-> & ->)].
    - cbn [text list_ascii_of_string app extract]. change (is_digit ".") with false. cbn [Ascii.eqb Bool.eqb negb andb]. destruct b as [|c b].
      + destruct M as [-> |M]; [|congruence]. cbn [app]. rewrite extract_exponent by assumption. reflexivity.
      + rewrite extract_run by (try exact DB; discriminate). cbn [orb]. rewrite extract_exponent by assumption. reflexivity.
    - destruct M as [-> |M]; [|congruence]. cbn [app]. apply extract_exponent; assumption. }
  destruct a as [|c a]; [cbn [app] in *; apply R; right; exact NE|]. rewrite extract_run by (try exact DA; discriminate). cbn [orb]. rewrite R by (left; reflexivity). reflexivity.
Qed.
Lemma unsigned_start : forall a p b x r, digits a -> (p = text "." \/ p = [] /\ b = []) -> a ++ b <> [] -> exists c l, a ++ p ++ b ++ x ++ r = c :: l /\ is_sign c = false.
Proof.
  intros a p b x r DA P NE. destruct a as [|c a].
  - destruct P as [-> |(-> & ->)]; [|cbn in NE; congruence]. eexists _, _. split; [reflexivity|reflexivity].
  - inversion DA as [|? ? C _]; subst. eexists _, _. split; [reflexivity|]. apply (digit_char c C).
Qed.
Lemma extract_real : forall w r, real_text w -> ends r -> extract_float (w ++ r) = (w, r, true).
Proof.
  intros w r H EN. destruct H as [s a p b x SG DA DB P NE X]. rewrite <- !app_assoc. destruct (unsigned_start a p b x r DA P NE) as (c & l & E & NS). assert (U := extract_unsigned a p b x r DA DB P NE X EN).
  destruct SG as [<- |[<- |[<- |[]]]]; cbn [text list_ascii_of_string app].
  - transitivity (extract false false false false false (a ++ p ++ b ++ x ++ r)); [|exact U]. rewrite E. cbn [extract_float]. rewrite NS. reflexivity.
  - cbn [extract_float]. change (is_sign "+") with true. cbv iota. rewrite U. reflexivity.
  - cbn [extract_float]. change (is_sign "-") with true. cbv iota. rewrite U. reflexivity.
Qed.

Section Text.
  Variable real : ptype -> bytes -> bytes * bool.
  Definition pay (ws : list bytes) : bytes := fst (real FLOAT32 (List.concat ws)).

  Definition tstep1 (keys : list N) (x : nat * input) (ep : element * property) : res (nat * input) :=
    let* (n, r) := skip_property_ascii real (snd ep) (snd x) in
    Ok ((if requested keys (fst ep) (snd ep) then fst x + n else fst x)%nat, r).
  Lemma tfirst_flat : forall keys els s, first_pass_ascii real keys els s = foldM (tstep1 keys) (0%nat, s) (flat els).
  Proof. intros. unfold first_pass_ascii. rewrite each_flat. reflexivity. Qed.
  Definition tstep2 (cap : nat) (keys : list N) (x : bytes * input) (ep : element * property) : res (bytes * input) :=
    if requested keys (fst ep) (snd ep) then
      match p_list (snd ep) with
      | Some lt =>
          let* (b, r) := read_property_ascii real lt (snd x) in
          foldM (fun (x : bytes * input) (_ : unit) =>
                   let* (b, r) := read_property_ascii real (p_type (snd ep)) (snd x) in
                   let* out := put cap (fst x) b in Ok (out, r))
                (fst x, r) (repeat tt (N.to_nat (le_value b)))
      | None =>
          let* (b, r) := read_property_ascii real (p_type (snd ep)) (snd x) in
          let* out := put cap (fst x) b in Ok (out, r)
      end
    else let* (_, r) := skip_property_ascii real (snd ep) (snd x) in Ok (fst x, r).
  Lemma tsecond_flat : forall cap keys els s, second_pass_ascii real cap keys els s = foldM (tstep2 cap keys) ([], s) (flat els).
  Proof. intros. unfold second_pass_ascii. rewrite each_flat. reflexivity. Qed.

  Lemma skip_text : forall p v ws s, text_value p v -> at_words (v ++ ws) s -> exists n s', skip_property_ascii real p s = Ok (n, s') /\ at_words ws s' /\ (p_list p = None -> n = stride (p_type p)).
  Proof.
    intros p v ws s V A. destruct V as [n t w W|n t c nw items WH NT LT F]; unfold skip_property_ascii; cbn [p_list p_type].
    - eexists _, _. split; [reflexivity|]. split; [exact (skip_word_at w ws s A)|reflexivity].
    - cbn [app] in A. destruct (count_read real c nw _ _ s WH NT LT A) as (b & s' & E & L & A'). rewrite E. cbn [bind]. rewrite L, Nat2N.id. eexists _, _. split; [reflexivity|]. split; [exact (skip_words_at items ws s' A')|discriminate].
  Qed.
  Lemma first_text : forall keys l vs, Forall2 (fun ep v => text_value (snd ep) v) l vs -> plain_keys keys l -> forall t s ws, at_words (List.concat vs ++ ws) s ->
    exists s', foldM (tstep1 keys) (t, s) l = Ok ((t + reqd keys l)%nat, s') /\ at_words ws s'.
  Proof.
    intros keys l vs F. induction F as [|ep v l vs B F IH]; intros P t s ws A.
    - exists s. split; [cbn; rewrite Nat.add_0_r; reflexivity|exact A].
    - rewrite (reqd_cons _ _ _ P). cbn [foldM]. cbn [List.concat] in A. rewrite <- app_assoc in A. destruct (skip_text _ v _ s B A) as (n & s1 & E & A1 & Z).
      assert (ST : tstep1 keys (t, s) ep = Ok ((if requested keys (fst ep) (snd ep) then t + n else t)%nat, s1)) by (unfold tstep1; cbn [fst snd]; rewrite E; reflexivity). rewrite ST. cbn [bind].
      destruct (requested keys (fst ep) (snd ep)) eqn:RQ.
      + destruct (P ep ltac:(left; reflexivity) RQ) as (T & NL). rewrite (Z NL), T. destruct (IH (keys_tail _ _ _ P) (t + stride FLOAT32)%nat s1 ws A1) as (s' & E' & A'). exists s'. split; [|exact A']. rewrite E'. f_equal. f_equal. cbn [stride]. lia.
      + destruct (IH (keys_tail _ _ _ P) t s1 ws A1) as (s' & E' & A'). exists s'. split; [rewrite E'; reflexivity|exact A'].
  Qed.
  (** The requested values can be read. *)
  Definition readable (keys : list N) (ep : element * property) (v : list bytes) : Prop := requested keys (fst ep) (snd ep) = true -> exists f, reads real v f.
  Lemma second_text : forall cap keys l vs, Forall2 (fun ep v => text_value (snd ep) v) l vs -> Forall2 (readable keys) l vs -> plain_keys keys l -> forall out s ws, at_words (List.concat vs ++ ws) s -> (List.length out + reqd keys l <= cap)%nat ->
    exists s', foldM (tstep2 cap keys) (out, s) l = Ok (out ++ flat_map (taken_by pay keys) (combine l vs), s').
  Proof.
    intros cap keys l vs F. induction F as [|ep v l vs B F IH]; intros G P out s ws A C.
    - exists s. cbn. rewrite app_nil_r. reflexivity.
    - inversion G as [|? ? ? ? G0 G1]; subst. rewrite (reqd_cons _ _ _ P) in C. cbn [foldM combine flat_map]. cbn [List.concat] in A. rewrite <- app_assoc in A. unfold taken_by at 1. cbn [fst snd]. unfold readable in G0. destruct (requested keys (fst ep) (snd ep)) eqn:RQ.
      + destruct (P ep ltac:(left; reflexivity) RQ) as (T & NL). destruct (G0 eq_refl) as (f & w & -> & RT & RL). cbn [app] in A. destruct (sentry_at w _ s A) as (r & SE & _ & EN & A' & _).
        assert (PW : pay [w] = stored f) by (unfold pay; cbn [List.concat]; rewrite app_nil_r, RL; reflexivity).
        assert (L4 : List.length (stored f) = 4%nat) by (destruct f as [[[? ?] ?] ?]; reflexivity).
        assert (ST : tstep2 cap keys (out, s) ep = Ok (out ++ stored f, Input r (null r) false)).
        { unfold tstep2. cbn [fst snd]. rewrite RQ, NL, T. unfold read_property_ascii. rewrite SE. cbn [fail left int_range]. rewrite (extract_real w r RT EN), RL. cbn [bind]. rewrite put_ok by (rewrite L4; lia). reflexivity. }
        rewrite ST. cbn [bind]. rewrite PW. destruct (IH G1 (keys_tail _ _ _ P) (out ++ stored f) _ ws A') as (s' & E); [rewrite app_length, L4; lia|]. exists s'. rewrite E, <- app_assoc. reflexivity.
      + destruct (skip_text _ v _ s B A) as (n & s1 & E & A1 & _). assert (ST : tstep2 cap keys (out, s) ep = Ok (out, s1)) by (unfold tstep2; cbn [fst snd]; rewrite RQ, E; reflexivity). rewrite ST. cbn [bind app].
        destruct (IH G1 (keys_tail _ _ _ P) out s1 ws A1) as (s' & E'); [lia|]. exists s'. rewrite E'. reflexivity.
  Qed.
  Lemma text_sizes : forall keys l vs, Forall2 (readable keys) l vs -> Forall2 (fun ep v => requested keys (fst ep) (snd ep) = true -> List.length (pay v) = 4%nat) l vs.
  Proof.
    intros keys l vs F. induction F as [|ep v l vs H F IH]; constructor; [|exact IH]. intro RQ. destruct (H RQ) as (f & w & -> & _ & RL). unfold pay. cbn [List.concat]. rewrite app_nil_r, RL. destruct f as [[[? ?] ?] ?]. reflexivity.
  Qed.
  Lemma read_text_data : forall keys els vs more data, Forall2 (fun ep v => text_value (snd ep) v) (flat els) vs -> Forall2 (readable keys) (flat els) vs -> plain_keys keys (flat els) -> spaced space (List.concat vs ++ more) data ->
    read_data_ascii real keys els (Stream data true) = Ok (flat_map (taken_by pay keys) (combine (flat els) vs)).
  Proof.
    intros keys els vs more data F G P S. unfold read_data_ascii. cbn [rest good negb]. assert (A : at_words (List.concat vs ++ more) (Input data false false)) by (split; [reflexivity|]; split; [exact S|reflexivity]).
    rewrite tfirst_flat. destruct (first_text keys _ _ F P 0%nat _ more A) as (s' & E & FA & _). rewrite E. cbn [bind]. rewrite FA, tsecond_flat.
    destruct (second_text (0 + reqd keys (flat els)) keys _ _ F G P [] _ more A) as (s2 & E2); [cbn; lia|]. rewrite E2. cbn [bind app]. rewrite (taken_size _ _ _ _ _ (text_sizes _ _ _ G) P), Nat.eqb_refl. reflexivity.
  Qed.
End Text.
