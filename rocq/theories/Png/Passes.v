(** Interlaced pictures: which pixels the passes have. *)
From Coq Require Import List Bool ZArith Ascii String Lia.
From Verif.Base Require Import Py.
From Verif.Png Require Import Model.
From Verif.Png Require Import Spec.
From Verif.Png Require Import Rows.
Import ListNotations.
Local Open Scope nat_scope.

(** Every [s]-th element from the [o]-th on. *)
Definition places {A} (s o : nat) (l : list A) : list A := map snd (List.filter (fun q => fst q mod s =? o) (numbered l)).
Lemma places_from : forall A s o (l : list A) a d i, d < s -> (a + d) mod s = o ->
  nth_error (map snd (List.filter (fun q => fst q mod s =? o) (combine (seq a (List.length l)) l))) i = nth_error l (d + i * s).
Proof.
  intros A s o l. induction l as [|x l IH]; intros a d i D E; [destruct i; destruct (d + _); reflexivity|]. cbn [List.length seq combine List.filter fst].
  destruct (Nat.eqb_spec (a mod s) o) as [H|H].
  - assert (D0 : d = 0).
    { assert (E1 := Nat.div_mod (a + d) s ltac:(lia)). assert (E2 := Nat.div_mod a s ltac:(lia)). rewrite E in E1. rewrite H in E2. revert E1 E2. generalize ((a + d) / s), (a / s). intros q1 q2 E1 E2. destruct (Nat.lt_trichotomy q1 q2) as [Q|[Q|Q]]; [exfalso; assert (s * S q1 <= s * q2) by (apply Nat.mul_le_mono_l; lia); lia|subst q2; lia|exfalso; assert (s * S q2 <= s * q1) by (apply Nat.mul_le_mono_l; lia); lia]. }
    subst d. cbn [map snd]. destruct i as [|i]; [reflexivity|]. cbn [nth_error]. rewrite (IH (S a) (s - 1) i).
    + replace (0 + S i * s) with (S (s - 1 + i * s)) by lia. reflexivity.
    + lia.
    + replace (S a + (s - 1)) with (a + 1 * s) by lia. rewrite Nat.mod_add by lia. exact H.
  - destruct d as [|d]; [rewrite Nat.add_0_r in E; contradiction|]. rewrite (IH (S a) d i); [reflexivity|lia|]. replace (S a + d) with (a + S d) by lia. exact E.
Qed.
Lemma nth_places : forall A s o (l : list A) i, o < s -> nth_error (places s o l) i = nth_error l (o + i * s).
Proof. intros A s o l i O. apply places_from; [exact O|]. apply Nat.mod_small, O. Qed.
Lemma places_count : forall A s o (l : list A), o < s -> Z.of_nat (List.length (places s o l)) = ((len l - Z.of_nat o + Z.of_nat s - 1) / Z.of_nat s)%Z.
Proof.
  intros A s o l O. assert (H : forall i, i < List.length (places s o l) <-> o + i * s < List.length l).
  { intros i. rewrite <- !nth_error_Some, nth_places by exact O. tauto. }
  set (n := List.length (places s o l)) in *. unfold len. set (m := List.length l) in *. apply Z.div_unique with (Z.of_nat m - Z.of_nat o + Z.of_nat s - 1 - Z.of_nat s * Z.of_nat n)%Z; [|lia]. left.
  assert (H1 := proj1 (Nat.nlt_ge _ _) (fun X => Nat.lt_irrefl n (proj2 (H n) X))). destruct n as [|n]; [lia|]. assert (H2 := proj1 (H n) ltac:(lia)). nia.
Qed.
Lemma places_all : forall A (P : A -> Prop) s o l, Forall P l -> Forall P (places s o l).
Proof.
  intros A P s o l F. unfold places. apply Forall_map, Forall_forall. intros [i x] I. apply filter_In in I. destruct I as [I _]. unfold numbered in I. apply in_combine_r in I. exact (proj1 (Forall_forall _ _) F x I).
Qed.

(** The places of each pass. *)
Definition table : list (nat * (nat * nat * nat * nat)) :=
  [(1, (0, 0, 8, 8)); (2, (4, 0, 8, 8)); (3, (0, 4, 4, 8)); (4, (2, 0, 4, 4)); (5, (0, 2, 2, 4)); (6, (1, 0, 2, 2)); (7, (0, 1, 1, 2))].
Definition check : bool :=
  forallb (fun e : nat * (nat * nat * nat * nat) => let '(k, (xo, yo, xs, ys)) := e in
    forallb (fun y => forallb (fun x => Bool.eqb (nth x (nth y adam7 []) 0 =? k) ((y mod ys =? yo) && (x mod xs =? xo))) (seq 0 8)) (seq 0 8)) table.
Lemma checked : check = true. Proof. vm_compute. reflexivity. Qed.
Lemma mod8 : forall n s c, s * c = 8 -> n mod 8 mod s = n mod s.
Proof.
  intros n s c E. assert (S0 : s <> 0) by nia. assert (D := Nat.div_mod n 8 ltac:(lia)). rewrite D at 2. replace (8 * (n / 8) + n mod 8) with (n mod 8 + c * (n / 8) * s) by nia. rewrite Nat.mod_add by exact S0. reflexivity.
Qed.
Lemma lattice : forall k xo yo xs ys, In (k, (xo, yo, xs, ys)) table -> xo < xs /\ yo < ys /\ forall y x, (pass_of y x =? k) = (y mod ys =? yo) && (x mod xs =? xo).
Proof.
  intros k xo yo xs ys I. assert (B : xo < xs /\ yo < ys /\ (exists c, xs * c = 8) /\ exists c, ys * c = 8).
  { repeat (destruct I as [E|I]; [injection E as <- <- <- <- <-; repeat split; try lia; solve [exists 1; reflexivity|exists 2; reflexivity|exists 4; reflexivity|exists 8; reflexivity]|]). contradiction. }
  destruct B as (B1 & B2 & [c C] & [d D]). split; [exact B1|]. split; [exact B2|]. intros y x.
  assert (K := proj1 (forallb_forall _ _) checked _ I). cbv beta iota in K.
  assert (K1 := proj1 (forallb_forall _ _) K (y mod 8) ltac:(apply in_seq; assert (X := Nat.mod_upper_bound y 8 ltac:(lia)); lia)). cbv beta in K1.
  assert (K2 := proj1 (forallb_forall _ _) K1 (x mod 8) ltac:(apply in_seq; assert (X := Nat.mod_upper_bound x 8 ltac:(lia)); lia)). cbv beta in K2. apply Bool.eqb_prop in K2.
  rewrite (mod8 y ys d D), (mod8 x xs c C) in K2. exact K2.
Qed.
Lemma pass_places : forall k xo yo xs ys, In (k, (xo, yo, xs, ys)) table -> forall w rows, Forall (fun r : list (list Z) => List.length r = w) rows ->
  pass k rows = if xo <? w then map (places xs xo) (places ys yo rows) else [].
Proof.
  intros k xo yo xs ys I w rows F. destruct (lattice k xo yo xs ys I) as (X & Y & L). unfold pass.
  assert (E : map (fun r : nat * list (list Z) => map snd (List.filter (fun q => pass_of (fst r) (fst q) =? k) (numbered (snd r)))) (numbered rows)
    = map (fun r => if fst r mod ys =? yo then places xs xo (snd r) else []) (numbered rows)).
  { apply map_ext. intros [y r]. cbn [fst snd]. destruct (y mod ys =? yo) eqn:H.
    - unfold places. f_equal. apply filter_ext. intros [x px]. cbn [fst]. rewrite L, H. reflexivity.
    - generalize (numbered r). intros l. induction l as [|[x px] l IH]; [reflexivity|]. cbn [List.filter fst]. rewrite L, H. exact IH. }
  rewrite E. clear E. unfold places at 3.
  assert (FN : Forall (fun q : nat * list (list Z) => List.length (snd q) = w) (numbered rows)). { apply Forall_forall. intros [i r] J. apply in_combine_r in J. exact (proj1 (Forall_forall _ _) F r J). }
  revert FN. generalize (numbered rows). intros l FN. induction FN as [|[y r] l H FN IH]; [destruct (xo <? w); reflexivity|]. cbn [map List.filter fst snd] in *. destruct (y mod ys =? yo).
  - assert (N := nth_places _ xs xo r 0 X). rewrite Nat.add_0_r in N. destruct (Nat.ltb_spec xo w) as [XW|XW].
    + assert (NN : nth_error r xo <> None) by (apply nth_error_Some; lia). destruct (places xs xo r) as [|px pr] eqn:PR; [cbn [nth_error] in N; congruence|]. cbn [map snd]. rewrite PR, IH. reflexivity.
    + assert (NN : nth_error r xo = None) by (apply nth_error_None; lia). destruct (places xs xo r) as [|px pr]; [exact IH|]. cbn [nth_error] in N. congruence.
  - exact IH.
Qed.

(** * Copying *)
Local Open Scope Z_scope.
Lemma put_row_at : forall row m y x s i px, 0 < s -> nth_error row i = Some px -> put_row m y x s row y (x + Z.of_nat i * s) = Some px.
Proof.
  assert (OLD : forall row m y x s x', 0 < s -> x' < x -> put_row m y x s row y x' = m y x').
  { induction row as [|q row IH]; intros m y x s x' S L; [reflexivity|]. cbn [put_row]. rewrite IH by lia. unfold put. destruct (Z.eqb_spec x' x); [lia|]. rewrite andb_false_r. reflexivity. }
  induction row as [|q row IH]; intros m y x s i px SP N; [destruct i; discriminate N|]. cbn [put_row]. destruct i as [|i].
  - injection N as ->. rewrite OLD by lia. unfold put. replace (x + Z.of_nat 0 * s) with x by lia. rewrite !Z.eqb_refl. reflexivity.
  - replace (x + Z.of_nat (S i) * s) with (x + s + Z.of_nat i * s) by lia. apply IH; assumption.
Qed.
Lemma put_row_other : forall row m y x s y' x', (y' <> y \/ forall i, (i < List.length row)%nat -> x' <> x + Z.of_nat i * s) -> put_row m y x s row y' x' = m y' x'.
Proof.
  induction row as [|q row IH]; intros m y x s y' x' H; [reflexivity|]. cbn [put_row]. rewrite IH.
  - unfold put. destruct (Z.eqb_spec y' y), (Z.eqb_spec x' x); cbn [andb]; try reflexivity. exfalso. destruct H as [H|H]; [contradiction|]. apply (H 0%nat); [cbn; lia|lia].
  - destruct H as [H|H]; [left; exact H|right]. intros i I. assert (K := H (S i) ltac:(cbn; lia)). lia.
Qed.
Lemma put_rows_at : forall rows m y x sy sx j row i px, 0 < sy -> 0 < sx -> nth_error rows j = Some row -> nth_error row i = Some px ->
  put_rows m y x sy sx rows (y + Z.of_nat j * sy) (x + Z.of_nat i * sx) = Some px.
Proof.
  assert (OLD : forall rows m y x sy sx y' x', 0 < sy -> y' < y -> put_rows m y x sy sx rows y' x' = m y' x').
  { induction rows as [|r rows IH]; intros m y x sy sx y' x' S L; [reflexivity|]. cbn [put_rows]. rewrite IH by lia. apply put_row_other. left. lia. }
  induction rows as [|r rows IH]; intros m y x sy sx j row i px SY SX N1 N2; [destruct j; discriminate N1|]. cbn [put_rows]. destruct j as [|j].
  - injection N1 as ->. rewrite OLD by lia. replace (y + Z.of_nat 0 * sy) with y by lia. apply put_row_at; assumption.
  - replace (y + Z.of_nat (S j) * sy) with (y + sy + Z.of_nat j * sy) by lia. apply (IH _ _ _ _ _ j row i px); assumption.
Qed.
Lemma put_rows_other : forall rows m y x sy sx y' x', ((forall j, y' <> y + Z.of_nat j * sy) \/ forall i, x' <> x + Z.of_nat i * sx) -> put_rows m y x sy sx rows y' x' = m y' x'.
Proof.
  induction rows as [|r rows IH]; intros m y x sy sx y' x' H; [reflexivity|]. cbn [put_rows]. rewrite IH.
  - apply put_row_other. destruct H as [H|H]; [left; assert (K := H 0%nat); lia|right; intros i _; apply H].
  - destruct H as [H|H]; [left; intros j; assert (K := H (S j)); lia|right; exact H].
Qed.
(** A property of all pixels. *)
Lemma put_rows_all : forall (P : list Z -> Prop) rows m y x sy sx, Forall (Forall P) rows -> (forall y' x' px, m y' x' = Some px -> P px) -> forall y' x' px, put_rows m y x sy sx rows y' x' = Some px -> P px.
Proof.
  intros P. assert (ROW : forall row m y x s, Forall P row -> (forall y' x' px, m y' x' = Some px -> P px) -> forall y' x' px, put_row m y x s row y' x' = Some px -> P px).
  { induction row as [|q row IH]; intros m y x s F M; [exact M|]. inversion F; subst. cbn [put_row]. apply IH; [assumption|]. intros y' x' px. unfold put. destruct (_ && _); [intros E; injection E as <-; assumption|apply M]. }
  induction rows as [|r rows IH]; intros m y x sy sx F M; [exact M|]. inversion F; subst. cbn [put_rows]. apply IH; [assumption|]. apply ROW; assumption.
Qed.

(** * Reading what was copied *)
Lemma mapM_seq : forall A B (g : nat -> res B) (f : A -> B) (l : list A) a, (forall i x, nth_error l i = Some x -> g (a + i)%nat = Ok (f x)) -> mapM g (seq a (List.length l)) = Ok (map f l).
Proof.
  intros A B g f l. induction l as [|x l IH]; intros a H; [reflexivity|]. cbn [List.length seq mapM map]. rewrite <- (Nat.add_0_r a) at 1. rewrite (H 0%nat x eq_refl). cbn [bind]. rewrite (IH (S a)); [reflexivity|]. intros i y N. replace (S a + i)%nat with (a + S i)%nat by lia. apply H, N.
Qed.
Lemma read_canvas : forall (f : list Z -> list Z) w (rows : list (list (list Z))) (m : canvas), Forall (fun r => List.length r = w) rows ->
  (forall y x row px, nth_error rows y = Some row -> nth_error row x = Some px -> m (Z.of_nat y) (Z.of_nat x) = Some (f px)) ->
  mapM (fun y => mapM (read_at m y) (seq 0 w)) (seq 0 (List.length rows)) = Ok (map (map f) rows).
Proof.
  intros f w rows m F H. apply mapM_seq. intros y row N. cbn [Nat.add]. replace w with (List.length row) by (apply (proj1 (Forall_forall _ _) F), (nth_error_In _ _ N)). apply mapM_seq. intros x px M. cbn [Nat.add]. unfold read_at. rewrite (H y x row px N M). reflexivity.
Qed.
