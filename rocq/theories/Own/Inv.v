(** Invariants of programs with wrapped meshes. *)
From Coq Require Import List Bool ZArith Lia Arith.
From Verif.Base Require Import Py.
From Verif.Mesh Require Import Model.
From Verif.Own Require Import Model Spec Proofs.
Import ListNotations.

Section Inv.
  Context {V N T M X : Type}.
  Variables (jv : nat -> V) (jn : nat -> N) (jt : nat -> T) (no_material : M) (texture_material : X -> M) (no_texture : X).
  Notation state := (state V N T M X). Notation stmt := (stmt V N T M X). Notation native := (native V N T M X).
  Notation run1 := (run1 jv jn jt no_material texture_material no_texture).
  Notation run := (run jv jn jt no_material texture_material no_texture).
  Implicit Types (s : state) (c : stmt).

  Definition inv_live s := forall h w a, object s h = Some w -> points w a -> exists n, cell s a = Some n.
  Definition inv_tex s := forall h w a n, object s h = Some w -> p_tex w = Some a -> cell s a = Some n -> isTextured n = true.
  Definition inv_sep s := forall h1 h2 w1 w2 a, object s h1 = Some w1 -> object s h2 = Some w2 -> points w1 a -> points w2 a -> h1 = h2.
  Definition inv_cls s := forall h w, object s h = Some w -> cls w = KMesh -> p_tex w = None.
  Definition inv s := inv_live s /\ inv_tex s /\ inv_sep s /\ inv_cls s.
  (** No null pointers. *)
  Definition full s := forall h w, object s h = Some w -> p_mesh w <> None /\ (cls w = KTextured -> p_tex w <> None).
  (** Every mesh has its object. *)
  Definition owned s := (forall a n, cell s a = Some n -> exists h w, object s h = Some w /\ p_mesh w = Some a) /\
    (forall h w, object s h = Some w -> p_tex w = None \/ p_tex w = p_mesh w).

  Lemma owner_points k (n : native) a : points (owner k n) a -> a = k.
  Proof. unfold owner, points. destruct (isTextured n); cbn; intros [E|E]; congruence. Qed.
  Lemma owner_mesh k (n : native) : p_mesh (owner k n) = Some k.
  Proof. unfold owner. destruct (isTextured n); reflexivity. Qed.

  Ltac nat_cases := repeat match goal with
    | H : context [Nat.eqb ?a ?b] |- _ => destruct (Nat.eqb_spec a b); subst
    | H : context [Nat.ltb ?a ?b] |- _ => destruct (Nat.ltb_spec a b)
    | |- context [Nat.eqb ?a ?b] => destruct (Nat.eqb_spec a b); subst
    | |- context [Nat.ltb ?a ?b] => destruct (Nat.ltb_spec a b)
    end.

  Lemma object_make s (l : list native) h w : object (State (heap s ++ map Some l) (objects s ++ owners (length (heap s)) l)) h = Some w ->
    (h < length (objects s) /\ object s h = Some w) \/
    (exists i n, h = length (objects s) + i /\ nth_error l i = Some n /\ w = owner (length (heap s) + i) n).
  Proof.
    rewrite (object_app s). destruct (Nat.ltb_spec h (length (objects s))); [left; split; assumption|].
    rewrite owners_nth. destruct (nth_error l (h - length (objects s))) as [n|] eqn:E; cbn; [|discriminate].
    intros Ew. injection Ew as <-. right. exists (h - length (objects s)), n. split; [lia|]. split; [exact E|reflexivity].
  Qed.
  Lemma cell_make s (l : list native) o i n : nth_error l i = Some n -> cell (State (heap s ++ map Some l) o) (length (heap s) + i) = Some n.
  Proof.
    intros E. rewrite cell_heap_app. destruct (Nat.ltb_spec (length (heap s) + i) (length (heap s))); [lia|].
    replace (length (heap s) + i - length (heap s)) with i by lia. rewrite (map_nth_error Some i l E). reflexivity.
  Qed.
  Lemma cell_kept s (l : list (option native)) o a n : cell s a = Some n -> cell (State (heap s ++ l) o) a = Some n.
  Proof. intros C. rewrite cell_heap_app. assert (L := cell_lt _ _ _ C). destruct (Nat.ltb_spec a (length (heap s))); [exact C|lia]. Qed.
  Lemma cell_fresh s (l : list (option native)) o a n : cell (State (heap s ++ l) o) a = Some n ->
    cell s a = Some n \/ exists i, a = length (heap s) + i /\ nth_error l i = Some (Some n).
  Proof.
    rewrite cell_heap_app. destruct (Nat.ltb_spec a (length (heap s))); [left; assumption|]. intros E. right.
    exists (a - length (heap s)). split; [lia|]. destruct (nth_error l (a - length (heap s))) as [o1|]; congruence.
  Qed.

  Lemma inv_effect c s s' : inv s -> effect c s s' -> inv s'.
  Proof.
    intros (L & Tx & Sp & Cl) E.
    assert (LT : forall h w a, object s h = Some w -> points w a -> a < length (heap s))
      by (intros h w a O P; destruct (L h w a O P) as (n & C); apply (cell_lt _ _ _ C)).
    destruct E as [|h w a n n' Tg O P C Et|h w w' n Tg Or O Ec Em Ep|l|l Or|k Pl| |h w Tg O].
    - repeat split; assumption.
    - assert (La := cell_lt _ _ _ C). repeat split.
      + intros h1 w1 a1 O1 P1. rewrite object_heap in O1. rewrite cell_set. nat_cases; [exists n'; reflexivity|lia|apply (L h1 w1 a1 O1 P1)].
      + intros h1 w1 a1 n1 O1 P1. rewrite object_heap in O1. rewrite cell_set. nat_cases; try (intros E; discriminate).
        * intros E; injection E as <-. rewrite Et. apply (Tx h1 w1 a n O1 P1 C).
        * apply (Tx h1 w1 a1 n1 O1 P1).
      + exact Sp.
      + exact Cl.
    - assert (Lh := object_lt _ _ _ O).
      assert (PP : forall a1, points w' a1 -> points w a1 \/ a1 = length (heap s)).
      { intros a1 [E|E]; [rewrite Em in E; injection E as <-; right; reflexivity|].
        destruct Ep as [(Ep & _)|(Ep & _)]; [left; right; congruence|right; congruence]. }
      assert (OO : forall h1 w1, object (State (V:=V) (N:=N) (T:=T) (M:=M) (X:=X) (heap s ++ [Some n]) (set_nth (objects s) h (Some w'))) h1 = Some w1 ->
        (h1 = h /\ w1 = w') \/ (h1 <> h /\ object s h1 = Some w1)).
      { intros h1 w1. rewrite (object_set s). nat_cases; intros E; [injection E as <-; left; split; reflexivity|lia|right; split; assumption]. }
      repeat split.
      + intros h1 w1 a1 O1 P1. destruct (OO _ _ O1) as [(-> & ->)|(_ & O1')].
        * destruct (PP a1 P1) as [P| ->]; [destruct (L h w a1 O P) as (n1 & C1); exists n1; apply cell_kept; exact C1|].
          exists n. rewrite <- (Nat.add_0_r (length (heap s))). apply (cell_make s [n] _ 0 n eq_refl).
        * destruct (L h1 w1 a1 O1' P1) as (n1 & C1). exists n1. apply cell_kept. exact C1.
      + intros h1 w1 a1 n1 O1 P1 C1. destruct (OO _ _ O1) as [(-> & ->)|(_ & O1')].
        * destruct Ep as [(Ep & _)|(Ep & Etn & _)].
          -- rewrite Ep in P1. destruct (L h w a1 O (or_intror P1)) as (n2 & C2). assert (C3 := cell_kept s [Some n] (set_nth (objects s) h (Some w')) a1 n2 C2).
             apply (Tx h w a1 n1 O P1). congruence.
          -- rewrite Ep in P1. injection P1 as <-. assert (C2 := cell_make s [n] (set_nth (objects s) h (Some w')) 0 n eq_refl).
             cbn [map] in C2. rewrite Nat.add_0_r in C2. congruence.
        * destruct (L h1 w1 a1 O1' (or_intror P1)) as (n2 & C2). assert (C3 := cell_kept s [Some n] (set_nth (objects s) h (Some w')) a1 n2 C2).
          apply (Tx h1 w1 a1 n1 O1' P1). congruence.
      + intros h1 h2 w1 w2 a O1 O2 P1 P2.
        destruct (OO _ _ O1) as [(-> & ->)|(Ne1 & O1')]; destruct (OO _ _ O2) as [(-> & ->)|(Ne2 & O2')].
        * reflexivity.
        * destruct (PP a P1) as [P| ->]; [apply (Sp h h2 w w2 a O O2' P P2)|]. assert (H := LT h2 w2 _ O2' P2). lia.
        * destruct (PP a P2) as [P| ->]; [apply (Sp h1 h w1 w a O1' O P1 P)|]. assert (H := LT h1 w1 _ O1' P1). lia.
        * apply (Sp h1 h2 w1 w2 a O1' O2' P1 P2).
      + intros h1 w1 O1 K. destruct (OO _ _ O1) as [(-> & ->)|(_ & O1')]; [|apply (Cl h1 w1 O1' K)].
        rewrite Ec in K. destruct Ep as [(Ep & _)|(_ & _ & K2)]; [rewrite Ep; apply (Cl h w O K)|congruence].
    - repeat split.
      + intros h1 w1 a1 O1 P1. destruct (object_make _ _ _ _ O1) as [(_ & O1')|(i & n & -> & En & ->)].
        * destruct (L h1 w1 a1 O1' P1) as (n1 & C1). exists n1. apply cell_kept. exact C1.
        * rewrite (owner_points _ _ _ P1). exists n. apply cell_make. exact En.
      + intros h1 w1 a1 n1 O1 P1 C1. destruct (object_make _ _ _ _ O1) as [(_ & O1')|(i & n & -> & En & ->)].
        * destruct (L h1 w1 a1 O1' (or_intror P1)) as (n2 & C2). apply (cell_kept s (map Some l) (objects s ++ owners (length (heap s)) l)) in C2 as C3.
          apply (Tx h1 w1 a1 n1 O1' P1). congruence.
        * assert (Ea := owner_points _ _ _ (or_intror P1)). subst a1. rewrite (cell_make s l _ i n En) in C1. injection C1 as <-.
          unfold owner in P1. destruct (isTextured n); [reflexivity|discriminate].
      + intros h1 h2 w1 w2 a O1 O2 P1 P2.
        destruct (object_make _ _ _ _ O1) as [(_ & O1')|(i & n & -> & En & ->)], (object_make _ _ _ _ O2) as [(_ & O2')|(j & n' & -> & En' & ->)].
        * apply (Sp h1 h2 w1 w2 a O1' O2' P1 P2).
        * assert (H := LT h1 w1 _ O1' P1). assert (Ea := owner_points _ _ _ P2). lia.
        * assert (H := LT h2 w2 _ O2' P2). assert (Ea := owner_points _ _ _ P1). lia.
        * assert (Ea := owner_points _ _ _ P1). assert (Eb := owner_points _ _ _ P2). lia.
      + intros h1 w1 O1 K. destruct (object_make _ _ _ _ O1) as [(_ & O1')|(i & n & -> & En & ->)]; [apply (Cl h1 w1 O1' K)|].
        unfold owner in *. destruct (isTextured n); [discriminate|reflexivity].
    - repeat split.
      + intros h1 w1 a1 O1 P1. destruct (L h1 w1 a1 O1 P1) as (n1 & C1). exists n1. apply cell_kept. exact C1.
      + intros h1 w1 a1 n1 O1 P1 C1. destruct (L h1 w1 a1 O1 (or_intror P1)) as (n2 & C2).
        apply (cell_kept s (map Some l) (objects s)) in C2 as C3. apply (Tx h1 w1 a1 n1 O1 P1). congruence.
      + exact Sp.
      + exact Cl.
    - assert (OO : forall h1 w1, object (State (V:=V) (N:=N) (T:=T) (M:=M) (X:=X) (heap s) (objects s ++ [Some (Wrapper k None None)])) h1 = Some w1 ->
        w1 = Wrapper k None None \/ object s h1 = Some w1).
      { intros h1 w1. rewrite (object_app s). nat_cases; intros E; [right; exact E|].
        destruct (h1 - length (objects s)) as [|[|j]]; cbn in E; try discriminate. injection E as <-. left. reflexivity. }
      repeat split.
      + intros h1 w1 a1 O1 P1. destruct (OO _ _ O1) as [->|O1']; [destruct P1; discriminate|apply (L h1 w1 a1 O1' P1)].
      + intros h1 w1 a1 n1 O1 P1 C1. destruct (OO _ _ O1) as [->|O1']; [discriminate|apply (Tx h1 w1 a1 n1 O1' P1 C1)].
      + intros h1 h2 w1 w2 a O1 O2 P1 P2. destruct (OO _ _ O1) as [->|O1']; [destruct P1; discriminate|].
        destruct (OO _ _ O2) as [->|O2']; [destruct P2; discriminate|]. apply (Sp h1 h2 w1 w2 a O1' O2' P1 P2).
      + intros h1 w1 O1 K. destruct (OO _ _ O1) as [->|O1']; [reflexivity|apply (Cl h1 w1 O1' K)].
    - assert (OO : forall h1 w1, object (State (V:=V) (N:=N) (T:=T) (M:=M) (X:=X) (heap s) (objects s ++ [None])) h1 = Some w1 -> object s h1 = Some w1).
      { intros h1 w1. rewrite (object_app s). nat_cases; intros E; [exact E|].
        destruct (h1 - length (objects s)) as [|[|j]]; cbn in E; discriminate. }
      repeat split.
      + intros h1 w1 a1 O1 P1. apply (L h1 w1 a1 (OO _ _ O1) P1).
      + intros h1 w1 a1 n1 O1. apply (Tx h1 w1 a1 n1 (OO _ _ O1)).
      + intros h1 h2 w1 w2 a O1 O2. apply (Sp h1 h2 w1 w2 a (OO _ _ O1) (OO _ _ O2)).
      + intros h1 w1 O1. apply (Cl h1 w1 (OO _ _ O1)).
    - set (hp := match p_mesh w with Some a => set_nth (heap s) a None | None => heap s end).
      assert (OO : forall h1 w1, object (State (V:=V) (N:=N) (T:=T) (M:=M) (X:=X) hp (set_nth (objects s) h None)) h1 = Some w1 -> h1 <> h /\ object s h1 = Some w1).
      { intros h1 w1. rewrite (object_set s). nat_cases; intros E; try discriminate. split; assumption. }
      assert (CC : forall a n o, cell (State hp o) a = Some n -> cell s a = Some n).
      { intros a n o. unfold hp. destruct (p_mesh w) as [b|]; [|exact (fun E => E)]. rewrite cell_set. nat_cases; try discriminate. exact (fun E => E). }
      repeat split.
      + intros h1 w1 a1 O1 P1. destruct (OO _ _ O1) as (Ne & O1'). destruct (L h1 w1 a1 O1' P1) as (n1 & C1). exists n1.
        unfold hp. destruct (p_mesh w) as [b|] eqn:Eb; [|exact C1]. rewrite cell_set. nat_cases; [|..|exact C1].
        * destruct Ne. apply (Sp h1 h w1 w b O1' O P1 (or_introl Eb)).
        * destruct Ne. apply (Sp h1 h w1 w b O1' O P1 (or_introl Eb)).
      + intros h1 w1 a1 n1 O1 P1 C1. destruct (OO _ _ O1) as (Ne & O1'). apply (Tx h1 w1 a1 n1 O1' P1 (CC _ _ _ C1)).
      + intros h1 h2 w1 w2 a O1 O2. apply (Sp h1 h2 w1 w2 a (proj2 (OO _ _ O1)) (proj2 (OO _ _ O2))).
      + intros h1 w1 O1. apply (Cl h1 w1 (proj2 (OO _ _ O1))).
  Qed.

  Lemma full_effect c s s' : full s -> plain c -> effect c s s' -> full s'.
  Proof.
    intros F Pl E. destruct E as [|h w a n n' Tg O P C Et|h w w' n Tg Or O Ec Em Ep|l|l Or|k NP| |h w Tg O]; intros h1 w1 O1.
    - apply (F h1 w1 O1).
    - apply (F h1 w1 O1).
    - rewrite (object_set s) in O1. nat_cases; [|discriminate|apply (F h1 w1 O1)]. injection O1 as <-. rewrite Em, Ec. split; [discriminate|].
      intros K. destruct (F h w O) as (_ & F2). destruct Ep as [(-> & _)|(-> & _)]; [apply (F2 K)|discriminate].
    - destruct (object_make _ _ _ _ O1) as [(_ & O1')|(i & n & -> & En & ->)]; [apply (F h1 w1 O1')|].
      unfold owner. destruct (isTextured n); cbn; split; try discriminate; intros; discriminate.
    - apply (F h1 w1 O1).
    - destruct (NP Pl).
    - rewrite (object_app s) in O1. nat_cases; [apply (F h1 w1 O1)|]. destruct (h1 - length (objects s)) as [|[|j]]; discriminate.
    - rewrite (object_set s) in O1. nat_cases; try discriminate. apply (F h1 w1 O1).
  Qed.

  Lemma owned_effect c s s' : owned s -> orderly c -> effect c s s' -> owned s'.
  Proof.
    intros (Ow & Pt) Or E. destruct E as [|h w a n n' Tg O P C Et|h w w' n Tg NO O Ec Em Ep|l|l NO|k NP| |h w Tg O].
    - split; assumption.
    - split; [|exact Pt]. intros a1 n1. rewrite cell_set. nat_cases; [|discriminate|apply Ow]. intros _. apply (Ow a n C).
    - destruct (NO Or).
    - split.
      + intros a1 n1 C1. destruct (cell_fresh _ _ _ _ _ C1) as [C0|(i & -> & En)].
        * destruct (Ow a1 n1 C0) as (h & w & O & Ea). exists h, w. split; [|exact Ea].
          rewrite (object_app s). assert (Lh := object_lt _ _ _ O). nat_cases; [exact O|lia].
        * exists (length (objects s) + i), (owner (length (heap s) + i) n1). split; [|apply owner_mesh].
          rewrite (object_app s). nat_cases; [lia|]. replace (length (objects s) + i - length (objects s)) with i by lia.
          rewrite owners_nth. rewrite nth_error_map in En. destruct (nth_error l i) as [n|]; [|discriminate]. injection En as ->. reflexivity.
      + intros h w O. destruct (object_make _ _ _ _ O) as [(_ & O1)|(i & n & -> & En & ->)]; [apply (Pt h w O1)|].
        unfold owner. destruct (isTextured n); [right|left]; reflexivity.
    - destruct (NO Or).
    - split.
      + intros a1 n1 C1. destruct (Ow a1 n1 C1) as (h & w & O & Ea). exists h, w. split; [|exact Ea].
        rewrite (object_app s). assert (Lh := object_lt _ _ _ O). nat_cases; [exact O|lia].
      + intros h w O. rewrite (object_app s) in O. nat_cases; [apply (Pt h w O)|].
        destruct (h - length (objects s)) as [|[|j]]; cbn in O; try discriminate. injection O as <-. left. reflexivity.
    - split.
      + intros a1 n1 C1. destruct (Ow a1 n1 C1) as (h & w & O & Ea). exists h, w. split; [|exact Ea].
        rewrite (object_app s). assert (Lh := object_lt _ _ _ O). nat_cases; [exact O|lia].
      + intros h w O. rewrite (object_app s) in O. nat_cases; [apply (Pt h w O)|]. destruct (h - length (objects s)) as [|[|j]]; discriminate.
    - split.
      + intros a1 n1 C1.
        assert (C0 : cell s a1 = Some n1 /\ p_mesh w <> Some a1).
        { destruct (p_mesh w) as [b|]; [|split; [exact C1|discriminate]]. rewrite cell_set in C1. nat_cases; try discriminate. split; [exact C1|congruence]. }
        destruct C0 as (C0 & Ne). destruct (Ow a1 n1 C0) as (h2 & w2 & O2 & Ea). exists h2, w2. split; [|exact Ea].
        rewrite (object_set s). nat_cases; [congruence|congruence|exact O2].
      + intros h1 w1 O1. rewrite (object_set s) in O1. nat_cases; try discriminate. apply (Pt h1 w1 O1).
  Qed.

  (** Both pointers of a textured mesh agree. *)
  Definition same_mesh s := forall h w a n, object s h = Some w -> p_mesh w = Some a -> cell s a = Some n -> isTextured n = true -> p_tex w = Some a.
  Lemma same_effect c s s' : inv s -> same_mesh s -> effect c s s' -> same_mesh s'.
  Proof.
    intros (L & _) Sm E. destruct E as [|h w a n n' Tg O P C Et|h w w' n Tg Or O Ec Em Ep|l|l Or|k NP| |h w Tg O]; intros h1 w1 a1 n1 O1 P1 C1 T1.
    - apply (Sm h1 w1 a1 n1 O1 P1 C1 T1).
    - rewrite cell_set in C1. nat_cases; [|discriminate|apply (Sm h1 w1 a1 n1 O1 P1 C1 T1)]. injection C1 as <-.
      apply (Sm h1 w1 a n O1 P1 C). congruence.
    - rewrite (object_set s) in O1. nat_cases; [|discriminate|].
      + injection O1 as <-. rewrite Em in P1. injection P1 as <-. destruct Ep as [(_ & Ef)|(Ep & _)]; [|exact Ep].
        assert (C2 := cell_make s [n] (set_nth (objects s) h (Some w')) 0 n eq_refl). cbn [map] in C2. rewrite Nat.add_0_r in C2. congruence.
      + destruct (L h1 w1 a1 O1 (or_introl P1)) as (n2 & C2). assert (C3 := cell_kept s [Some n] (set_nth (objects s) h (Some w')) a1 n2 C2).
        apply (Sm h1 w1 a1 n1 O1 P1); congruence.
    - destruct (object_make _ _ _ _ O1) as [(_ & O1')|(i & n & -> & En & ->)].
      + destruct (L h1 w1 a1 O1' (or_introl P1)) as (n2 & C2). assert (C3 := cell_kept s (map Some l) (objects s ++ owners (length (heap s)) l) a1 n2 C2).
        apply (Sm h1 w1 a1 n1 O1' P1); congruence.
      + rewrite owner_mesh in P1. injection P1 as <-. rewrite (cell_make s l _ i n En) in C1. injection C1 as <-. unfold owner. rewrite T1. reflexivity.
    - destruct (L h1 w1 a1 O1 (or_introl P1)) as (n2 & C2). assert (C3 := cell_kept s (map Some l) (objects s) a1 n2 C2).
      apply (Sm h1 w1 a1 n1 O1 P1); congruence.
    - rewrite (object_app s) in O1. nat_cases; [apply (Sm h1 w1 a1 n1 O1 P1 C1 T1)|].
      destruct (h1 - length (objects s)) as [|[|j]]; cbn in O1; try discriminate. injection O1 as <-. discriminate.
    - rewrite (object_app s) in O1. nat_cases; [apply (Sm h1 w1 a1 n1 O1 P1 C1 T1)|]. destruct (h1 - length (objects s)) as [|[|j]]; discriminate.
    - rewrite (object_set s) in O1. nat_cases; try discriminate. apply (Sm h1 w1 a1 n1 O1 P1); [|exact T1].
      destruct (p_mesh w) as [b|]; [|exact C1]. rewrite cell_set in C1. nat_cases; try discriminate. exact C1.
  Qed.

  (** A leak is for ever. *)
  Lemma leaked_effect c s s' a : inv s -> leaked s a -> effect c s s' -> leaked s' a /\ cell s' a = cell s a.
  Proof.
    intros I (Cl & Nr) E.
    assert (La : a < length (heap s)) by (destruct (cell s a) as [n|] eqn:C; [apply (cell_lt _ _ _ C)|congruence]).
    enough (H : cell s' a = cell s a /\ forall h, ~ refers_to s' h a).
    { destruct H as (H1 & H2). split; [|exact H1]. split; [congruence|exact H2]. }
    destruct E as [|h w b n n' Tg O P C Et|h w w' n Tg NO O Ec Em Ep|l|l NO|k NP| |h w Tg O].
    - split; [reflexivity|exact Nr].
    - split; [|exact Nr]. rewrite cell_set. nat_cases; [|lia|reflexivity]. destruct (Nr h). exists w. split; assumption.
    - split; [rewrite cell_heap_app; nat_cases; [reflexivity|lia]|]. intros h1 (w1 & O1 & P1). rewrite (object_set s) in O1.
      nat_cases; [|discriminate|apply (Nr h1); exists w1; split; assumption]. injection O1 as <-.
      destruct P1 as [P1|P1]; [rewrite Em in P1; injection P1 as <-; lia|].
      destruct Ep as [(Ep & _)|(Ep & _)]; [apply (Nr h); exists w; split; [exact O|right; congruence]|]. rewrite Ep in P1. injection P1 as <-. lia.
    - split; [rewrite cell_heap_app; nat_cases; [reflexivity|lia]|]. intros h1 (w1 & O1 & P1).
      destruct (object_make _ _ _ _ O1) as [(_ & O2)|(i & n & -> & En & ->)]; [apply (Nr h1); exists w1; split; assumption|].
      assert (Ea := owner_points _ _ _ P1). lia.
    - split; [rewrite cell_heap_app; nat_cases; [reflexivity|lia]|exact Nr].
    - split; [reflexivity|]. intros h1 (w1 & O1 & P1). rewrite (object_app s) in O1. nat_cases; [apply (Nr h1); exists w1; split; assumption|].
      destruct (h1 - length (objects s)) as [|[|j]]; cbn in O1; try discriminate. injection O1 as <-. destruct P1; discriminate.
    - split; [reflexivity|]. intros h1 (w1 & O1 & P1). rewrite (object_app s) in O1. nat_cases; [apply (Nr h1); exists w1; split; assumption|].
      destruct (h1 - length (objects s)) as [|[|j]]; discriminate.
    - split.
      + destruct (p_mesh w) as [b|] eqn:Eb; [|reflexivity]. rewrite cell_set. nat_cases; [| |reflexivity];
          destruct (Nr h); exists w; split; [exact O|left; exact Eb|exact O|left; exact Eb].
      + intros h1 (w1 & O1 & P1). rewrite (object_set s) in O1. nat_cases; try discriminate. apply (Nr h1); exists w1; split; assumption.
  Qed.

  (** Objects other than the target stay as they are. *)
  Lemma shows_effect c s s' h : inv s -> effect c s s' -> target c <> Some h -> object s h <> None -> shows s' h = shows s h.
  Proof.
    intros (L & _ & Sp & _) E Nt Oh. destruct (object s h) as [v|] eqn:Ov; [|congruence]. clear Oh.
    assert (Lh := object_lt _ _ _ Ov).
    assert (G : forall s2 : state, object s2 h = Some v -> (forall a n, points v a -> cell s a = Some n -> cell s2 a = Some n) -> shows s2 h = shows s h).
    { intros s2 O2 C2. unfold shows. rewrite O2, Ov.
      enough (H : option_map (cell s2) (p_mesh v) = option_map (cell s) (p_mesh v) /\ option_map (cell s2) (p_tex v) = option_map (cell s) (p_tex v))
        by (destruct H as (-> & ->); reflexivity). split.
      - destruct (p_mesh v) as [a|] eqn:Ea; [|reflexivity]. cbn. destruct (L h v a Ov (or_introl Ea)) as (n & C). rewrite C, (C2 a n (or_introl Ea) C). reflexivity.
      - destruct (p_tex v) as [a|] eqn:Ea; [|reflexivity]. cbn. destruct (L h v a Ov (or_intror Ea)) as (n & C). rewrite C, (C2 a n (or_intror Ea) C). reflexivity. }
    destruct E as [|h1 w b n n' Tg O P C Et|h1 w w' n Tg NO O Ec Em Ep|l|l NO|k NP| |h1 w Tg O].
    - reflexivity.
    - apply G; [exact Ov|]. intros a m Pa Ca. rewrite cell_set. nat_cases; [..|exact Ca]; destruct Nt; rewrite Tg; f_equal; apply (Sp h1 h w v b O Ov P Pa).
    - apply G; [rewrite (object_set s); nat_cases; [congruence|congruence|exact Ov]|]. intros a m _ Ca. apply cell_kept. exact Ca.
    - apply G; [rewrite (object_app s); nat_cases; [exact Ov|lia]|]. intros a m _ Ca. apply cell_kept. exact Ca.
    - apply G; [exact Ov|]. intros a m _ Ca. apply cell_kept. exact Ca.
    - apply G; [rewrite (object_app s); nat_cases; [exact Ov|lia]|]. intros a m _ Ca. exact Ca.
    - apply G; [rewrite (object_app s); nat_cases; [exact Ov|lia]|]. intros a m _ Ca. exact Ca.
    - apply G; [rewrite (object_set s); nat_cases; [congruence|congruence|exact Ov]|]. intros a m Pa Ca.
      destruct (p_mesh w) as [b|] eqn:Eb; [|exact Ca]. rewrite cell_set. nat_cases; [..|exact Ca]; destruct Nt; rewrite Tg; f_equal; apply (Sp h1 h w v b O Ov (or_introl Eb) Pa).
  Qed.

  (** Faults. *)
  Lemma mesh_load s h w f : inv s -> object s h = Some w -> loaded (p_mesh w) s = inr f -> f = NullPointer /\ p_mesh w = None.
  Proof.
    intros (L & _) O E. destruct (loaded_fault _ _ _ E) as [(En & ->)|(a & Ea & C)]; [split; [reflexivity|exact En]|].
    destruct (L h w a O (or_introl Ea)) as (n & Cn). congruence.
  Qed.
  Lemma tex_load s h w f : inv s -> object s h = Some w -> loaded (p_tex w) s = inr f -> f = NullPointer /\ p_tex w = None.
  Proof.
    intros (L & _) O E. destruct (loaded_fault _ _ _ E) as [(En & ->)|(a & Ea & C)]; [split; [reflexivity|exact En]|].
    destruct (L h w a O (or_intror Ea)) as (n & Cn). congruence.
  Qed.
  Lemma tex_type s h w g m : inv s -> object s h = Some w -> loaded (p_tex w) s = inl (CMesh g m) -> False.
  Proof.
    intros (_ & Tx & _) O E. destruct (loaded_cell _ _ _ E) as (a & Ea & C). assert (H := Tx h w a _ O Ea C). discriminate.
  Qed.

  Lemma stored_fault s a r f : stored s a r = Fault f -> f = InVector.
  Proof. unfold stored. destruct r; [discriminate|]. intros E. injection E as <-. reflexivity. Qed.

  (** A fault is a null pointer of an object made with __new__ or of None, or in a vector. *)
  Definition excuse (c : stmt) s (f : fault) : Prop := f = InVector \/ (f = NullPointer /\ ~ (plain c /\ full s)).

  Lemma object_none s h w f : inv s -> object s h = Some w -> loaded (p_mesh w) s = inr f -> forall c, excuse c s f.
  Proof. intros I O E c. destruct (mesh_load _ _ _ _ I O E) as (-> & En). right. split; [reflexivity|]. intros (_ & F). apply (proj1 (F h w O)). exact En. Qed.
  Lemma object_none_t s h w f : inv s -> object s h = Some w -> is_ktextured (cls w) = true -> loaded (p_tex w) s = inr f -> forall c, excuse c s f.
  Proof.
    intros I O K E c. destruct (tex_load _ _ _ _ I O E) as (-> & En). right. split; [reflexivity|]. intros (_ & F).
    apply (proj2 (F h w O)); [|exact En]. destruct (cls w); [discriminate|reflexivity].
  Qed.

  (** The argument is None, or the class fits. *)
  Definition argument s (k : kind) (o : operand) (w2 : option wrapper) : Prop :=
    (o = ONone /\ w2 = None) \/ exists h2 w, w2 = Some w /\ object s h2 = Some w /\ (k = KTextured -> is_ktextured (cls w) = true).

  Lemma on_fault s h (g : wrapper -> outcome V N T M X) f : on s h g = Fault f -> exists w, object s h = Some w /\ g w = Fault f.
  Proof. unfold on. destruct (object s h) as [w|]; [|discriminate]. intros E. exists w. split; [reflexivity|exact E]. Qed.
  Lemma arg_fault s k o (g : option wrapper -> outcome V N T M X) f : arg s k o g = Fault f -> exists w2, argument s k o w2 /\ g w2 = Fault f.
  Proof.
    unfold arg. destruct o as [|h2]; [intros E; exists None; split; [left; split; reflexivity|exact E]|].
    intros E. destruct (on_fault _ _ _ _ E) as (w & O & E2). destruct (_ && _)%bool eqn:B; [discriminate|]. exists (Some w). split; [|exact E2].
    right. exists h2, w. split; [reflexivity|]. split; [exact O|]. intros ->. cbn in B. destruct (is_ktextured (cls w)); [reflexivity|discriminate].
  Qed.

  Lemma apply2_fault c s h w o w2 g gs f : inv s -> object s h = Some w -> argument s KMesh o w2 -> (o = ONone -> ~ plain c) ->
    apply2 s (p_mesh w) (field p_mesh w2) g gs = Fault f -> excuse c s f.
  Proof.
    intros I O A Np E. unfold apply2 in E. destruct (p_mesh w) as [a|] eqn:Ep.
    - destruct (loaded (Some a) s) as [n|f1] eqn:L1.
      + destruct (loaded (field p_mesh w2) s) as [n2|f2] eqn:L2; [left; apply (stored_fault _ _ _ _ E)|]. injection E as <-.
        destruct A as [(-> & ->)|(h2 & v & -> & O2 & _)]; [|apply (object_none _ _ _ _ I O2 L2)].
        cbn in L2. injection L2 as <-. right. split; [reflexivity|]. intros (P & _). apply (Np eq_refl P).
      + injection E as <-. rewrite <- Ep in L1. apply (object_none _ _ _ _ I O L1).
    - cbn in E. injection E as <-. apply (object_none s h w); [exact I|exact O|rewrite Ep; reflexivity].
  Qed.
  Lemma apply2t_fault c s h w o w2 g gs f : inv s -> object s h = Some w -> is_ktextured (cls w) = true -> argument s KTextured o w2 -> (o = ONone -> ~ plain c) ->
    apply2t s (p_tex w) (field p_tex w2) g gs = Fault f -> excuse c s f.
  Proof.
    intros I O K A Np E. unfold apply2t in E. destruct (p_tex w) as [a|] eqn:Ep.
    - destruct (loaded (Some a) s) as [n|f1] eqn:L1.
      + rewrite <- Ep in L1. destruct n as [g1 m1|t m x]; [destruct (tex_type _ _ _ _ _ I O L1)|].
        destruct (loaded (field p_tex w2) s) as [n2|f2] eqn:L2.
        * destruct n2 as [g2 m2|t2 m2 x2]; [|left; apply (stored_fault _ _ _ _ E)].
          destruct A as [(-> & ->)|(h2 & v & -> & O2 & _)]; [discriminate|]. destruct (tex_type _ _ _ _ _ I O2 L2).
        * injection E as <-. destruct A as [(-> & ->)|(h2 & v & -> & O2 & K2)]; [|apply (object_none_t _ _ _ _ I O2 (K2 eq_refl) L2)].
          cbn in L2. injection L2 as <-. right. split; [reflexivity|]. intros (P & _). apply (Np eq_refl P).
      + injection E as <-. rewrite <- Ep in L1. apply (object_none_t _ _ _ _ I O K L1).
    - cbn in E. injection E as <-. apply (object_none_t s h w); [exact I|exact O|exact K|rewrite Ep; reflexivity].
  Qed.
  Lemma apply1_fault c s h w g f : inv s -> object s h = Some w -> apply1 s (p_mesh w) g = Fault f -> excuse c s f.
  Proof.
    intros I O E. unfold apply1 in E. destruct (p_mesh w) as [a|] eqn:Ep.
    - destruct (loaded (Some a) s) as [n|f1] eqn:L1; [left; apply (stored_fault _ _ _ _ E)|].
      injection E as <-. rewrite <- Ep in L1. apply (object_none _ _ _ _ I O L1).
    - cbn in E. injection E as <-. apply (object_none s h w); [exact I|exact O|rewrite Ep; reflexivity].
  Qed.
  Lemma apply1t_fault c s h w g f : inv s -> object s h = Some w -> is_ktextured (cls w) = true -> apply1t s (p_tex w) g = Fault f -> excuse c s f.
  Proof.
    intros I O K E. unfold apply1t in E. destruct (p_tex w) as [a|] eqn:Ep.
    - destruct (loaded (Some a) s) as [n|f1] eqn:L1.
      + rewrite <- Ep in L1. destruct n as [g1 m1|t m x]; [destruct (tex_type _ _ _ _ _ I O L1)|]. left; apply (stored_fault _ _ _ _ E).
      + injection E as <-. rewrite <- Ep in L1. apply (object_none_t _ _ _ _ I O K L1).
    - cbn in E. injection E as <-. apply (object_none_t s h w); [exact I|exact O|exact K|rewrite Ep; reflexivity].
  Qed.

  Lemma construct_ok k init s f : (forall s h w f, init s h w <> Fault f) -> (forall s h w e s', init s h w = Raised s' e -> s' = s) ->
    construct k init s <> Fault (V:=V) (N:=N) (T:=T) (M:=M) (X:=X) f.
  Proof.
    intros H1 H2. unfold construct, new_object. set (s1 := State (heap s) _).
    destruct (init s1 (length (objects s)) (Wrapper k None None)) as [s2 v|s2 e|f2] eqn:E; [discriminate| |intros _; apply (H1 _ _ _ _ E)].
    unfold dealloc, free. cbn. discriminate.
  Qed.

  Lemma run1_fault c s f : inv s -> run1 s c = Fault f -> excuse c s f.
  Proof.
    intros I. destruct c as [i v n|i v n t x|h i v n|h i v n t x|k|h|g|l|up h o k|up h o|h n ren|h good|h|h]; cbn [Model.run1]; intros E.
    - exfalso. refine (construct_ok _ _ _ f _ _ E); intros *; unfold init_mesh; destruct (mk_mesh i v n); cbn; try discriminate. congruence.
    - exfalso. refine (construct_ok _ _ _ f _ _ E); intros *; unfold init_textured; destruct (mk_tmesh i v n t); cbn; try discriminate. congruence.
    - destruct (on_fault _ _ _ _ E) as (w & O & E2). unfold init_mesh in E2. destruct (mk_mesh i v n); discriminate.
    - destruct (on_fault _ _ _ _ E) as (w & O & E2). destruct (is_ktextured (cls w)); [|discriminate]. unfold init_textured in E2. destruct (mk_tmesh i v n t); discriminate.
    - discriminate.
    - destruct (on_fault _ _ _ _ E) as (w & O & E2). unfold dealloc, free in E2. destruct (p_mesh w) as [a|] eqn:Ea; [|discriminate].
      destruct (loaded (Some a) s) as [n|f1] eqn:L1; [discriminate|]. injection E2 as <-. rewrite <- Ea in L1. apply (object_none _ _ _ _ I O L1).
    - discriminate.
    - unfold primitive_meshes in E. destruct (getPolymorphicPrimitiveMeshes _ _ _ l s) as [s1 [ms|e]] eqn:Eg; [|discriminate].
      destruct (polymorphic_ok _ _ _ _ _ _ _ Eg) as (ns & _ & -> & ->). rewrite usurp_all_owners in E by reflexivity. discriminate.
    - destruct (on_fault _ _ _ _ E) as (w & O & E2). destruct (negb (in_size_t k)); [discriminate|].
      destruct (is_ktextured (cls w) && negb up)%bool eqn:B.
      + apply andb_true_iff in B as (K & _). destruct (arg_fault _ _ _ _ _ E2) as (w2 & A & E3).
        refine (apply2t_fault _ s h w o w2 _ _ f I O K A _ E3). intros -> P. apply P. reflexivity.
      + destruct (arg_fault _ _ _ _ _ E2) as (w2 & A & E3).
        refine (apply2_fault _ s h w o w2 _ _ f I O A _ E3). intros -> P. apply P. reflexivity.
    - destruct (on_fault _ _ _ _ E) as (w & O & E2).
      destruct (is_ktextured (cls w) && negb up)%bool eqn:B.
      + apply andb_true_iff in B as (K & _). destruct (arg_fault _ _ _ _ _ E2) as (w2 & A & E3).
        refine (apply2t_fault _ s h w o w2 _ _ f I O K A _ E3). intros -> P. apply P. reflexivity.
      + destruct (arg_fault _ _ _ _ _ E2) as (w2 & A & E3).
        refine (apply2_fault _ s h w o w2 _ _ f I O A _ E3). intros -> P. apply P. reflexivity.
    - destruct (on_fault _ _ _ _ E) as (w & O & E2). destruct (is_ktextured (cls w)) eqn:K; [|discriminate]. cbn [negb] in E2.
      destruct (negb _); [discriminate|]. apply (apply1t_fault _ s h w _ f I O K E2).
    - destruct (on_fault _ _ _ _ E) as (w & O & E2). apply (apply1_fault _ s h w _ f I O E2).
    - destruct (on_fault _ _ _ _ E) as (w & O & E2). destruct (loaded (p_mesh w) s) as [n1|f1] eqn:L1; [discriminate|]. injection E2 as <-. apply (object_none _ _ _ _ I O L1).
    - destruct (on_fault _ _ _ _ E) as (w & O & E2). destruct (is_ktextured (cls w)) eqn:K; [|discriminate]. cbn [negb] in E2.
      destruct (loaded (p_tex w) s) as [[g m|t m x]|f1] eqn:L1; [destruct (tex_type _ _ _ _ _ I O L1)|discriminate|]. injection E2 as <-. apply (object_none_t _ _ _ _ I O K L1).
  Qed.

  (** Programs. *)
  Lemma inv_start : inv start.
  Proof. repeat split; intros h w *; unfold object; destruct h; cbn; discriminate. Qed.
  Lemma full_start : full start.
  Proof. intros h w. unfold object. destruct h; cbn; discriminate. Qed.
  Lemma owned_start : owned start.
  Proof. split; [intros a n; unfold cell; destruct a; cbn; discriminate|intros h w; unfold object; destruct h; cbn; discriminate]. Qed.

  Lemma run_keeps (P : state -> Prop) (Q : stmt -> Prop) : (forall c s s', P s -> Q c -> effect c s s' -> P s') ->
    forall p s s', P s -> Forall Q p -> run s p = inl s' -> P s'.
  Proof.
    intros K p. induction p as [|c p IH]; intros s s' Ps F E; [cbn in E; injection E as <-; exact Ps|].
    inversion F as [|? ? Qc Fp]; subst. cbn in E. destruct (run1 s c) as [s1 v|s1 e|f] eqn:E1; [| |discriminate].
    - apply (IH s1 s'); [|exact Fp|exact E]. apply (K c s s1 Ps Qc). apply (run1_effect jv jn jt no_material texture_material no_texture). rewrite E1. reflexivity.
    - apply (IH s1 s'); [|exact Fp|exact E]. apply (K c s s1 Ps Qc). apply (run1_effect jv jn jt no_material texture_material no_texture). rewrite E1. reflexivity.
  Qed.
  Lemma run_inv p s s' : inv s -> run s p = inl s' -> inv s'.
  Proof.
    intros I. apply (run_keeps inv (fun _ => True)); [|exact I|apply Forall_forall; intros; exact Logic.I].
    intros c s1 s2 I1 _ E. apply (inv_effect c s1 s2 I1 E).
  Qed.
  Lemma run_same p s s' : inv s -> same_mesh s -> run s p = inl s' -> same_mesh s'.
  Proof.
    intros I S E. enough (H : inv s' /\ same_mesh s') by apply H.
    refine (run_keeps (fun s => inv s /\ same_mesh s) (fun _ => True) _ p s s' (conj I S) _ E); [|apply Forall_forall; intros; exact Logic.I].
    intros c s1 s2 (I1 & S1) _ Ef. split; [apply (inv_effect c s1 s2 I1 Ef)|apply (same_effect c s1 s2 I1 S1 Ef)].
  Qed.
  Lemma same_start : same_mesh start.
  Proof. intros h w a n. unfold object. destruct h; cbn; discriminate. Qed.
  Lemma run_fault p : forall s f, inv s -> run s p = inr f ->
    f = InVector \/ (f = NullPointer /\ ~ (full s /\ Forall plain p)).
  Proof.
    induction p as [|c p IH]; intros s f I E; [discriminate|]. cbn in E.
    assert (Step : forall s1, effect c s s1 -> run s1 p = inr f -> f = InVector \/ (f = NullPointer /\ ~ (full s /\ Forall plain (c :: p)))).
    { intros s1 Ef E2. destruct (IH s1 f (inv_effect _ _ _ I Ef) E2) as [->|(-> & H)]; [left; reflexivity|right; split; [reflexivity|]].
      intros (F & Pl). inversion Pl as [|? ? Pc Pp]; subst. apply H. split; [apply (full_effect _ _ _ F Pc Ef)|exact Pp]. }
    destruct (run1 s c) as [s1 v|s1 e|f1] eqn:E1.
    - apply (Step s1); [|exact E]. apply (run1_effect jv jn jt no_material texture_material no_texture). rewrite E1. reflexivity.
    - apply (Step s1); [|exact E]. apply (run1_effect jv jn jt no_material texture_material no_texture). rewrite E1. reflexivity.
    - injection E as <-. destruct (run1_fault _ _ _ I E1) as [->|(-> & H)]; [left; reflexivity|right; split; [reflexivity|]].
      intros (F & Pl). inversion Pl as [|? ? Pc Pp]; subst. apply H. split; assumption.
  Qed.
End Inv.
