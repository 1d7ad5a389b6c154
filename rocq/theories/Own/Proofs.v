(** Lemmas about wrapped meshes. *)
From Coq Require Import List Bool ZArith Lia Arith.
From Verif.Base Require Import Py.
From Verif.Mesh Require Import Model.
From Verif.Own Require Import Model Spec.
Import ListNotations.

Lemma nth_error_set_nth {A} (l : list A) i x j :
  nth_error (set_nth l i x) j = if (j =? i)%nat then (if (i <? length l)%nat then Some x else None) else nth_error l j.
Proof.
  revert i j. induction l as [|y l IH]; intros [|i] [|j]; cbn; try reflexivity.
  - destruct (Nat.eqb j i); reflexivity.
  - rewrite IH. reflexivity.
Qed.
Lemma set_nth_length {A} (l : list A) i x : length (set_nth l i x) = length l.
Proof. revert i. induction l as [|y l IH]; intros [|i]; cbn; congruence. Qed.
Lemma set_nth_last {A} (l : list A) y x : set_nth (l ++ [y]) (length l) x = l ++ [x].
Proof. induction l as [|z l IH]; cbn; congruence. Qed.

Section Proofs.
  Context {V N T M X : Type}.
  Variables (jv : nat -> V) (jn : nat -> N) (jt : nat -> T) (no_material : M) (texture_material : X -> M) (no_texture : X).
  Notation state := (state V N T M X). Notation stmt := (stmt V N T M X). Notation native := (native V N T M X).
  Notation run1 := (run1 jv jn jt no_material texture_material no_texture).
  Notation run := (run jv jn jt no_material texture_material no_texture).

  Implicit Types (s : state) (c : stmt).

  Lemma object_lt s h w : object s h = Some w -> h < length (objects s).
  Proof. unfold object. intros H. apply nth_error_Some. destruct (nth_error (objects s) h); congruence. Qed.
  Lemma cell_lt s a n : cell s a = Some n -> a < length (heap s).
  Proof. unfold cell. intros H. apply nth_error_Some. destruct (nth_error (heap s) a); congruence. Qed.
  Lemma loaded_cell p s n : loaded p s = inl n -> exists a, p = Some a /\ cell s a = Some n.
  Proof.
    unfold loaded, cell. destruct p as [a|]; [|discriminate]. destruct (nth_error (heap s) a) as [[m|]|] eqn:E; try discriminate.
    intros H. injection H as <-. exists a. rewrite E. split; reflexivity.
  Qed.
  Lemma loaded_some s a n : cell s a = Some n -> loaded (Some a) s = inl n.
  Proof. unfold loaded, cell. destruct (nth_error (heap s) a) as [[m|]|]; congruence. Qed.
  Lemma loaded_fault p s f : loaded p s = inr f -> (p = None /\ f = NullPointer) \/ (exists a, p = Some a /\ cell s a = None).
  Proof.
    unfold loaded, cell. destruct p as [a|]; [|intros H; injection H as <-; left; split; reflexivity].
    intros H. right. exists a. destruct (nth_error (heap s) a) as [[m|]|]; try discriminate; split; reflexivity.
  Qed.

  Lemma cell_heap_app s l o a : cell (State (heap s ++ l) o) a =
    if (a <? length (heap s))%nat then cell s a else match nth_error l (a - length (heap s)) with Some c => c | None => None end.
  Proof.
    unfold cell. cbn [heap objects]. destruct (Nat.ltb_spec a (length (heap s))).
    - rewrite nth_error_app1; [reflexivity|assumption].
    - rewrite nth_error_app2; [reflexivity|assumption].
  Qed.
  Lemma object_app s hp l h : object (State (V:=V) (N:=N) (T:=T) (M:=M) (X:=X) hp (objects s ++ l)) h =
    if (h <? length (objects s))%nat then object s h else match nth_error l (h - length (objects s)) with Some c => c | None => None end.
  Proof.
    unfold object. cbn [heap objects]. destruct (Nat.ltb_spec h (length (objects s))).
    - rewrite nth_error_app1; [reflexivity|assumption].
    - rewrite nth_error_app2; [reflexivity|assumption].
  Qed.
  Lemma cell_set s o a m b : cell (State (set_nth (heap s) a m) o) b =
    if (b =? a)%nat then (if (a <? length (heap s))%nat then m else None) else cell s b.
  Proof. unfold cell. cbn [heap objects]. rewrite nth_error_set_nth. destruct (b =? a)%nat; [|reflexivity]. destruct (a <? _)%nat; reflexivity. Qed.
  Lemma object_set s hp h w h' : object (State (V:=V) (N:=N) (T:=T) (M:=M) (X:=X) hp (set_nth (objects s) h w)) h' =
    if (h' =? h)%nat then (if (h <? length (objects s))%nat then w else None) else object s h'.
  Proof. unfold object. cbn [heap objects]. rewrite nth_error_set_nth. destruct (h' =? h)%nat; [|reflexivity]. destruct (h <? _)%nat; reflexivity. Qed.
  Lemma object_heap s hp h : object (State (V:=V) (N:=N) (T:=T) (M:=M) (X:=X) hp (objects s)) h = object s h.
  Proof. reflexivity. Qed.
  Lemma cell_objects s o a : cell (State (heap s) o) a = cell s a.
  Proof. reflexivity. Qed.

  (** The objects for the new meshes l, the first at address k. *)
  Definition owner (k : nat) (n : native) : wrapper :=
    if isTextured n then Wrapper KTextured (Some k) (Some k) else Wrapper KMesh (Some k) None.
  Fixpoint owners (k : nat) (l : list native) : list (option wrapper) :=
    match l with [] => [] | n :: l => Some (owner k n) :: owners (S k) l end.
  Lemma owners_nth l : forall k i, nth_error (owners k l) i = option_map (fun n => Some (owner (k + i) n)) (nth_error l i).
  Proof.
    induction l as [|n l IH]; intros k [|i]; cbn; try reflexivity.
    - rewrite Nat.add_0_r. reflexivity.
    - rewrite IH. replace (k + S i) with (S k + i) by lia. reflexivity.
  Qed.

  (** How a statement changes the state. *)
  Inductive effect (c : stmt) (s : state) : state -> Prop :=
  | E_same : effect c s s
  | E_write h w a n n' : target c = Some h -> object s h = Some w -> points w a -> cell s a = Some n -> isTextured n' = isTextured n ->
      effect c s (State (set_nth (heap s) a (Some n')) (objects s))
  | E_init h w w' n : target c = Some h -> ~ orderly c -> object s h = Some w -> cls w' = cls w -> p_mesh w' = Some (length (heap s)) ->
      ((p_tex w' = p_tex w /\ isTextured n = false) \/ (p_tex w' = Some (length (heap s)) /\ isTextured n = true /\ cls w = KTextured)) ->
      effect c s (State (heap s ++ [Some n]) (set_nth (objects s) h (Some w')))
  | E_make l : effect c s (State (heap s ++ map Some l) (objects s ++ owners (length (heap s)) l))
  | E_broken l : ~ orderly c -> effect c s (State (heap s ++ map Some l) (objects s))
  | E_new k : ~ plain c -> effect c s (State (heap s) (objects s ++ [Some (Wrapper k None None)]))
  | E_none : effect c s (State (heap s) (objects s ++ [None]))
  | E_del h w : target c = Some h -> object s h = Some w ->
      effect c s (State (match p_mesh w with Some a => set_nth (heap s) a None | None => heap s end) (set_nth (objects s) h None)).

  Definition after (o : outcome V N T M X) (s' : state) : Prop := match o with Done s v => s = s' | Raised s e => s = s' | Fault f => False end.

  Lemma on_effect s h f c s' : after (on s h f) s' -> (forall w, object s h = Some w -> after (f w) s' -> effect c s s') -> effect c s s'.
  Proof. unfold on. intros A H. destruct (object s h) as [w|]; [apply (H w eq_refl A)|]. cbn in A. subst s'. apply E_same. Qed.
  Lemma arg_effect s k o f c s' : after (arg s k o f) s' -> (forall w, after (f w) s' -> effect c s s') -> effect c s s'.
  Proof.
    unfold arg. intros A H. destruct o as [|h]; [apply (H _ A)|]. apply (on_effect _ _ _ _ _ A). intros w _ A2.
    destruct (_ && _)%bool; [|apply (H _ A2)]. cbn in A2. subst s'. apply E_same.
  Qed.
  Lemma stored_effect s a r c s' h w n : after (stored s a r) s' -> target c = Some h -> object s h = Some w -> points w a -> cell s a = Some n ->
    (forall n', r = Ok n' -> isTextured n' = isTextured n) -> effect c s s'.
  Proof.
    unfold stored. intros A Tg O P C H. destruct r as [n'|e]; cbn in A; [|contradiction]. subst s'.
    apply (E_write c s h w a n n' Tg O P C (H n' eq_refl)).
  Qed.

  Lemma with_geometry_textured (n : native) g : isTextured (with_geometry n g) = isTextured n.
  Proof. destruct n; reflexivity. Qed.

  Lemma apply2_effect s p q f g c s' h w : after (apply2 s p q f g) s' -> target c = Some h -> object s h = Some w ->
    p = p_mesh w -> effect c s s'.
  Proof.
    intros A Tg O Ep. unfold apply2 in A. destruct p as [a|]; [|destruct (loaded None s), (loaded q s); cbn in A; contradiction].
    destruct (loaded (Some a) s) as [n|fl] eqn:L; [|cbn in A; contradiction].
    destruct (loaded q s) as [n2|fl] eqn:L2; [|cbn in A; contradiction].
    destruct (loaded_cell _ _ _ L) as (a' & Ea & C). injection Ea as <-.
    refine (stored_effect _ _ _ _ _ h w n A Tg O (or_introl (eq_sym Ep)) C _).
    intros n' E. match type of E with context [if ?b then ?x else ?y] => destruct (if b then x else y) as [gg|e] end; cbn in E; [|discriminate]. injection E as <-. apply with_geometry_textured.
  Qed.
  Lemma apply2t_effect s p q f g c s' h w : after (apply2t s p q f g) s' -> target c = Some h -> object s h = Some w ->
    p = p_tex w -> effect c s s'.
  Proof.
    intros A Tg O Ep. unfold apply2t in A. destruct p as [a|]; [|destruct (loaded None s), (loaded q s); cbn in A; contradiction].
    destruct (loaded (Some a) s) as [n|fl] eqn:L; [|cbn in A; contradiction].
    destruct n as [g0 m|t m x]; [destruct (loaded q s); cbn in A; contradiction|].
    destruct (loaded q s) as [n2|fl] eqn:L2; [|cbn in A; contradiction].
    destruct n2 as [g2 m2|t2 m2 x2]; [cbn in A; contradiction|].
    destruct (loaded_cell _ _ _ L) as (a' & Ea & C). injection Ea as <-.
    refine (stored_effect _ _ _ _ _ h w _ A Tg O (or_intror (eq_sym Ep)) C _).
    intros n' E. match type of E with context [if ?b then ?x else ?y] => destruct (if b then x else y) as [gg|e] end; cbn in E; [|discriminate]. injection E as <-. reflexivity.
  Qed.
  Lemma apply1_effect s p f c s' h w : after (apply1 s p f) s' -> target c = Some h -> object s h = Some w ->
    p = p_mesh w -> effect c s s'.
  Proof.
    intros A Tg O Ep. unfold apply1 in A. destruct p as [a|]; [|cbn in A; contradiction].
    destruct (loaded (Some a) s) as [n|fl] eqn:L; [|cbn in A; contradiction].
    destruct (loaded_cell _ _ _ L) as (a' & Ea & C). injection Ea as <-.
    refine (stored_effect _ _ _ _ _ h w n A Tg O (or_introl (eq_sym Ep)) C _).
    intros n' E. destruct (f (geometry n)) as [gg|e]; cbn in E; [|discriminate]. injection E as <-. apply with_geometry_textured.
  Qed.
  Lemma apply1t_effect s p f c s' h w : after (apply1t s p f) s' -> target c = Some h -> object s h = Some w ->
    p = p_tex w -> effect c s s'.
  Proof.
    intros A Tg O Ep. unfold apply1t in A. destruct p as [a|]; [|cbn in A; contradiction].
    destruct (loaded (Some a) s) as [n|fl] eqn:L; [|cbn in A; contradiction].
    destruct n as [g0 m|t m x]; [cbn in A; contradiction|].
    destruct (loaded_cell _ _ _ L) as (a' & Ea & C). injection Ea as <-.
    refine (stored_effect _ _ _ _ _ h w _ A Tg O (or_intror (eq_sym Ep)) C _).
    intros n' E. destruct (f t) as [gg|e]; cbn in E; [|discriminate]. injection E as <-. reflexivity.
  Qed.

  Lemma construct_none (k : kind) s h : h = length (objects s) ->
    dealloc (State (heap s) (objects s ++ [Some (Wrapper k None None)])) h (Wrapper k None None) = inl (State (heap s) (objects s ++ [None])).
  Proof. intros ->. unfold dealloc, free. cbn. unfold put_object. cbn. rewrite set_nth_last. reflexivity. Qed.

  Lemma construct_mesh s i v n c s' :
    after (construct KMesh (fun s h w => init_mesh no_material s h w i v n) s) s' -> effect c s s'.
  Proof.
    unfold construct, new_object, init_mesh. destruct (mk_mesh i v n) as [g|e].
    - cbn. unfold put_object. cbn. rewrite set_nth_last. intros <-. apply (E_make c s [CMesh g no_material]).
    - rewrite construct_none by reflexivity. cbn. intros <-. apply E_none.
  Qed.
  Lemma construct_textured s i v n t x c s' :
    after (construct KTextured (fun s h w => init_textured texture_material s h w i v n t x) s) s' -> effect c s s'.
  Proof.
    unfold construct, new_object, init_textured. destruct (mk_tmesh i v n t) as [g|e].
    - cbn. unfold put_object. cbn. rewrite set_nth_last. intros <-. apply (E_make c s [CTexturedMesh g (texture_material x) x]).
    - rewrite construct_none by reflexivity. cbn. intros <-. apply E_none.
  Qed.

  Lemma polymorphic_ok l : forall s s' ms, getPolymorphicPrimitiveMeshes no_material texture_material no_texture l s = (s', Ok ms) ->
    exists ns, Forall2 (fun p n => extracted p = Ok n) l ns /\ s' = State (heap s ++ map Some ns) (objects s) /\ ms = seq (length (heap s)) (length ns).
  Proof.
    induction l as [|p l IH]; intros s s' ms E.
    - cbn in E. injection E as <- <-. exists []. split; [constructor|]. cbn. rewrite app_nil_r. destruct s. split; reflexivity.
    - cbn [getPolymorphicPrimitiveMeshes alloc] in E. destruct (extracted p) as [n|e] eqn:Ex; [|discriminate].
      unfold put_heap in E. cbn [heap objects] in E. rewrite set_nth_last in E.
      destruct (getPolymorphicPrimitiveMeshes _ _ _ l _) as [s1 r] eqn:E1. injection E as <- Er.
      destruct r as [ms1|]; [|discriminate]. cbn in Er. injection Er as <-.
      destruct (IH _ _ _ E1) as (ns & F & Es & Em). exists (n :: ns). split; [constructor; assumption|].
      cbn [heap objects] in Es. rewrite Es, Em. cbn [heap]. rewrite app_length. cbn [length map seq]. rewrite <- app_assoc. cbn.
      rewrite Nat.add_1_r. split; reflexivity.
  Qed.
  Lemma polymorphic_err l : forall s s' e, getPolymorphicPrimitiveMeshes no_material texture_material no_texture l s = (s', Err e) ->
    (exists p, In p l /\ extracted p = Err e) /\
    exists ns, ns <> [] /\ s' = State (heap s ++ map Some ns) (objects s).
  Proof.
    induction l as [|p l IH]; intros s s' e E; [discriminate|].
    cbn [getPolymorphicPrimitiveMeshes alloc] in E. destruct (extracted p) as [n|e1] eqn:Ex.
    - unfold put_heap in E. cbn [heap objects] in E. rewrite set_nth_last in E.
      destruct (getPolymorphicPrimitiveMeshes _ _ _ l _) as [s1 r] eqn:E1. injection E as <- Er.
      destruct r as [ms1|e2]; [discriminate|]. cbn in Er. injection Er as ->.
      destruct (IH _ _ _ E1) as ((p1 & I1 & Ep1) & ns & NE & Es). split; [exists p1; split; [right|]; assumption|].
      exists (n :: ns). split; [discriminate|]. rewrite Es. cbn. rewrite <- app_assoc. reflexivity.
    - injection E as <- <-. split; [exists p; split; [left; reflexivity|assumption]|].
      exists [new_native no_material texture_material no_texture p]. split; [discriminate|reflexivity].
  Qed.

  Lemma usurp_all_owners : forall ns (pre : list (option native)) (hp : list (option native)) (os : list (option wrapper)),
    hp = pre ++ map Some ns ->
    usurp_all (State hp os) (seq (length pre) (length ns)) =
      inl (State hp (os ++ owners (length pre) ns), seq (length os) (length ns)).
  Proof.
    induction ns as [|n ns IH]; intros pre hp os E.
    - cbn. rewrite app_nil_r. reflexivity.
    - cbn [length seq usurp_all]. rewrite (loaded_some _ _ n).
      2: { unfold cell. cbn. rewrite E, nth_error_app2, Nat.sub_diag by lia. reflexivity. }
      cbn [usurp new_object].
      assert (E2 : hp = (pre ++ [Some n]) ++ map Some ns) by (rewrite <- app_assoc; exact E).
      assert (H := IH (pre ++ [Some n]) hp (os ++ [Some (owner (length pre) n)]) E2).
      rewrite app_length in H. cbn [length] in H. rewrite Nat.add_1_r in H. rewrite <- app_assoc in H.
      rewrite app_length in H. cbn [length app] in H. rewrite Nat.add_1_r in H.
      unfold usurp, new_object. cbn [heap objects].
      replace (Wrapper (if isTextured n then KTextured else KMesh) (Some (length pre)) match (if isTextured n then KTextured else KMesh) with KMesh => None | KTextured => Some (length pre) end)
        with (owner (length pre) n) by (unfold owner; destruct (isTextured n); reflexivity).
      rewrite H. cbn [owners]. reflexivity.
  Qed.

  Lemma run1_effect s c s' : after (run1 s c) s' -> effect c s s'.
  Proof.
    destruct c as [i v n|i v n t x|h i v n|h i v n t x|k|h|g|l|up h o k|up h o|h n ren|h good|h|h]; cbn [Model.run1]; intros A.
    - apply (construct_mesh _ _ _ _ _ _ A).
    - apply (construct_textured _ _ _ _ _ _ _ _ A).
    - apply (on_effect _ _ _ _ _ A). intros w O A2. unfold init_mesh in A2. destruct (mk_mesh i v n) as [g|e]; cbn in A2; subst s'; [|apply E_same].
      apply (E_init (SInitMesh h i v n) s h w (Wrapper (cls w) (Some (length (heap s))) (p_tex w)) (CMesh g no_material));
        [reflexivity|intros []|exact O|reflexivity|reflexivity|left; split; reflexivity].
    - apply (on_effect _ _ _ _ _ A). intros w O A2. destruct (is_ktextured (cls w)) eqn:K; [|cbn in A2; subst s'; apply E_same].
      unfold init_textured in A2. destruct (mk_tmesh i v n t) as [g|e]; cbn in A2; subst s'; [|apply E_same].
      apply (E_init (SInitTextured h i v n t x) s h w (Wrapper (cls w) (Some (length (heap s))) (Some (length (heap s)))) (CTexturedMesh g (texture_material x) x));
        [reflexivity|intros []|exact O|reflexivity|reflexivity|right].
      split; [reflexivity|]. split; [reflexivity|]. destruct (cls w); [discriminate|reflexivity].
    - cbn in A. subst s'. apply E_new. intros [].
    - apply (on_effect _ _ _ _ _ A). intros w O A2. unfold dealloc, free in A2.
      assert (Ed := E_del (SDel h) s h w eq_refl O). destruct (p_mesh w) as [a|].
      + destruct (loaded (Some a) s) as [n|f]; cbn in A2; [|contradiction]. subst s'. exact Ed.
      + cbn in A2. subst s'. exact Ed.
    - cbn in A. subst s'. apply (E_make (SExample g) s [CMesh g no_material]).
    - unfold primitive_meshes in A. destruct (getPolymorphicPrimitiveMeshes no_material texture_material no_texture l s) as [s1 [ms|e]] eqn:E.
      + destruct (polymorphic_ok _ _ _ _ E) as (ns & F & -> & ->). rewrite usurp_all_owners in A by reflexivity.
        cbn in A. subst s'. apply E_make.
      + destruct (polymorphic_err _ _ _ _ E) as ((p & I & Ep) & ns & _ & ->). cbn in A. subst s'. apply E_broken.
        cbn. intros H. destruct (H p I) as (n & En). congruence.
    - apply (on_effect _ _ _ _ _ A). intros w O A2. destruct (negb (in_size_t k)); [cbn in A2; subst s'; apply E_same|].
      destruct (is_ktextured (cls w) && negb up)%bool.
      + apply (arg_effect _ _ _ _ _ _ A2). intros w2 A3. eapply apply2t_effect; [exact A3|reflexivity|exact O|reflexivity].
      + apply (arg_effect _ _ _ _ _ _ A2). intros w2 A3. eapply apply2_effect; [exact A3|reflexivity|exact O|reflexivity].
    - apply (on_effect _ _ _ _ _ A). intros w O A2. destruct (is_ktextured (cls w) && negb up)%bool.
      + apply (arg_effect _ _ _ _ _ _ A2). intros w2 A3. eapply apply2t_effect; [exact A3|reflexivity|exact O|reflexivity].
      + apply (arg_effect _ _ _ _ _ _ A2). intros w2 A3. eapply apply2_effect; [exact A3|reflexivity|exact O|reflexivity].
    - apply (on_effect _ _ _ _ _ A). intros w O A2. destruct (negb (is_ktextured _)); [cbn in A2; subst s'; apply E_same|].
      destruct (negb _); [cbn in A2; subst s'; apply E_same|].
      eapply apply1t_effect; [exact A2|reflexivity|exact O|reflexivity].
    - apply (on_effect _ _ _ _ _ A). intros w O A2. eapply apply1_effect; [exact A2|reflexivity|exact O|reflexivity].
    - apply (on_effect _ _ _ _ _ A). intros w O A2. destruct (loaded (p_mesh w) s); cbn in A2; [subst s'; apply E_same|contradiction].
    - apply (on_effect _ _ _ _ _ A). intros w O A2. destruct (negb _); [cbn in A2; subst s'; apply E_same|].
      destruct (loaded (p_tex w) s) as [[g m|t m x]|]; cbn in A2; try contradiction. subst s'; apply E_same.
  Qed.
End Proofs.
