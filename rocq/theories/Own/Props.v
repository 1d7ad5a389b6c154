(** C93: objects that wrap C++ meshes. *)
From Coq Require Import List Bool ZArith Lia Arith.
From Verif.Base Require Import Py.
From Verif.Mesh Require Import Model.
From Verif.Own Require Import Model Spec Proofs Inv.
Import ListNotations.

Section Props.
  Context {V N T M X : Type}.
  Variables (jv : nat -> V) (jn : nat -> N) (jt : nat -> T) (no_material : M) (texture_material : X -> M) (no_texture : X).
  Notation state := (state V N T M X). Notation stmt := (stmt V N T M X). Notation native := (native V N T M X).
  Notation run1 := (run1 jv jn jt no_material texture_material no_texture).
  Notation run := (run jv jn jt no_material texture_material no_texture).
  Implicit Types (s : state) (c : stmt).

  Lemma read_inv s s' h b g : run1 s (SRead h) = Done s' (VMesh b g) ->
    s' = s /\ exists w a n, object s h = Some w /\ p_mesh w = Some a /\ cell s a = Some n /\ b = isTextured n /\ g = geometry n.
  Proof.
    cbn. unfold on. destruct (object s h) as [w|] eqn:O; [|discriminate]. destruct (loaded (p_mesh w) s) as [n|f] eqn:L; [|discriminate].
    intros E. injection E as <- <- <-. split; [reflexivity|]. destruct (loaded_cell _ _ _ L) as (a & Ea & C). exists w, a, n. repeat split; assumption.
  Qed.
  Lemma read_intro s h w a n : object s h = Some w -> p_mesh w = Some a -> cell s a = Some n ->
    run1 s (SRead h) = Done s (VMesh (isTextured n) (geometry n)).
  Proof. intros O P C. cbn. unfold on. rewrite O, P, (loaded_some _ _ _ C). reflexivity. Qed.
  Lemma readt_inv s s' h t x : run1 s (SReadTextured h) = Done s' (VTextured t x) ->
    s' = s /\ exists w a g m, object s h = Some w /\ cls w = KTextured /\ p_tex w = Some a /\ cell s a = Some (CTexturedMesh g m x) /\ t = uvs g.
  Proof.
    cbn. unfold on. destruct (object s h) as [w|] eqn:O; [|discriminate]. destruct (cls w) eqn:K; [discriminate|]. cbn.
    destruct (loaded (p_tex w) s) as [[g m|g m y]|f] eqn:L; try discriminate.
    intros E. injection E as <- <- <-. split; [reflexivity|]. destruct (loaded_cell _ _ _ L) as (a & Ea & C). exists w, a, g, m. repeat split; assumption.
  Qed.
  Lemma readt_intro s h w a g m x : object s h = Some w -> cls w = KTextured -> p_tex w = Some a -> cell s a = Some (CTexturedMesh g m x) ->
    run1 s (SReadTextured h) = Done s (VTextured (uvs g) x).
  Proof. intros O K P C. cbn. unfold on. rewrite O, K, P, (loaded_some _ _ _ C). reflexivity. Qed.

  (** No program frees a mesh twice, uses a freed mesh or uses a plain mesh as a textured
      one; null pointers come only from None and from __new__. *)
  Theorem C93_safe : forall p f, run start p = inr f ->
    f = InVector \/ (f = NullPointer /\ ~ Forall plain p).
  Proof.
    intros p f E. destruct (run_fault jv jn jt no_material texture_material no_texture p start f inv_start E) as [H|(H & Hn)]; [left; exact H|right].
    split; [exact H|]. intros Pl. apply Hn. split; [apply full_start|exact Pl].
  Qed.

  (** Without calls of __init__ on existing objects and broken models, the meshes are those
      of the objects, one for each; when the objects are gone, so are the meshes. *)
  Theorem C93_no_leak : forall p s, Forall orderly p -> run start p = inl s ->
    (forall a, cell s a <> None <-> exists h, refers_to s h a) /\
    (forall h1 h2 a, refers_to s h1 a -> refers_to s h2 a -> h1 = h2) /\
    (forall h a b, refers_to s h a -> refers_to s h b -> a = b) /\
    ((forall h, object s h = None) -> forall a, cell s a = None).
  Proof.
    intros p s F E. assert (I := run_inv _ _ _ _ _ _ p start s inv_start E).
    assert (Ow : owned s) by (refine (run_keeps _ _ _ _ _ _ owned orderly _ p start s owned_start F E); intros c s1 s2 H1 H2 H3; apply (owned_effect c s1 s2 H1 H2 H3)).
    destruct Ow as (Ow & Pt), I as (L & _ & Sp & _).
    assert (Q : forall a, cell s a <> None <-> exists h, refers_to s h a).
    { intros a. split.
      - intros C. destruct (cell s a) as [n|] eqn:Ca; [|congruence]. destruct (Ow a n Ca) as (h & w & O & P). exists h, w. split; [exact O|left; exact P].
      - intros (h & w & O & P). destruct (L h w a O P) as (n & C). congruence. }
    split; [exact Q|]. split; [|split].
    - intros h1 h2 a (w1 & O1 & P1) (w2 & O2 & P2). apply (Sp h1 h2 w1 w2 a O1 O2 P1 P2).
    - intros h a b (w1 & O1 & P1) (w2 & O2 & P2). assert (w1 = w2) by congruence. subst w2.
      destruct (Pt h w1 O1) as [Et|Et]; destruct P1, P2; congruence.
    - intros H a. destruct (cell s a) as [n|] eqn:Ca; [|reflexivity]. destruct (Ow a n Ca) as (h & w & O & _). rewrite H in O. discriminate.
  Qed.

  (** A statement changes what an object shows only if the object is the one that it is
      applied to. *)
  Theorem C93_separate : forall p s c s' h, run start p = inl s ->
    (exists v, run1 s c = Done s' v) \/ (exists e, run1 s c = Raised s' e) ->
    target c <> Some h -> object s h <> None -> shows s' h = shows s h.
  Proof.
    intros p s c s' h E R Nt O. refine (shows_effect c s s' h (run_inv _ _ _ _ _ _ p start s inv_start E) _ Nt O).
    apply (run1_effect jv jn jt no_material texture_material no_texture). destruct R as [(v & ->)|(e & ->)]; reflexivity.
  Qed.

  Lemma exception_shows : forall s c s' e h, (forall h w a, object s h = Some w -> points w a -> cell s a <> None) ->
    run1 s c = Raised s' e -> shows s' h = shows s h.
  Proof.
    intros s c s' e h L E.
    assert (On : forall h1 (f : wrapper -> outcome V N T M X), (forall w, object s h1 = Some w -> f w = Raised s' e -> s' = s) -> on s h1 f = Raised s' e -> s' = s).
    { intros h1 f H. unfold on. destruct (object s h1) as [w|]; [apply (H w eq_refl)|]. intros E1. congruence. }
    assert (Ar : forall k o (f : option wrapper -> outcome V N T M X), (forall w, f w <> Raised s' e) -> arg s k o f = Raised s' e -> s' = s).
    { intros k o f H. unfold arg. destruct o as [|h1]; [intros E1; destruct (H _ E1)|]. apply On. intros w _.
      destruct (_ && _)%bool; [intros E1; congruence|intros E1; destruct (H _ E1)]. }
    assert (St : forall a r, @stored V N T M X s a r <> Raised s' e) by (intros a [n|e1]; discriminate).
    assert (A2 : forall q1 q2 f f2, apply2 s q1 q2 f f2 <> Raised s' e).
    { intros q1 q2 f f2. unfold apply2. destruct q1; [destruct (loaded (Some n) s); [destruct (loaded q2 s); [apply St|]|]|]; cbn; discriminate. }
    assert (A2t : forall q1 q2 f f2, apply2t s q1 q2 f f2 <> Raised s' e).
    { intros q1 q2 f f2. unfold apply2t. destruct q1; [|cbn; discriminate].
      destruct (loaded (Some n) s) as [[?|?]|]; [| |cbn; discriminate]; destruct (loaded q2 s) as [[?|?]|]; try apply St; cbn; discriminate. }
    assert (Sh : s' = s -> shows s' h = shows s h) by (intros ->; reflexivity).
    assert (Co : forall k init, (forall s1 h1 w s2 e1, init s1 h1 w = Raised s2 e1 -> s2 = s1) -> construct k init s = Raised s' e -> shows s' h = shows s h).
    { intros k init H. unfold construct, new_object. set (s1 := State (heap s) _).
      destruct (init s1 (length (objects s)) (Wrapper k None None)) as [s2 v|s2 e1|f] eqn:E1; try discriminate.
      rewrite (H _ _ _ _ _ E1). unfold s1. rewrite construct_none by reflexivity. intros E2. injection E2 as <- _.
      unfold shows. rewrite (object_app s). destruct (Nat.ltb_spec h (length (objects s))) as [_|G]; [reflexivity|].
      assert (N0 : object s h = None) by (unfold object; rewrite (proj2 (nth_error_None _ _) G); reflexivity). rewrite N0.
      destruct (h - length (objects s)) as [|[|j]]; reflexivity. }
    destruct c as [i v n|i v n t x|h1 i v n|h1 i v n t x|k|h1|g|l|up h1 o k|up h1 o|h1 n ren|h1 good|h1|h1]; cbn [Model.run1] in E.
    - refine (Co _ _ _ E). intros s1 h1 w s2 e1. unfold init_mesh. destruct (mk_mesh i v n); [discriminate|]. intros E1. congruence.
    - refine (Co _ _ _ E). intros s1 h1 w s2 e1. unfold init_textured. destruct (mk_tmesh i v n t); [discriminate|]. intros E1. congruence.
    - apply Sh. apply (On _ _) with (2 := E). intros w O. unfold init_mesh. destruct (mk_mesh i v n); [discriminate|]. intros E1. congruence.
    - apply Sh. apply (On _ _) with (2 := E). intros w O. destruct (is_ktextured (cls w)); [|intros E1; congruence].
      unfold init_textured. destruct (mk_tmesh i v n t); [discriminate|]. intros E1. congruence.
    - discriminate.
    - apply Sh. apply (On _ _) with (2 := E). intros w O. unfold dealloc. destruct (free s (p_mesh w)); discriminate.
    - discriminate.
    - unfold primitive_meshes in E. destruct (getPolymorphicPrimitiveMeshes _ _ _ l s) as [s1 [ms|e1]] eqn:Eg.
      + destruct (usurp_all s1 ms) as [[s2 hs]|]; discriminate.
      + destruct (polymorphic_err _ _ _ _ _ _ _ Eg) as (_ & ns & _ & ->). injection E as <- _. unfold shows. rewrite object_heap.
        destruct (object s h) as [w|] eqn:O; [|reflexivity].
        assert (C : forall a, points w a -> cell (State (heap s ++ map Some ns) (objects s)) a = cell s a).
        { intros a P. destruct (cell s a) as [n|] eqn:Ca; [apply cell_kept; exact Ca|]. destruct (L h w a O P Ca). }
        assert (H1 : option_map (cell (State (heap s ++ map Some ns) (objects s))) (p_mesh w) = option_map (cell s) (p_mesh w))
          by (destruct (p_mesh w) eqn:P; [cbn; rewrite C by (left; exact P)|]; reflexivity).
        assert (H2 : option_map (cell (State (heap s ++ map Some ns) (objects s))) (p_tex w) = option_map (cell s) (p_tex w))
          by (destruct (p_tex w) eqn:P; [cbn; rewrite C by (right; exact P)|]; reflexivity).
        rewrite H1, H2. reflexivity.
    - apply Sh. apply (On _ _) with (2 := E). intros w O. destruct (negb _); [intros E1; congruence|].
      destruct (_ && _)%bool; apply Ar; intros w2; [apply A2t|apply A2].
    - apply Sh. apply (On _ _) with (2 := E). intros w O.
      destruct (_ && _)%bool; apply Ar; intros w2; [apply A2t|apply A2].
    - apply Sh. apply (On _ _) with (2 := E). intros w O. destruct (negb (is_ktextured _)); [intros E1; congruence|]. destruct (negb _); [intros E1; congruence|].
      unfold apply1t. destruct (p_tex w); [|discriminate]. destruct (loaded _ s) as [[?|?]|]; try discriminate. intros E1. destruct (St _ _ E1).
    - apply Sh. apply (On _ _) with (2 := E). intros w O. unfold apply1. destruct (p_mesh w); [|discriminate].
      destruct (loaded _ s) as [?|?]; try discriminate. intros E1. destruct (St _ _ E1).
    - apply Sh. apply (On _ _) with (2 := E). intros w O. destruct (loaded _ s); discriminate.
    - apply Sh. apply (On _ _) with (2 := E). intros w O. destruct (negb _); [intros E1; congruence|]. destruct (loaded _ s) as [[?|?]|]; discriminate.
  Qed.

  (** A statement that raises an exception changes no object at all. *)
  Theorem C93_exception : forall p s c s' e h, run start p = inl s -> run1 s c = Raised s' e -> shows s' h = shows s h.
  Proof.
    intros p s c s' e h E R. apply (exception_shows s c s' e h); [|exact R]. intros h1 w a O P.
    destruct (run_inv _ _ _ _ _ _ p start s inv_start E) as (L & _). destruct (L h1 w a O P) as (n & C). congruence.
  Qed.

  Lemma leaked_run p : forall s s' a, inv s -> leaked s a -> run s p = inl s' -> leaked s' a /\ cell s' a = cell s a.
  Proof.
    intros s s' a I L E.
    enough (H : inv s' /\ leaked s' a /\ cell s' a = cell s a) by (split; apply H).
    refine (run_keeps jv jn jt no_material texture_material no_texture (fun s2 => inv s2 /\ leaked s2 a /\ cell s2 a = cell s a) (fun _ => True) _ p s s' _ _ E).
    - intros c s1 s2 (I1 & L1 & C1) _ Ef. destruct (leaked_effect c s1 s2 a I1 L1 Ef) as (L2 & C2). split; [apply (inv_effect c s1 s2 I1 Ef)|]. split; [exact L2|congruence].
    - split; [exact I|]. split; [exact L|reflexivity].
    - apply Forall_forall. intros c _. exact Logic.I.
  Qed.

  (** A second __init__ leaves the first mesh to nobody; no program can free it later. *)
  Theorem C93_second_init : forall p s h w a i v n s' x, run start p = inl s -> object s h = Some w -> p_mesh w = Some a -> cls w = KMesh ->
    run1 s (SInitMesh h i v n) = Done s' x ->
    leaked s' a /\ (forall q s'', run s' q = inl s'' -> leaked s'' a /\ cell s'' a = cell s a) /\
    run1 s' (SRead h) = Done s' (VMesh false (Mesh i v n)).
  Proof.
    intros p s h w a i v n s' x E O P K R. assert (I := run_inv _ _ _ _ _ _ p start s inv_start E).
    destruct I as (L & Tx & Sp & Cl). destruct (L h w a O (or_introl P)) as (m & C).
    assert (Lh := object_lt _ _ _ O). assert (La := cell_lt _ _ _ C).
    assert (I' : inv s') by (apply (inv_effect (SInitMesh h i v n) s s'); [repeat split; assumption|apply (run1_effect jv jn jt no_material texture_material no_texture); rewrite R; reflexivity]).
    cbn in R. unfold on in R. rewrite O in R. unfold init_mesh in R. destruct (mk_mesh i v n) as [g|e] eqn:Eg; [|discriminate]. cbn in R.
    assert (g = Mesh i v n) by (unfold mk_mesh in Eg; destruct (_ =? _)%Z; [injection Eg as <-; reflexivity|discriminate]). subst g.
    injection R as <- <-. unfold put_object in *. cbn [heap objects] in *.
    assert (Ca : cell (State (heap s ++ [Some (CMesh (Mesh i v n) no_material)]) (set_nth (objects s) h (Some (Wrapper (cls w) (Some (length (heap s))) (p_tex w))))) a = cell s a)
      by (rewrite C; apply cell_kept; exact C).
    assert (Lk : leaked (State (heap s ++ [Some (CMesh (Mesh i v n) no_material)]) (set_nth (objects s) h (Some (Wrapper (cls w) (Some (length (heap s))) (p_tex w))))) a).
    { split; [congruence|]. intros h1 (w1 & O1 & P1). rewrite (object_set s) in O1. destruct (Nat.eqb_spec h1 h) as [->|Ne].
      - destruct (Nat.ltb_spec h (length (objects s))); [|discriminate]. injection O1 as <-. destruct P1 as [P1|P1]; cbn in P1; [injection P1 as <-; lia|].
        rewrite (Cl h w O K) in P1. discriminate.
      - apply Ne. apply (Sp h1 h w1 w a O1 O P1 (or_introl P)). }
    split; [exact Lk|]. split.
    - intros q s'' Eq. destruct (leaked_run q _ _ a I' Lk Eq) as (L2 & C2). split; [exact L2|congruence].
    - apply (read_intro _ h (Wrapper (cls w) (Some (length (heap s))) (p_tex w)) (length (heap s)) (CMesh (Mesh i v n) no_material)).
      + rewrite (object_set s), Nat.eqb_refl. destruct (Nat.ltb_spec h (length (objects s))); [reflexivity|lia].
      + reflexivity.
      + assert (H := cell_make s [CMesh (Mesh i v n) no_material] (set_nth (objects s) h (Some (Wrapper (cls w) (Some (length (heap s))) (p_tex w)))) 0 _ eq_refl).
        rewrite Nat.add_0_r in H. exact H.
  Qed.

  (** primitive_meshes of a model with a broken primitive raises the exception and leaks
      meshes that no program can free later; of other models it makes one object for
      each primitive. *)
  Theorem C93_primitives : forall p s l, run start p = inl s ->
    (forall ns, Forall2 (fun q n => extracted q = Ok n) l ns ->
       exists s' hs, run1 s (SMeshes l) = Done s' (VObjs hs) /\ length hs = length l /\
         (forall i h n, nth_error hs i = Some h -> nth_error ns i = Some n ->
            object s h = None /\ run1 s' (SRead h) = Done s' (VMesh (isTextured n) (geometry n)) /\
            forall j, nth_error hs j = Some h -> j = i)) /\
    (forall q e, In q l -> extracted q = Err e ->
       exists s' e', run1 s (SMeshes l) = Raised s' e' /\
         exists a, leaked s' a /\ forall r s'', run s' r = inl s'' -> leaked s'' a).
  Proof.
    intros p s l E. assert (I := run_inv _ _ _ _ _ _ p start s inv_start E). split.
    - intros ns F. cbn [Model.run1]. unfold primitive_meshes.
      destruct (getPolymorphicPrimitiveMeshes no_material texture_material no_texture l s) as [s1 [ms|e]] eqn:Eg.
      + destruct (polymorphic_ok _ _ _ _ _ _ _ Eg) as (ns' & F' & -> & ->).
        assert (ns' = ns). { clear -F F'. revert ns' F'. induction F as [|q n l ns Hq _ IH]; intros ns' F'; inversion F' as [|? n' ? ns2 Hq' F2]; subst; [reflexivity|].
          f_equal; [congruence|apply IH; exact F2]. }
        subst ns'. rewrite usurp_all_owners by reflexivity. eexists. exists (seq (length (objects s)) (length ns)). split; [reflexivity|].
        split; [rewrite seq_length; clear -F; induction F; cbn; congruence|].
        intros i h n Hh Hn. assert (Li : i < length ns) by (apply nth_error_Some; congruence).
        assert (Eh : h = length (objects s) + i).
        { rewrite (nth_error_nth' _ 0) in Hh by (rewrite seq_length; exact Li). rewrite seq_nth in Hh by exact Li. congruence. }
        subst h. split; [unfold object; rewrite (proj2 (nth_error_None _ _)) by lia; reflexivity|]. split.
        * apply (read_intro _ _ (owner (length (heap s) + i) n) (length (heap s) + i)).
          -- rewrite (object_app s). destruct (Nat.ltb_spec (length (objects s) + i) (length (objects s))); [lia|].
             replace (length (objects s) + i - length (objects s)) with i by lia. rewrite owners_nth, Hn. reflexivity.
          -- apply owner_mesh.
          -- apply cell_make. exact Hn.
        * intros j Hj. assert (Lj : j < length ns) by (rewrite <- (seq_length (length ns) (length (objects s))); apply nth_error_Some; congruence).
          rewrite (nth_error_nth' _ 0) in Hj by (rewrite seq_length; exact Lj). rewrite seq_nth in Hj by exact Lj. injection Hj as Hj. lia.
      + destruct (polymorphic_err _ _ _ _ _ _ _ Eg) as ((q & Iq & Eq) & _). exfalso. clear -F Iq Eq.
        induction F as [|q1 n l ns H _ IH]; [destruct Iq|]. destruct Iq as [->|Iq]; [congruence|apply (IH Iq)].
    - intros q e Iq Eq. cbn [Model.run1]. unfold primitive_meshes.
      destruct (getPolymorphicPrimitiveMeshes no_material texture_material no_texture l s) as [s1 [ms|e1]] eqn:Eg.
      + destruct (polymorphic_ok _ _ _ _ _ _ _ Eg) as (ns & F & _). exfalso. clear -F Iq Eq.
        induction F as [|q1 n l ns H _ IH]; [destruct Iq|]. destruct Iq as [->|Iq]; [congruence|apply (IH Iq)].
      + exists s1, e1. split; [reflexivity|].
        destruct (polymorphic_err _ _ _ _ _ _ _ Eg) as (_ & ns & Ne & ->). destruct ns as [|n ns]; [congruence|].
        exists (length (heap s)).
        assert (Lk : leaked (State (heap s ++ map Some (n :: ns)) (objects s)) (length (heap s))).
        { assert (C := cell_make s (n :: ns) (objects s) 0 n eq_refl). rewrite Nat.add_0_r in C. split; [rewrite C; discriminate|].
          intros h (w & O & P). rewrite object_heap in O. destruct I as (L & _). destruct (L h w _ O P) as (m & Cm). assert (H := cell_lt _ _ _ Cm). lia. }
        split; [exact Lk|]. intros r s'' Er.
        refine (proj1 (leaked_run r _ s'' _ _ Lk Er)). apply (inv_effect (SMeshes l) s); [exact I|].
        apply E_broken. intros H. cbn in H. destruct (H q Iq) as (m & Em). congruence.
  Qed.

  (** The class gives a new object with the data. *)
  Theorem C93_construct : forall s i v n t x,
    (size v = size n -> exists s', run1 s (SMesh i v n) = Done s' (VObj (length (objects s))) /\
       run1 s' (SRead (length (objects s))) = Done s' (VMesh false (Mesh i v n))) /\
    (size v = size n -> (size t <= size v)%Z -> exists s', run1 s (STextured i v n t x) = Done s' (VObj (length (objects s))) /\
       run1 s' (SRead (length (objects s))) = Done s' (VMesh true (Mesh i v n)) /\
       run1 s' (SReadTextured (length (objects s))) = Done s' (VTextured t x)) /\
    (size v <> size n -> exists s', run1 s (SMesh i v n) = Raised s' AssertionError /\ run1 s (STextured i v n t x) = Raised s' AssertionError).
  Proof.
    intros s i v n t x.
    assert (Ob : forall hp (w : wrapper), object (State (V:=V) (N:=N) (T:=T) (M:=M) (X:=X) hp (objects s ++ [Some w])) (length (objects s)) = Some w).
    { intros hp w. rewrite (object_app s). rewrite Nat.ltb_irrefl, Nat.sub_diag. reflexivity. }
    assert (Ce : forall m o, cell (State (heap s ++ [Some m]) o) (length (heap s)) = Some m).
    { intros m o. rewrite cell_heap_app. rewrite Nat.ltb_irrefl, Nat.sub_diag. reflexivity. }
    split; [|split].
    - intros H. cbn [Model.run1]. unfold construct, new_object, init_mesh, mk_mesh. rewrite (proj2 (Z.eqb_eq _ _) H). cbn [alloc]. unfold put_object. cbn [heap objects].
      rewrite set_nth_last. eexists. split; [reflexivity|]. cbn [cls p_tex].
      apply (read_intro _ _ (Wrapper KMesh (Some (length (heap s))) None) (length (heap s)) (CMesh (Mesh i v n) no_material)); [apply Ob|reflexivity|apply Ce].
    - intros H H2. cbn [Model.run1]. unfold construct, new_object, init_textured, mk_tmesh, mk_mesh. rewrite (proj2 (Z.eqb_eq _ _) H). cbn [bind].
      rewrite (proj2 (Z.leb_le _ _) H2). cbn [alloc]. unfold put_object. cbn [heap objects].
      rewrite set_nth_last. eexists. split; [reflexivity|]. cbn [cls p_tex]. split.
      + apply (read_intro _ _ (Wrapper KTextured (Some (length (heap s))) (Some (length (heap s)))) (length (heap s)) (CTexturedMesh (TMesh (Mesh i v n) t) (texture_material x) x)); [apply Ob|reflexivity|apply Ce].
      + apply (readt_intro _ _ (Wrapper KTextured (Some (length (heap s))) (Some (length (heap s)))) (length (heap s)) (TMesh (Mesh i v n) t) (texture_material x) x); [apply Ob|reflexivity|reflexivity|apply Ce].
    - intros H. exists (State (heap s) (objects s ++ [None])). cbn [Model.run1]. unfold construct, new_object, init_mesh, init_textured, mk_tmesh, mk_mesh.
      rewrite (proj2 (Z.eqb_neq _ _) H). cbn [bind]. rewrite !construct_none by reflexivity. split; reflexivity.
  Qed.

  Lemma in_size k : (0 <= k < 18446744073709551616)%Z -> in_size_t k = true.
  Proof. intros H. unfold in_size_t. apply andb_true_iff. split; [apply Z.leb_le|apply Z.ltb_lt]; lia. Qed.

  Lemma apply2_distinct p s h1 h2 w1 w2 a1 a2 n1 n2 (f : mesh V N -> mesh V N -> res (mesh V N)) fs g :
    run start p = inl s -> h1 <> h2 ->
    object s h1 = Some w1 -> p_mesh w1 = Some a1 -> cell s a1 = Some n1 ->
    object s h2 = Some w2 -> p_mesh w2 = Some a2 -> cell s a2 = Some n2 ->
    f (geometry n1) (geometry n2) = Ok g ->
    let s' := put_heap s a1 (Some (with_geometry n1 g)) in
    apply2 s (p_mesh w1) (p_mesh w2) f fs = Done s' VNone /\
    run1 s' (SRead h1) = Done s' (VMesh (isTextured n1) g) /\
    run1 s' (SRead h2) = Done s' (VMesh (isTextured n2) (geometry n2)) /\
    (forall t x, run1 s (SReadTextured h1) = Done s (VTextured t x) -> run1 s' (SReadTextured h1) = Done s' (VTextured t x)).
  Proof.
    intros E Ne O1 P1 C1 O2 P2 C2 G s'. destruct (run_inv _ _ _ _ _ _ p start s inv_start E) as (L & Tx & Sp & Cl).
    assert (Na : a1 <> a2) by (intros <-; apply Ne; apply (Sp h1 h2 w1 w2 a1 O1 O2); left; assumption).
    assert (La := cell_lt _ _ _ C1).
    assert (Cc : cell s' a1 = Some (with_geometry n1 g)).
    { unfold s', put_heap. rewrite cell_set, Nat.eqb_refl. destruct (Nat.ltb_spec a1 (length (heap s))); [reflexivity|lia]. }
    split; [|split; [|split]].
    - unfold apply2. rewrite P1, P2, (loaded_some _ _ _ C1), (loaded_some _ _ _ C2). destruct (Nat.eqb_spec a1 a2); [congruence|]. rewrite G. reflexivity.
    - rewrite (read_intro s' h1 w1 a1 _ O1 P1 Cc). rewrite with_geometry_textured. destruct n1; reflexivity.
    - rewrite (read_intro s' h2 w2 a2 n2 O2 P2); [reflexivity|]. unfold s', put_heap. rewrite cell_set. destruct (Nat.eqb_spec a2 a1); [congruence|exact C2].
    - intros t x R. destruct (readt_inv _ _ _ _ _ R) as (_ & w & b & g2 & m & O & K & Pt & Cb & ->). assert (w = w1) by congruence. subst w.
      destruct (Nat.eq_dec b a1) as [->|Nb].
      + assert (n1 = CTexturedMesh g2 m x) by congruence. subst n1. apply (readt_intro s' h1 w1 a1 (TMesh g (uvs g2)) m x O1 K Pt Cc).
      + apply (readt_intro s' h1 w1 b g2 m x O1 K Pt). unfold s', put_heap. rewrite cell_set. destruct (Nat.eqb_spec b a1); [congruence|exact Cb].
  Qed.

  (** merge and replace_geometry of Mesh, applied to distinct objects, do to the first
      what the C++ functions do (C35), leave its texture and leave the second alone. *)
  Theorem C93_merge : forall p s h1 h2 b1 b2 g1 g2 up k, run start p = inl s -> h1 <> h2 ->
    run1 s (SRead h1) = Done s (VMesh b1 g1) -> run1 s (SRead h2) = Done s (VMesh b2 g2) ->
    (up = true \/ exists w, object s h1 = Some w /\ cls w = KMesh) ->
    (forall g, (0 <= k < 18446744073709551616)%Z -> merge g1 g2 k = Ok g ->
       exists s', run1 s (SMerge up h1 (OObj h2) k) = Done s' VNone /\
         run1 s' (SRead h1) = Done s' (VMesh b1 g) /\ run1 s' (SRead h2) = Done s' (VMesh b2 g2) /\
         (forall t x, run1 s (SReadTextured h1) = Done s (VTextured t x) -> run1 s' (SReadTextured h1) = Done s' (VTextured t x))) /\
    (forall g, replaceGeometry g1 g2 = Ok g ->
       exists s', run1 s (SReplace up h1 (OObj h2)) = Done s' VNone /\
         run1 s' (SRead h1) = Done s' (VMesh b1 g) /\ run1 s' (SRead h2) = Done s' (VMesh b2 g2) /\
         (forall t x, run1 s (SReadTextured h1) = Done s (VTextured t x) -> run1 s' (SReadTextured h1) = Done s' (VTextured t x))).
  Proof.
    intros p s h1 h2 b1 b2 g1 g2 up k E Ne R1 R2 U.
    destruct (read_inv _ _ _ _ _ R1) as (_ & w1 & a1 & n1 & O1 & P1 & C1 & -> & ->).
    destruct (read_inv _ _ _ _ _ R2) as (_ & w2 & a2 & n2 & O2 & P2 & C2 & -> & ->).
    assert (B : (is_ktextured (cls w1) && negb up)%bool = false).
    { destruct U as [->|(w & O & K)]; [apply andb_false_r|]. assert (w = w1) by congruence. subst w. rewrite K. reflexivity. }
    split.
    - intros g Hk G. destruct (apply2_distinct p s h1 h2 w1 w2 a1 a2 n1 n2 (fun a b => merge a b k) (fun a => self_merge a k) g E Ne O1 P1 C1 O2 P2 C2 G) as (H1 & H2 & H3 & H4).
      eexists. split; [|split; [exact H2|split; [exact H3|exact H4]]].
      cbn [Model.run1]. unfold on. rewrite O1, (in_size k Hk), B. cbn [negb arg]. unfold arg, on. rewrite O2. cbn [is_ktextured andb field]. exact H1.
    - intros g G. destruct (apply2_distinct p s h1 h2 w1 w2 a1 a2 n1 n2 replaceGeometry self_replace g E Ne O1 P1 C1 O2 P2 C2 G) as (H1 & H2 & H3 & H4).
      eexists. split; [|split; [exact H2|split; [exact H3|exact H4]]].
      cbn [Model.run1]. unfold on. rewrite O1, B. cbn [arg]. unfold arg, on. rewrite O2. cbn [is_ktextured andb field]. exact H1.
  Qed.

  (** Both pointers of an object that says that it is textured agree. *)
  Lemma textured_read p s h g t x : run start p = inl s -> run1 s (SRead h) = Done s (VMesh true g) -> run1 s (SReadTextured h) = Done s (VTextured t x) ->
    exists w a m, object s h = Some w /\ cls w = KTextured /\ p_mesh w = Some a /\ p_tex w = Some a /\ cell s a = Some (CTexturedMesh (TMesh g t) m x).
  Proof.
    intros E R Rt. assert (Sm := run_same _ _ _ _ _ _ p start s inv_start same_start E).
    destruct (read_inv _ _ _ _ _ R) as (_ & w & a & n & O & P & C & Tn & ->).
    destruct (readt_inv _ _ _ _ _ Rt) as (_ & w' & a' & g' & m & O' & K & P' & C' & ->).
    assert (w' = w) by congruence. subst w'. assert (Pt := Sm h w a n O P C (eq_sym Tn)). assert (a' = a) by congruence. subst a'.
    assert (n = CTexturedMesh g' m x) by congruence. subst n. exists w, a, m. cbn [geometry]. destruct g' as [b u]. repeat split; assumption.
  Qed.

  Lemma apply2t_distinct p s h1 h2 w1 w2 a1 a2 t1 m1 x1 t2 m2 x2 (f : tmesh V N T -> tmesh V N T -> res (tmesh V N T)) fs g :
    run start p = inl s -> h1 <> h2 ->
    object s h1 = Some w1 -> cls w1 = KTextured -> p_mesh w1 = Some a1 -> p_tex w1 = Some a1 -> cell s a1 = Some (CTexturedMesh t1 m1 x1) ->
    object s h2 = Some w2 -> cls w2 = KTextured -> p_mesh w2 = Some a2 -> p_tex w2 = Some a2 -> cell s a2 = Some (CTexturedMesh t2 m2 x2) ->
    f t1 t2 = Ok g ->
    let s' := put_heap s a1 (Some (CTexturedMesh g m1 x1)) in
    apply2t s (p_tex w1) (p_tex w2) f fs = Done s' VNone /\
    run1 s' (SRead h1) = Done s' (VMesh true (base g)) /\ run1 s' (SReadTextured h1) = Done s' (VTextured (uvs g) x1) /\
    run1 s' (SRead h2) = Done s' (VMesh true (base t2)) /\ run1 s' (SReadTextured h2) = Done s' (VTextured (uvs t2) x2).
  Proof.
    intros E Ne O1 K1 P1 T1 C1 O2 K2 P2 T2 C2 G s'. destruct (run_inv _ _ _ _ _ _ p start s inv_start E) as (L & Tx & Sp & Cl).
    assert (Na : a1 <> a2) by (intros <-; apply Ne; apply (Sp h1 h2 w1 w2 a1 O1 O2); left; assumption).
    assert (La := cell_lt _ _ _ C1).
    assert (Cc : cell s' a1 = Some (CTexturedMesh g m1 x1)).
    { unfold s', put_heap. rewrite cell_set, Nat.eqb_refl. destruct (Nat.ltb_spec a1 (length (heap s))); [reflexivity|lia]. }
    assert (Cd : cell s' a2 = Some (CTexturedMesh t2 m2 x2)).
    { unfold s', put_heap. rewrite cell_set. destruct (Nat.eqb_spec a2 a1); [congruence|exact C2]. }
    split; [|split; [|split; [|split]]].
    - unfold apply2t. rewrite T1, T2, (loaded_some _ _ _ C1), (loaded_some _ _ _ C2). destruct (Nat.eqb_spec a1 a2); [congruence|]. rewrite G. reflexivity.
    - apply (read_intro s' h1 w1 a1 _ O1 P1 Cc).
    - apply (readt_intro s' h1 w1 a1 _ _ _ O1 K1 T1 Cc).
    - apply (read_intro s' h2 w2 a2 _ O2 P2 Cd).
    - apply (readt_intro s' h2 w2 a2 _ _ _ O2 K2 T2 Cd).
  Qed.

  Theorem C93_textured_merge : forall p s h1 h2 g1 t1 x1 g2 t2 x2 k, run start p = inl s -> h1 <> h2 ->
    run1 s (SRead h1) = Done s (VMesh true g1) -> run1 s (SReadTextured h1) = Done s (VTextured t1 x1) ->
    run1 s (SRead h2) = Done s (VMesh true g2) -> run1 s (SReadTextured h2) = Done s (VTextured t2 x2) ->
    (forall g, (0 <= k < 18446744073709551616)%Z -> tmerge (TMesh g1 t1) (TMesh g2 t2) k = Ok g ->
       exists s', run1 s (SMerge false h1 (OObj h2) k) = Done s' VNone /\
         run1 s' (SRead h1) = Done s' (VMesh true (base g)) /\ run1 s' (SReadTextured h1) = Done s' (VTextured (uvs g) x1) /\
         run1 s' (SRead h2) = Done s' (VMesh true g2) /\ run1 s' (SReadTextured h2) = Done s' (VTextured t2 x2)) /\
    (forall g, treplaceGeometry (TMesh g1 t1) (TMesh g2 t2) = Ok g ->
       exists s', run1 s (SReplace false h1 (OObj h2)) = Done s' VNone /\
         run1 s' (SRead h1) = Done s' (VMesh true (base g)) /\ run1 s' (SReadTextured h1) = Done s' (VTextured (uvs g) x1) /\
         run1 s' (SRead h2) = Done s' (VMesh true g2) /\ run1 s' (SReadTextured h2) = Done s' (VTextured t2 x2)).
  Proof.
    intros p s h1 h2 g1 t1 x1 g2 t2 x2 k E Ne R1 Q1 R2 Q2.
    destruct (textured_read p s h1 g1 t1 x1 E R1 Q1) as (w1 & a1 & m1 & O1 & K1 & P1 & T1 & C1).
    destruct (textured_read p s h2 g2 t2 x2 E R2 Q2) as (w2 & a2 & m2 & O2 & K2 & P2 & T2 & C2).
    split.
    - intros g Hk G.
      destruct (apply2t_distinct p s h1 h2 w1 w2 a1 a2 _ m1 x1 _ m2 x2 (fun a b => tmerge a b k) (fun a => self_tmerge a k) g E Ne O1 K1 P1 T1 C1 O2 K2 P2 T2 C2 G) as (H1 & H2).
      eexists. split; [|exact H2].
      cbn [Model.run1]. unfold on. rewrite O1, (in_size k Hk), K1. cbn [negb andb is_ktextured]. unfold arg, on. rewrite O2, K2. cbn [negb is_ktextured andb field]. exact H1.
    - intros g G.
      destruct (apply2t_distinct p s h1 h2 w1 w2 a1 a2 _ m1 x1 _ m2 x2 treplaceGeometry self_treplace g E Ne O1 K1 P1 T1 C1 O2 K2 P2 T2 C2 G) as (H1 & H2).
      eexists. split; [|exact H2].
      cbn [Model.run1]. unfold on. rewrite O1, K1. cbn [negb andb is_ktextured]. unfold arg, on. rewrite O2, K2. cbn [negb is_ktextured andb field]. exact H1.
  Qed.

  (** An object with itself: merge is undefined as soon as there are triangles, and
      replace_geometry empties the mesh. *)
  Theorem C93_self : forall p s h b g up k, run start p = inl s -> run1 s (SRead h) = Done s (VMesh b g) ->
    (up = true \/ b = true \/ exists w, object s h = Some w /\ cls w = KMesh) ->
    (indices g <> [] -> (0 <= k < 18446744073709551616)%Z -> run1 s (SMerge up h (OObj h) k) = Fault InVector) /\
    (exists s', run1 s (SReplace up h (OObj h)) = Done s' VNone /\ run1 s' (SRead h) = Done s' (VMesh b (Mesh [] [] []))).
  Proof.
    intros p s h b g up k E R U. assert (Sm := run_same _ _ _ _ _ _ p start s inv_start same_start E).
    destruct (read_inv _ _ _ _ _ R) as (_ & w & a & n & O & P & C & -> & ->). assert (La := cell_lt _ _ _ C).
    assert (Cc : forall m, cell (put_heap s a (Some m)) a = Some m).
    { intros m. unfold put_heap. rewrite cell_set, Nat.eqb_refl. destruct (Nat.ltb_spec a (length (heap s))); [reflexivity|lia]. }
    destruct (is_ktextured (cls w) && negb up)%bool eqn:B.
    - apply andb_true_iff in B as (K & Up). destruct up; [discriminate|].
      assert (Tn : isTextured n = true).
      { destruct U as [H|[H|(w' & O' & K')]]; [discriminate|exact H|]. assert (w' = w) by congruence. subst w'. rewrite K' in K. discriminate. }
      assert (Pt := Sm h w a n O P C Tn). destruct n as [g m|t m x]; [discriminate|]. cbn [geometry isTextured]. split.
      + intros Hi Hk. cbn [Model.run1]. unfold on. rewrite O, (in_size k Hk), K. cbn [negb andb]. unfold arg, on. rewrite O, K. cbn [negb andb is_ktextured field].
        unfold apply2t. rewrite Pt, (loaded_some _ _ _ C), Nat.eqb_refl. unfold self_tmerge, self_merge. destruct (indices (base t)); [congruence|]. reflexivity.
      + eexists. split.
        * cbn [Model.run1]. unfold on. rewrite O, K. cbn [negb andb]. unfold arg, on. rewrite O, K. cbn [negb andb is_ktextured field].
          unfold apply2t. rewrite Pt, (loaded_some _ _ _ C), Nat.eqb_refl. cbn. reflexivity.
        * match goal with |- Model.run1 _ _ _ _ _ _ ?s2 _ = _ => apply (read_intro s2 h w a (CTexturedMesh (TMesh (Mesh [] [] []) []) m x) O P) end. apply Cc.
    - split.
      + intros Hi Hk. cbn [Model.run1]. unfold on. rewrite O, (in_size k Hk), B. cbn [negb]. unfold arg, on. rewrite O. cbn [negb andb is_ktextured field].
        unfold apply2. rewrite P, (loaded_some _ _ _ C), Nat.eqb_refl. unfold self_merge. destruct (indices (geometry n)); [congruence|]. reflexivity.
      + eexists. split.
        * cbn [Model.run1]. unfold on. rewrite O, B. unfold arg, on. rewrite O. cbn [negb andb is_ktextured field].
          unfold apply2. rewrite P, (loaded_some _ _ _ C), Nat.eqb_refl. cbn. reflexivity.
        * match goal with |- Model.run1 _ _ _ _ _ _ ?s2 _ = _ => rewrite (read_intro s2 h w a (with_geometry n (Mesh [] [] [])) O P) end; [rewrite with_geometry_textured; destruct n; reflexivity|apply Cc].
  Qed.

  (** TexturedMesh.merge does not take a plain Mesh. *)
  Theorem C93_class : forall s h1 h2 w1 w2 k, object s h1 = Some w1 -> cls w1 = KTextured -> object s h2 = Some w2 -> cls w2 = KMesh ->
    ((0 <= k < 18446744073709551616)%Z -> run1 s (SMerge false h1 (OObj h2) k) = Raised s TypeError) /\
    run1 s (SReplace false h1 (OObj h2)) = Raised s TypeError.
  Proof.
    intros s h1 h2 w1 w2 k O1 K1 O2 K2. split.
    - intros Hk. cbn [Model.run1]. unfold on. rewrite O1, (in_size k Hk), K1. cbn [negb andb is_ktextured]. unfold arg, on. rewrite O2, K2. reflexivity.
    - cbn [Model.run1]. unfold on. rewrite O1, K1. cbn [negb andb is_ktextured]. unfold arg, on. rewrite O2, K2. reflexivity.
  Qed.
End Props.

(** A concrete program: two meshes, one merged into the other, the second deleted. *)
Notation demo := (run (V:=nat) (N:=nat) (T:=nat) (M:=unit) (X:=nat) (fun _ => 0) (fun _ => 0) (fun _ => 0) tt (fun _ => tt) 0 start).
Notation tri := (SMesh (V:=nat) (N:=nat) (T:=nat) (M:=unit) (X:=nat) [0%Z; 1%Z; 2%Z] [10; 11; 12] [0; 0; 0]).
Notation tex := (STextured (V:=nat) (N:=nat) (T:=nat) (M:=unit) (X:=nat) [0%Z; 1%Z; 2%Z] [20; 21; 22] [0; 0; 0] [7; 8; 9] 5).
Example C93_merge_case : exists s, demo [tri; tex; SMerge false 0 (OObj 1) 0; SDel 1] = inl s /\
  Forall plain [tri; tex; SMerge false 0 (OObj 1) 0; SDel 1] /\ Forall orderly [tri; tex; SMerge false 0 (OObj 1) 0; SDel 1] /\
  cell s 0 = Some (CMesh (Mesh [0%Z; 1%Z; 2%Z; 3%Z; 4%Z; 5%Z] [10; 11; 12; 20; 21; 22] [0; 0; 0; 0; 0; 0]) tt) /\
  cell s 1 = None /\ shows s 1 = None.
Proof. eexists. split; [reflexivity|]. split; [repeat constructor; discriminate|]. split; [repeat constructor|]. repeat split. Qed.
Example C93_textured_case : exists s, demo [tex; tex; SMerge false 0 (OObj 1) 2; SRenumber 1 3 [2%Z; 1%Z; 0%Z]] = inl s /\
  cell s 0 = Some (CTexturedMesh (TMesh (Mesh [0%Z; 1%Z; 2%Z; 0%Z; 1%Z; 3%Z] [20; 21; 22; 22] [0; 0; 0; 0]) [7; 8; 9; 9]) tt 5) /\
  cell s 1 = Some (CTexturedMesh (TMesh (Mesh [2%Z; 1%Z; 0%Z] [22; 21; 20] [0; 0; 0]) [9; 8; 7]) tt 5).
Proof. eexists. split; [reflexivity|]. split; reflexivity. Qed.
Example C93_primitives_case : exists s, demo [SMeshes [PMesh (Ok (Mesh [] [1] [2], tt)); PTextured (Ok (TMesh (Mesh [] [3] [4]) [5], tt, 6))]; SDel 0] = inl s /\
  cell s 0 = None /\ cell s 1 = Some (CTexturedMesh (TMesh (Mesh [] [3] [4]) [5]) tt 6) /\ object s 1 = Some (Wrapper KTextured (Some 1) (Some 1)).
Proof. eexists. split; [reflexivity|]. repeat split. Qed.

(** Not so: all memory is freed with the objects.  A second __init__ (also Mesh.__init__ on
    a TexturedMesh) and a broken model leak. *)
Theorem C93_leak_refuted : exists p1 p2 p3 s1 s2 s3,
  demo p1 = inl s1 /\ demo p2 = inl s2 /\ demo p3 = inl s3 /\ Forall plain p1 /\ Forall plain p2 /\ Forall plain p3 /\
  (forall h, object s1 h = None) /\ (forall h, object s2 h = None) /\ (forall h, object s3 h = None) /\
  leaked s1 0 /\ leaked s2 0 /\ leaked s3 0.
Proof.
  exists [tri; SInitMesh 0 [] [] []; SDel 0], [tex; SInitMesh 0 [] [] []; SDel 0], [SMeshes [PMesh (Ok (Mesh [] [1] [2], tt)); PMesh (Err Undefined)]].
  do 3 eexists. split; [reflexivity|]. split; [reflexivity|]. split; [reflexivity|].
  split; [repeat constructor|]. split; [repeat constructor|]. split; [repeat constructor|].
  assert (N1 : forall hp h, object (State (V:=nat) (N:=nat) (T:=nat) (M:=unit) (X:=nat) hp [None]) h = None) by (intros hp [|[|h]]; reflexivity).
  assert (N0 : forall hp h, object (State (V:=nat) (N:=nat) (T:=nat) (M:=unit) (X:=nat) hp []) h = None) by (intros hp [|h]; reflexivity).
  split; [apply N1|]. split; [apply N1|]. split; [apply N0|].
  split; [|split]; (split; [discriminate|]); intros h (w & O & _); unfold object in O; destruct h as [|[|h]]; cbn in O; discriminate.
Qed.

(** Not so: no program reads a null pointer.  Mesh.__new__ and None do. *)
Theorem C93_null_refuted : exists p1 p2 p3, demo p1 = inr NullPointer /\ demo p2 = inr NullPointer /\ demo p3 = inr NullPointer /\
  p1 = [SNew KMesh; SRead 0] /\ p2 = [tri; SMerge false 0 ONone 0] /\ p3 = [tex; SReplace false 0 ONone].
Proof. do 3 eexists. split; [|split; [|split; [|split; [|split]]]]; cycle 3; reflexivity. Qed.

(** Not so: merge of an object with itself doubles it, and replace_geometry with itself
    leaves it as it is. *)
Theorem C93_self_refuted : exists p1 p2 s, Forall plain p1 /\ Forall plain p2 /\
  demo p1 = inr InVector /\ p1 = [tri; SMerge false 0 (OObj 0) 0] /\
  demo p2 = inl s /\ p2 = [tri; SReplace false 0 (OObj 0)] /\ cell s 0 = Some (CMesh (Mesh [] [] []) tt).
Proof.
  exists [tri; SMerge false 0 (OObj 0) 0], [tri; SReplace false 0 (OObj 0)]. eexists.
  split; [repeat constructor; discriminate|]. split; [repeat constructor; discriminate|]. repeat split.
Qed.

Print Assumptions C93_safe.
Print Assumptions C93_no_leak.
Print Assumptions C93_separate.
Print Assumptions C93_exception.
Print Assumptions C93_second_init.
Print Assumptions C93_primitives.
Print Assumptions C93_construct.
Print Assumptions C93_merge.
Print Assumptions C93_textured_merge.
Print Assumptions C93_self.
Print Assumptions C93_class.
Print Assumptions C93_leak_refuted.
Print Assumptions C93_null_refuted.
Print Assumptions C93_self_refuted.
