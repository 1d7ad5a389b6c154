From Coq Require Import List Bool ZArith Lia.
From Verif.Base Require Import Py PyFacts.
From Verif.Mesh Require Import Model Spec.
Import ListNotations.
Local Open Scope Z_scope.

Lemma size_nonneg : forall A (l : list A), 0 <= size l.
Proof. intros; unfold size; lia. Qed.
Lemma size_app : forall A (a b : list A), size (a ++ b) = size a + size b.
Proof. intros; unfold size. rewrite app_length. lia. Qed.
Lemma size_map : forall A B (f : A -> B) l, size (map f l) = size l.
Proof. intros; unfold size. rewrite map_length. reflexivity. Qed.
Lemma size_skipn : forall A k (l : list A), 0 <= k <= size l -> size (skipn (Z.to_nat k) l) = size l - k.
Proof. intros A k l H. unfold size in *. rewrite skipn_length. lia. Qed.

Lemma triples_app : forall A n (a b : list A), List.length a = (3 * n)%nat -> triples (a ++ b) = triples a ++ triples b.
Proof.
  induction n as [|n IH]; intros a b H.
  - destruct a; [reflexivity|discriminate].
  - destruct a as [|x [|y [|z a]]]; cbn in H; try lia. cbn [app triples]. rewrite IH by lia. reflexivity.
Qed.

Lemma triples_map : forall A B (f : A -> B) n l, List.length l = (3 * n)%nat ->
  triples (map f l) = map (fun t => let '(a, b, c) := t in (f a, f b, f c)) (triples l).
Proof.
  induction n as [|n IH]; intros l H.
  - destruct l; [reflexivity|discriminate].
  - destruct l as [|x [|y [|z l]]]; cbn in H; try lia. cbn [map triples]. rewrite IH by lia. reflexivity.
Qed.

Lemma refers_some : forall A (l : list A) i, 0 <= i < size l <-> exists x, refers l i = Some x.
Proof.
  intros A l i. unfold refers, size. destruct (Z.ltb_spec i 0).
  - split; [lia|]. intros (x & E). discriminate.
  - destruct (nth_error l (Z.to_nat i)) eqn:E.
    + split; [eauto|]. intros _. assert ((Z.to_nat i < List.length l)%nat) by (apply nth_error_Some; rewrite E; discriminate). lia.
    + apply nth_error_None in E. split; [lia|]. intros (x & Q). discriminate.
Qed.

Lemma at_refers : forall A (l : list A) i, at_ l i = match refers l i with Some x => Ok x | None => Err Undefined end.
Proof. intros. unfold at_, refers. destruct (i <? 0); reflexivity. Qed.

Lemma refers_app1 : forall A (a b : list A) i, i < size a -> refers (a ++ b) i = refers a i.
Proof.
  intros A a b i H. unfold refers, size in *. destruct (Z.ltb_spec i 0); [reflexivity|]. apply nth_error_app1. lia.
Qed.
Lemma refers_app2 : forall A (a b : list A) i, size a <= i -> refers (a ++ b) i = refers b (i - size a).
Proof.
  intros A a b i H. unfold refers, size in *. destruct (Z.ltb_spec i 0); [lia|]. destruct (Z.ltb_spec (i - Z.of_nat (List.length a)) 0); [lia|].
  rewrite nth_error_app2 by lia. f_equal. lia.
Qed.
Lemma nth_error_skipn' : forall A n m (l : list A), nth_error (skipn n l) m = nth_error l (n + m).
Proof. induction n as [|n IH]; intros m l; [reflexivity|]. destruct l; [destruct m; reflexivity|]. apply IH. Qed.
Lemma refers_skipn : forall A k (l : list A) i, 0 <= k -> 0 <= i -> refers (skipn (Z.to_nat k) l) i = refers l (k + i).
Proof.
  intros A k l i K I. unfold refers. destruct (Z.ltb_spec i 0); [lia|]. destruct (Z.ltb_spec (k + i) 0); [lia|].
  rewrite nth_error_skipn'. f_equal. lia.
Qed.

(** The index given to a vertex of the second mesh. *)
Definition moved (k n i : Z) : Z := if i <? k then i else u32 (u64 (i + u64 (n - k))).

Lemma moved_eq : forall k n i, 0 <= i -> i + n - k < 4294967296 -> 0 <= n -> moved k n i = if i <? k then i else i + n - k.
Proof.
  intros k n i I B N. unfold moved. destruct (Z.ltb_spec i k); [reflexivity|]. unfold u32, u64.
  rewrite Z.add_mod_idemp_r by lia. rewrite (Z.mod_small (i + (n - k))) by lia. rewrite Z.mod_small by lia. lia.
Qed.

Lemma merged_refers : forall A (a b : list A) k i, agree k a b -> 0 <= i < size b -> size a + size b - k <= 4294967296 ->
  refers (a ++ skipn (Z.to_nat k) b) (moved k (size a) i) = refers b i.
Proof.
  intros A a b k i (K1 & K2 & AG) I B. assert (S := size_nonneg _ a). rewrite moved_eq by lia.
  destruct (Z.ltb_spec i k).
  - rewrite refers_app1 by lia. apply AG. lia.
  - rewrite refers_app2 by lia. rewrite refers_skipn by lia. f_equal. lia.
Qed.

Lemma moved_range : forall k n s i, 0 <= i < s -> 0 <= k <= n -> k <= s -> n + s - k <= 4294967296 -> 0 <= moved k n i < n + s - k.
Proof. intros k n s i I K KS B. rewrite moved_eq by lia. destruct (Z.ltb_spec i k); lia. Qed.

Section Mesh.
  Context {V N T : Type}.

  (** merge, evaluated. *)
  Lemma merge_eq : forall (m1 m2 : mesh V N) k, List.length (normals m2) = List.length (vertices m2) -> 0 <= k <= size (vertices m2) ->
    merge m1 m2 k = Ok (Mesh (indices m1 ++ map (moved k (size (vertices m1))) (indices m2))
                             (vertices m1 ++ skipn (Z.to_nat k) (vertices m2))
                             (normals m1 ++ skipn (Z.to_nat k) (normals m2))).
  Proof.
    intros m1 m2 k L K. unfold merge. fold (moved k (size (vertices m1))). destruct (Z.ltb_spec k (size (vertices m2))) as [Lt|Ge].
    - unfold from_. unfold size in *. rewrite L. destruct (Z.leb_spec k (Z.of_nat (List.length (vertices m2)))); [|lia]. reflexivity.
    - rewrite !skipn_all2 by (unfold size in *; lia). rewrite !app_nil_r. reflexivity.
  Qed.

  Lemma tmerge_eq : forall (m1 m2 : tmesh V N T) k, List.length (normals (base m2)) = List.length (vertices (base m2)) ->
    List.length (uvs m2) = List.length (vertices (base m2)) -> 0 <= k <= size (vertices (base m2)) ->
    tmerge m1 m2 k = Ok (TMesh (Mesh (indices (base m1) ++ map (moved k (size (vertices (base m1)))) (indices (base m2)))
                                     (vertices (base m1) ++ skipn (Z.to_nat k) (vertices (base m2)))
                                     (normals (base m1) ++ skipn (Z.to_nat k) (normals (base m2))))
                               (uvs m1 ++ skipn (Z.to_nat k) (uvs m2))).
  Proof.
    intros m1 m2 k L U K. unfold tmerge. rewrite merge_eq by assumption. cbn [bind].
    destruct (Z.ltb_spec k (size (vertices (base m2)))) as [Lt|Ge].
    - unfold from_. unfold size in *. rewrite U. destruct (Z.leb_spec k (Z.of_nat (List.length (vertices (base m2))))); [|lia]. reflexivity.
    - rewrite (skipn_all2 (uvs m2)) by (unfold size in *; lia). rewrite app_nil_r. reflexivity.
  Qed.

  Lemma triangles_merged : forall A (a b : list A) k (i1 i2 : list Z), (exists n, List.length i1 = (3 * n)%nat) ->
    (forall i, In i i1 -> 0 <= i < size a) -> (forall i, In i i2 -> 0 <= i < size b) ->
    agree k a b -> size a + size b - k <= 4294967296 ->
    triangles (i1 ++ map (moved k (size a)) i2) (a ++ skipn (Z.to_nat k) b) = triangles i1 a ++ triangles i2 b.
  Proof.
    intros A a b k i1 i2 (n & L) R1 R2 AG B. unfold triangles. rewrite map_app, (triples_app _ n) by (rewrite map_length; exact L). f_equal.
    - f_equal. apply map_ext_in. intros i Hi. apply refers_app1. apply R1, Hi.
    - f_equal. rewrite map_map. apply map_ext_in. intros i Hi. apply merged_refers; auto.
  Qed.

  Lemma merged_well_formed : forall (m1 m2 : mesh V N) k m, well_formed m1 -> well_formed m2 ->
    0 <= k <= size (vertices m1) -> k <= size (vertices m2) -> size (vertices m1) + size (vertices m2) - k <= 4294967296 ->
    merge m1 m2 k = Ok m -> well_formed m.
  Proof.
    intros m1 m2 k m ((n1 & L1) & R1 & E1 & B1) ((n2 & L2) & R2 & E2 & B2) K K2 B E.
    rewrite merge_eq in E by (auto; lia). injection E as <-. unfold well_formed. cbn [indices vertices normals].
    rewrite size_app, size_skipn by lia. split; [|split; [|split]].
    - exists (n1 + n2)%nat. rewrite app_length, map_length. lia.
    - intros i Hi. apply in_app_or in Hi. destruct Hi as [Hi|Hi].
      + specialize (R1 i Hi). lia.
      + apply in_map_iff in Hi. destruct Hi as (j & <- & Hj).
        assert (Q := moved_range k (size (vertices m1)) (size (vertices m2)) j (R2 j Hj) K K2 B). lia.
    - rewrite !app_length, !skipn_length. lia.
    - lia.
  Qed.
End Mesh.

(** ** Renumbering *)

Lemma set_nth_length : forall A (l : list A) i x, List.length (set_nth l i x) = List.length l.
Proof. induction l as [|y l IH]; intros [|i] x; cbn; auto. Qed.
Lemma set_nth_same : forall A (l : list A) i x, (i < List.length l)%nat -> nth_error (set_nth l i x) i = Some x.
Proof. induction l as [|y l IH]; intros [|i] x H; cbn in *; try lia; auto. apply IH. lia. Qed.
Lemma set_nth_other : forall A (l : list A) i j x, i <> j -> nth_error (set_nth l i x) j = nth_error l j.
Proof. induction l as [|y l IH]; intros [|i] [|j] x H; cbn; auto; try congruence. Qed.

Lemma set_at_ok : forall A (l : list A) i x, 0 <= i < size l -> set_at l i x = Ok (set_nth l (Z.to_nat i) x).
Proof. intros A l i x H. unfold set_at. destruct (Z.leb_spec 0 i); destruct (Z.ltb_spec i (size l)); simpl; auto; lia. Qed.
Lemma size_set_nth : forall A (l : list A) i x, size (set_nth l i x) = size l.
Proof. intros. unfold size. rewrite set_nth_length. reflexivity. Qed.
Lemma refers_set_same : forall A (l : list A) i x, 0 <= i < size l -> refers (set_nth l (Z.to_nat i) x) i = Some x.
Proof. intros A l i x H. unfold refers, size in *. destruct (Z.ltb_spec i 0); [lia|]. apply set_nth_same. lia. Qed.
Lemma refers_set_other : forall A (l : list A) i j x, 0 <= i -> i <> j -> refers (set_nth l (Z.to_nat i) x) j = refers l j.
Proof. intros A l i j x H D. unfold refers. destruct (Z.ltb_spec j 0); [reflexivity|]. apply set_nth_other. lia. Qed.

Lemma place_ok : forall A ren (a b : list A), (forall r, In r ren -> 0 <= r < size a) -> (List.length ren <= List.length b)%nat -> NoDup ren ->
  exists a', place a ren b = Ok a' /\ size a' = size a /\
    (forall i r, nth_error ren i = Some r -> refers a' r = nth_error b i) /\
    (forall j, ~ In j ren -> refers a' j = refers a j).
Proof.
  intros A. induction ren as [|r ren IH]; intros a b R L ND.
  - exists a. split; [reflexivity|]. split; [reflexivity|]. split; [intros [|i] r E; discriminate|auto].
  - destruct b as [|x b]; [cbn in L; lia|]. cbn [place]. rewrite set_at_ok by (apply R; left; reflexivity). cbn [bind].
    inversion ND as [|r' ren' NI ND']; subst.
    destruct (IH (set_nth a (Z.to_nat r) x) b) as (a' & E & S & F & G).
    + intros q Hq. rewrite size_set_nth. apply R. right; exact Hq.
    + cbn in L. lia.
    + exact ND'.
    + exists a'. split; [exact E|]. rewrite size_set_nth in S. split; [exact S|]. split.
      * intros [|i] q Q; cbn in Q; [|cbn [nth_error]; apply F, Q]. injection Q as <-. cbn [nth_error].
        rewrite G by exact NI. apply refers_set_same. apply R. left; reflexivity.
      * intros j Hj. rewrite G by (intro X; apply Hj; right; exact X).
        apply refers_set_other; [apply R; left; reflexivity|]. intro X. apply Hj. left. exact X.
Qed.

Lemma assemble_ok : forall A junk n ren (b : list A), 0 <= n -> (forall r, In r ren -> 0 <= r < n) -> NoDup ren -> (List.length ren <= List.length b)%nat ->
  exists l, assemble junk n ren b = Ok l /\ size l = n + size b - size ren /\
    (forall i r, nth_error ren i = Some r -> refers l r = nth_error b i) /\
    (forall i, 0 <= i -> refers l (n + i) = refers b (size ren + i)).
Proof.
  intros A junk n ren b N R ND L. unfold assemble.
  assert (SZ : size (map junk (seq 0 (Z.to_nat n))) = n) by (unfold size; rewrite map_length, seq_length; lia).
  destruct (place_ok A ren (map junk (seq 0 (Z.to_nat n))) b) as (a & E & S & F & _); auto; [rewrite SZ; exact R|].
  rewrite E. cbn [bind]. unfold from_. destruct (Z.leb_spec (size ren) (size b)); [|unfold size in *; lia]. cbn [bind].
  rewrite SZ in S. eexists. split; [reflexivity|]. split; [|split].
  - rewrite size_app, size_skipn, S by (split; [apply size_nonneg|lia]). lia.
  - intros i r Q. rewrite refers_app1; [apply F, Q|]. rewrite S. apply R. eapply nth_error_In; eassumption.
  - intros i I. rewrite refers_app2 by lia. rewrite S. replace (n + i - n) with i by lia. apply refers_skipn; [apply size_nonneg|exact I].
Qed.

(** The new index of an old index. *)
Definition renamed (n : Z) (ren : list Z) (i : Z) : Z :=
  if i <? size ren then nth (Z.to_nat i) ren 0 else i + n.

Lemma renumber_ok : forall V N T jv jn jt (m : tmesh V N T) n ren, fully_textured m -> 0 <= n -> (forall r, In r ren -> 0 <= r < n) -> NoDup ren ->
  size ren <= size (vertices (base m)) -> size (vertices (base m)) + n <= 4294967296 ->
  exists m', renumber jv jn jt m n ren = Ok m' /\
    indices (base m') = map (renamed n ren) (indices (base m)) /\
    assemble jv n ren (vertices (base m)) = Ok (vertices (base m')) /\
    assemble jn n ren (normals (base m)) = Ok (normals (base m')) /\
    assemble jt n ren (uvs m) = Ok (uvs m') /\
    size (vertices (base m')) = n + size (vertices (base m)) - size ren /\
    List.length (normals (base m')) = List.length (vertices (base m')) /\
    List.length (uvs m') = List.length (vertices (base m')).
Proof.
  intros V N T jv jn jt m n ren (((k & L) & R & EN & B) & EU) N0 RR ND SR B2. unfold renumber.
  assert (EI : mapM (fun i => if i <? size ren then at_ ren i else Ok (u32 (u64 (i + n)))) (indices (base m)) = Ok (map (renamed n ren) (indices (base m)))).
  { clear L. revert R. induction (indices (base m)) as [|i idx IH]; intro R; [reflexivity|]. cbn [mapM map].
    rewrite IH by (intros j Hj; apply R; right; exact Hj). assert (I := R i (or_introl eq_refl)).
    unfold renamed at 2. destruct (Z.ltb_spec i (size ren)) as [Lt|Ge].
    - unfold at_. destruct (Z.ltb_spec i 0); [lia|]. rewrite (nth_error_nth' ren 0) by (unfold size in *; lia). reflexivity.
    - unfold u32, u64. rewrite (Z.mod_small (i + n)) by lia. rewrite Z.mod_small by lia. reflexivity. }
  rewrite EI. cbn [bind].
  assert (LR : (List.length ren <= List.length (vertices (base m)))%nat) by (unfold size in *; lia).
  destruct (assemble_ok V jv n ren (vertices (base m)) N0 RR ND LR) as (v & Ev & Sv & _).
  destruct (assemble_ok N jn n ren (normals (base m)) N0 RR ND ltac:(lia)) as (w & Ew & Sw & _).
  destruct (assemble_ok T jt n ren (uvs m) N0 RR ND ltac:(lia)) as (t & Et & St & _).
  rewrite Ev, Ew, Et. cbn [bind]. eexists. split; [reflexivity|]. cbn [base indices vertices normals uvs].
  unfold size in *. repeat split; auto; lia.
Qed.

(** Full renumbering keeps what the indices refer to. *)
Lemma renamed_full : forall A junk n ren (b l : list A) i, 0 <= n -> (forall r, In r ren -> 0 <= r < n) -> NoDup ren -> size ren = size b ->
  assemble junk n ren b = Ok l -> 0 <= i < size b -> refers l (renamed n ren i) = refers b i /\ 0 <= renamed n ren i < n.
Proof.
  intros A junk n ren b l i N R ND S E I.
  destruct (assemble_ok A junk n ren b N R ND ltac:(unfold size in *; lia)) as (l' & E' & _ & F & _).
  assert (l' = l) by congruence. subst l'. unfold renamed. destruct (Z.ltb_spec i (size ren)) as [Lt|Ge]; [|lia].
  assert (Q : nth_error ren (Z.to_nat i) = Some (nth (Z.to_nat i) ren 0)) by (apply nth_error_nth'; unfold size in *; lia).
  rewrite (F _ _ Q). split; [unfold refers; destruct (Z.ltb_spec i 0); [lia|reflexivity]|].
  apply R. eapply nth_error_In; eassumption.
Qed.

(** In general an index beyond the renumbered block refers to the entry [size ren]
    further on. *)
Lemma renamed_rest : forall A junk n ren (b l : list A) i, 0 <= n -> (forall r, In r ren -> 0 <= r < n) -> NoDup ren -> size ren <= size b ->
  assemble junk n ren b = Ok l -> size ren <= i -> refers l (renamed n ren i) = refers b (size ren + i).
Proof.
  intros A junk n ren b l i N R ND S E I.
  destruct (assemble_ok A junk n ren b N R ND ltac:(unfold size in *; lia)) as (l' & E' & _ & _ & F).
  assert (l' = l) by congruence. subst l'. unfold renamed. destruct (Z.ltb_spec i (size ren)) as [Lt|Ge]; [lia|].
  rewrite Z.add_comm. apply F. assert (Q := size_nonneg _ ren). lia.
Qed.

Lemma triangles_renamed : forall A (b l : list A) idx f, (forall i, In i idx -> refers l (f i) = refers b i) ->
  triangles (map f idx) l = triangles idx b.
Proof. intros A b l idx f H. unfold triangles. f_equal. rewrite map_map. apply map_ext_in. exact H. Qed.

(** ** Iteration and cleanup *)

Lemma iterate_ok : forall V (vs : list V) idx, (forall i, In i idx -> 0 <= i < size vs) ->
  exists ts, iterate vs idx = Ok ts /\
    map (fun t => fst t) ts = triples idx /\
    map (fun t => let '(_, (a, b, c)) := t in (Some a, Some b, Some c)) ts = triples (map (refers vs) idx).
Proof.
  intros V vs. assert (K : forall n idx, (List.length idx <= n)%nat -> (forall i, In i idx -> 0 <= i < size vs) ->
    exists ts, iterate vs idx = Ok ts /\ map (fun t => fst t) ts = triples idx /\
    map (fun t => let '(_, (a, b, c)) := t in (Some a, Some b, Some c)) ts = triples (map (refers vs) idx)).
  { induction n as [|n IH]; intros idx L R.
    - destruct idx; [|cbn in L; lia]. exists []. auto.
    - destruct idx as [|i [|j [|k idx]]]; [exists []; auto..|].
      destruct (IH idx) as (ts & E & F & G); [cbn in L; lia|intros x Hx; apply R; do 3 right; exact Hx|].
      destruct (proj1 (refers_some V vs i)) as (a & Ea); [apply R; left; reflexivity|].
      destruct (proj1 (refers_some V vs j)) as (b & Eb); [apply R; right; left; reflexivity|].
      destruct (proj1 (refers_some V vs k)) as (c & Ec); [apply R; do 2 right; left; reflexivity|].
      exists ((i, j, k, (a, b, c)) :: ts). cbn [iterate]. rewrite !at_refers, Ea, Eb, Ec. cbn [bind]. rewrite E. cbn [bind].
      split; [reflexivity|]. cbn [map fst triples]. rewrite F, G, Ea, Eb, Ec. split; reflexivity. }
  intros idx R. apply (K (List.length idx)); auto.
Qed.
