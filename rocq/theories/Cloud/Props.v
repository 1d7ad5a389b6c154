(** C46, C71, C72: point clouds. *)
From Coq Require Import Reals Lra Lia List ZArith Bool.
From Verif.Base Require Import Py PyFacts Vec.
From Verif.Geom Require Import Model Spec Proofs.
From Verif.Cloud Require Import Model Spec Proofs.
Import ListNotations.

(** * C46 *)

(** The constructor accepts exactly 3*n points with as many colors, which are bytes. *)
Theorem C46_constructor : forall debug ps cs c,
  init debug (Some (array_of ps)) (Some (array_of cs)) = Ok c <->
  List.length ps = List.length cs /\ Forall (fun k => byte (red k) /\ byte (green k) /\ byte (blue k)) cs /\ entries c (combine ps (map Some cs)).
Proof.
  intros debug ps cs c.
  assert (EN : List.length ps = List.length cs -> entries (Cloud ps cs) (combine ps (map Some cs))).
  { revert cs. induction ps as [|p ps IH]; intros [|k cs] L; try discriminate; [exact entries_empty|]. cbn in L. injection L as L. destruct (IH cs L) as (P & [(_ & C)|C]); cbn [points colors] in *.
    - subst cs. destruct ps; [|discriminate]. split; [reflexivity|right; reflexivity].
    - split; cbn [points colors combine map fst snd]; [f_equal; exact P|right; f_equal; exact C]. }
  split.
  - intro H. destruct (Nat.eq_dec (List.length ps) (List.length cs)) as [L|L]; [|rewrite init_mismatch in H by exact L; discriminate H]. split; [exact L|].
    assert (B : exists cs', mapM color_of_numpy cs = Ok cs').
    { unfold init, array_of in H. cbn [shape columns Nat.eqb bind] in H. destruct (same_shape _ _); [|discriminate H]. destruct (mapM color_of_numpy cs); [eauto|discriminate H]. }
    destruct B as (cs' & B). apply uchar_inv in B. destruct B as (_ & B). split; [exact B|]. rewrite init_colored in H by assumption. injection H as <-. apply EN, L.
  - intros (L & B & E). rewrite init_colored by assumption. f_equal. eapply entries_eq; [apply EN, L|exact E].
Qed.
Theorem C46_constructor_errors : forall debug ps cs,
  (forall a, (forall n, shape a <> [3%nat; n]) -> init debug (Some a) cs = Err AssertionError) /\
  (forall k, init debug None (Some k) = Err AttributeError) /\
  init debug None None = Ok empty_cloud /\
  (exists c, init debug (Some (array_of ps)) None = Ok c /\ entries c (map (fun p => (p, None)) ps)).
Proof.
  intros debug ps cs. split; [|split; [|split]].
  - intros a N. unfold init. destruct (shape a) as [|r [|n [|]]] eqn:S; try reflexivity. destruct (Nat.eqb_spec r 3) as [-> |_]; [exfalso; apply (N n); reflexivity|reflexivity].
  - reflexivity.
  - reflexivity.
  - exists (Cloud ps []). split; [reflexivity|]. split; cbn [points colors]; [rewrite map_map, map_id; reflexivity|left]. split; [|reflexivity]. induction ps; constructor; [reflexivity|assumption].
Qed.

(** Merging refuses a colored cloud followed by one without colors; otherwise it keeps
    the points of both in order, and the colors with their points. *)
Theorem C46_merge : forall a b la lb, entries a la -> entries b lb ->
  (merge a b = Err ValueError <-> (exists p k, In (p, Some k) la) /\ forall p k, ~ In (p, Some k) lb) /\
  (merge a b <> Err ValueError -> exists c, merge a b = Ok c /\ map fst la ++ map fst lb = points c /\
     (uniform_colors (la ++ lb) -> entries c (la ++ lb))).
Proof.
  intros a b la lb EA EB.
  assert (COL : forall c l, entries c l -> colored c = true <-> exists p k, In (p, Some k) l).
  { intros c l E. split.
    - intro C. destruct (entries_colored c l E C) as (NE & M). destruct l as [|[p k] l]; [congruence|]. destruct (colors c); [discriminate M|]. cbn in M. injection M as -> _. exists p, c0. left. reflexivity.
    - intros (p & k & I). destruct (colored c) eqn:C; [reflexivity|]. destruct (entries_uncolored c l E C) as (F & _). rewrite Forall_forall in F. apply F in I. discriminate I. }
  split.
  - unfold merge. destruct (colored a) eqn:CA, (colored b) eqn:CB; cbn [andb negb].
    + split; [discriminate|]. intros (_ & N). apply (COL b lb EB) in CB. destruct CB as (p & k & I). exfalso. eapply N, I.
    + split; [|reflexivity]. intros _. split; [apply (COL a la EA), CA|]. intros p k I. assert (X : colored b = true) by (apply (COL b lb EB); eauto). congruence.
    + split; [discriminate|]. intros (X & _). apply (COL a la EA) in X. congruence.
    + split; [discriminate|]. intros (X & _). apply (COL a la EA) in X. congruence.
  - intro N. rewrite merge_spec in *. destruct (colored a && negb (colored b))%bool; [congruence|]. exists (append a b). split; [reflexivity|].
    split; [cbn; destruct EA as (-> & _), EB as (-> & _); reflexivity|]. apply append_entries; assumption.
Qed.

(** The other order is not refused: the result has fewer colors than points, and then
    neither transforming nor reading the colors works. *)
Theorem C46_merge_refuted : forall a b la lb, entries a la -> entries b lb ->
  la <> [] -> Forall (fun e => snd e = None) la -> lb <> [] -> Forall (fun e => snd e <> None) lb ->
  exists c, merge a b = Ok c /\ ~ coherent c /\ (List.length (colors c) < num_points c)%nat /\
    (forall debug T, cloud_from debug c T = Err AssertionError /\ cloud_to debug c T = Err AssertionError) /\
    color_at c (Z.of_nat (num_points c - 1)) = Err Undefined.
Proof.
  intros a b la lb EA EB NA FA NB FB.
  assert (CA : colors a = []). { destruct EA as (_ & [(_ & E)|E]); [exact E|]. destruct (none_nil _ _ FA E) as (? & _). contradiction. }
  assert (CB : map snd lb = map Some (colors b)). { destruct EB as (_ & [(F & E)|E]); [|exact E]. destruct lb as [|e lb]; [congruence|]. inversion F; inversion FB; subst. contradiction. }
  assert (LB : List.length (points b) = List.length (colors b)). { destruct EB as (-> & _). rewrite map_length, <- (map_length Some (colors b)), <- CB, map_length. reflexivity. }
  assert (PA : (0 < List.length (points a))%nat). { destruct EA as (-> & _). rewrite map_length. destruct la; [congruence|cbn; lia]. }
  assert (PB : (0 < List.length (colors b))%nat). { rewrite <- LB. destruct EB as (-> & _). rewrite map_length. destruct lb; [congruence|cbn; lia]. }
  exists (append a b). assert (LT : (List.length (colors (append a b)) < num_points (append a b))%nat).
  { unfold num_points, append. cbn [points colors]. rewrite CA. cbn [app]. rewrite app_length. lia. }
  assert (COL : colored (append a b) = true). { unfold colored, append. cbn [colors]. rewrite CA. cbn [app]. destruct (colors b); [cbn in PB; lia|reflexivity]. }
  split; [apply merge_ok; unfold colored; rewrite CA; discriminate|]. split; [|split; [exact LT|split]].
  - intros (l & E). assert (L := entries_lengths _ _ E COL). unfold num_points in LT. lia.
  - intros debug T. unfold cloud_from, cloud_to. rewrite COL. unfold num_points in LT. split; apply init_mismatch; [rewrite transform_all_from_map|rewrite transform_all_to_map]; rewrite map_length; lia.
  - unfold color_at, access. rewrite (proj2 (Z.ltb_ge _ _)) by lia. rewrite Nat2Z.id. destruct (nth_error _ _) eqn:N; [|reflexivity]. assert (X : nth_error (colors (append a b)) (num_points (append a b) - 1) <> None) by (rewrite N; discriminate).
    apply nth_error_Some in X. lia.
Qed.

(** A colored cloud can be merged with the empty cloud only if it is second. *)
Theorem C46_merge_empty_refuted : exists a, coherent a /\ merge a empty_cloud = Err ValueError /\ merge empty_cloud a = Ok a.
Proof.
  exists (Cloud [V 1 2 3] [Color 9 8 7]). split; [|split; reflexivity]. exists [(V 1 2 3, Some (Color 9 8 7))]. split; [reflexivity|right; reflexivity].
Qed.

(** Access by index. *)
Theorem C46_access : forall c l, entries c l ->
  (forall i p k, nth_error l i = Some (p, k) ->
     point c (Z.of_nat i) = Ok p /\ (forall q, k = Some q -> color_at c (Z.of_nat i) = Ok q)) /\
  (forall i, (i < 0)%Z -> point c i = Err OverflowError /\ color_at c i = Err OverflowError) /\
  (forall i, (Z.of_nat (length l) <= i)%Z -> point c i = Err Undefined /\ color_at c i = Err Undefined).
Proof.
  intros c l (P & C). unfold entry in *. split; [|split].
  2: { intros i I. unfold point, color_at, access. rewrite (proj2 (Z.ltb_lt _ _)) by exact I. auto. }
  2: { intros i I. unfold point, color_at, access. rewrite (proj2 (Z.ltb_ge _ _)) by lia.
       assert (LC : (length (colors c) <= length l)%nat).
       { destruct C as [(_ & ->)|C]; [cbn; lia|]. apply (f_equal (@length _)) in C. rewrite !map_length in C. lia. }
       rewrite P. split; [rewrite (proj2 (nth_error_None _ _)) by (rewrite map_length; lia)|rewrite (proj2 (nth_error_None _ _)) by lia]; reflexivity. }
  intros i p k N. unfold point, color_at, access. rewrite (proj2 (Z.ltb_ge _ _)) by lia. rewrite Nat2Z.id. split.
  - rewrite P, nth_error_map, N. reflexivity.
  - intros q ->. destruct C as [(F & _)|C]; [rewrite Forall_forall in F; apply nth_error_In in N; apply F in N; discriminate N|].
    assert (X : nth_error (map snd l) i = Some (Some q)) by (rewrite nth_error_map, N; reflexivity). rewrite C, nth_error_map in X. destruct (nth_error (colors c) i); [|discriminate X]. injection X as ->. reflexivity.
Qed.

(** * C71: transforming, registering and summing *)

Theorem C71_transform : forall debug c l T, entries c l -> bytes_ok c ->
  (exists d, cloud_from debug c T = Ok d /\ bytes_ok d /\ entries d (map (fun e => (transform_from T (fst e), snd e)) l)) /\
  (exists d, cloud_to debug c T = Ok d /\ bytes_ok d /\ entries d (map (fun e => (transform_to T (fst e), snd e)) l)).
Proof.
  intros debug c l T E B. split; eexists; (split; [first [eapply from_ok|eapply to_ok]; eassumption|split; [exact B|]]); apply (entries_move _ c l E).
Qed.
Theorem C71_transform_back : forall debug c T, coherent c -> bytes_ok c -> rotation (pR T) ->
  (let* d := cloud_from debug c T in cloud_to debug d T) = Ok c /\ (let* d := cloud_to debug c T in cloud_from debug d T) = Ok c.
Proof.
  intros debug [ps cs] T (l & E) B RT. split.
  - rewrite (from_ok debug _ l T E B). cbn [bind]. erewrite to_ok; [|apply (entries_move _ _ l E)|exact B]. cbn [points colors]. rewrite map_map. f_equal. f_equal. rewrite <- (map_id ps) at 2. apply map_ext. intro p. apply transform_to_from; assumption.
  - rewrite (to_ok debug _ l T E B). cbn [bind]. erewrite from_ok; [|apply (entries_move _ _ l E)|exact B]. cbn [points colors]. rewrite map_map. f_equal. f_equal. rewrite <- (map_id ps) at 2. apply map_ext. intro p. apply transform_from_to; assumption.
Qed.

(** Registering moves each cloud by its own pose and joins them in order. *)
Theorem C71_register : forall debug l ls, Forall2 (fun p es => entries (snd p) es /\ bytes_ok (snd p)) l ls -> uniform_colors (concat ls) ->
  exists c, register debug l = Ok c /\ entries c (flat_map (fun q => map (fun e => (transform_from (fst (fst q)) (fst e), snd e)) (snd q)) (combine l ls)).
Proof.
  intros debug l ls F U. unfold register.
  set (mv := fun p : pose * cloud => Cloud (map (transform_from (fst p)) (points (snd p))) (colors (snd p))).
  assert (M : mapM (fun p => cloud_from debug (snd p) (fst p)) l = Ok (map mv l)).
  { clear U. induction F as [|p es l ls (E & B) F IH]; [reflexivity|]. cbn [mapM map]. rewrite (from_ok debug _ es (fst p) E B). cbn [bind]. rewrite IH. reflexivity. }
  rewrite M. cbn [bind].
  assert (G : Forall2 entries (map mv l) (map (fun q => map (moved_entry (transform_from (fst (fst q)))) (snd q)) (combine l ls))).
  { clear U M. induction F as [|p es l ls (E & B) F IH]; cbn [map combine]; constructor; [apply entries_move, E|exact IH]. }
  assert (U' : uniform_colors (concat (map (fun q => map (moved_entry (transform_from (fst (fst q)))) (snd q)) (combine l ls)))).
  { clear M G. assert (K : forall P : option color -> Prop, Forall (fun e : entry => P (snd e)) (concat ls) -> Forall (fun e : entry => P (snd e)) (concat (map (fun q => map (moved_entry (transform_from (fst (fst q)))) (snd q)) (combine l ls)))).
    { intros P H. clear U. induction F as [|p es l ls _ F IH]; cbn [map combine concat]; [constructor|]. cbn [concat] in H. apply Forall_app in H. destruct H as (H1 & H2). apply Forall_app. split; [|apply IH, H2]. cbn [fst snd]. clear -H1. induction H1; constructor; assumption. }
    destruct U as [U|U]; [left; apply (K (fun o => o = None)), U|right; apply (K (fun o => o <> None)), U]. }
  assert (EN := concat_entries _ _ G U'). exists (Cloud (concat (map points (map mv l))) (concat (map colors (map mv l)))). split; [eapply from_clouds_ok, EN|]. rewrite flat_map_concat_map. exact EN.
Qed.

(** Changing the frame before or after registering is the same. *)
Theorem C71_register_frame : forall debug T l ls, Forall2 (fun p es => entries (snd p) es /\ bytes_ok (snd p)) l ls -> uniform_colors (concat ls) ->
  register debug (map (fun p => (compose T (fst p), snd p)) l) = (let* c := register debug l in cloud_from debug c T).
Proof.
  intros debug T l ls F U. assert (F' : Forall2 (fun p es => entries (snd p) es /\ bytes_ok (snd p)) (map (fun p => (compose T (fst p), snd p)) l) ls) by (clear U; induction F; cbn [map]; constructor; assumption).
  destruct (C71_register debug l ls F U) as (c & -> & E). destruct (C71_register debug _ ls F' U) as (d & -> & D). cbn [bind].
  assert (B : bytes_ok c).
  { unfold bytes_ok. assert (X : Forall (fun e : entry => forall k, snd e = Some k -> byte (red k) /\ byte (green k) /\ byte (blue k)) (flat_map (fun q => map (fun e => (transform_from (fst (fst q)) (fst e), snd e)) (snd q)) (combine l ls))).
    { clear -F. induction F as [|p es l ls ((_ & C) & B) F IH]; cbn [combine flat_map]; [constructor|]. apply Forall_app. split; [|exact IH]. cbn [fst snd]. unfold bytes_ok in B. destruct C as [(N & _)|C].
      - induction N; cbn [map]; constructor; [cbn; intros k Q; congruence|assumption].
      - clear -C B. revert C B. generalize (colors (snd p)). induction es as [|e es IH]; intros [|k cs] C B; try discriminate; constructor; cbn in C; injection C as C1 C2.
        + cbn. intros k' Q. inversion B; subst. congruence.
        + eapply IH; [exact C2|inversion B; assumption]. }
    revert E X. generalize (flat_map (fun q => map (fun e => (transform_from (fst (fst q)) (fst e), snd e)) (snd q)) (combine l ls)). intros es (_ & [(_ & ->)|C]) X; [constructor|].
    revert C X. generalize (colors c). induction es as [|e es IH]; intros [|k cs] C X; try discriminate; constructor; cbn in C; injection C as C1 C2; inversion X; subst; auto. }
  rewrite (from_ok debug c _ T E B). f_equal. eapply entries_eq; [exact D|].
  assert (EM := entries_move (transform_from T) c _ E). match goal with H : entries ?x ?a |- entries ?x ?b => replace b with a; [exact H|] end.
  clear -F. induction F as [|p es l ls _ F IH]; cbn [map combine flat_map]; [reflexivity|]. unfold entry in *. rewrite map_app. f_equal; [|exact IH]. cbn [fst snd]. rewrite map_map. apply map_ext. intros [q k]. unfold moved_entry. cbn [fst snd]. f_equal. symmetry. apply transform_from_compose.
Qed.

Lemma sum_from : forall cl ls, Forall2 entries cl ls -> forall a la, entries a la ->
  (Forall (fun e => snd e = None) la /\ Forall (Forall (fun e => snd e = None)) ls \/ (la <> [] /\ Forall (fun e => snd e <> None) la) /\ Forall (fun l => l <> [] /\ Forall (fun e => snd e <> None) l) ls) ->
  exists c, foldM (fun acc c => add acc (Obj c)) (Obj a) cl = Ok (Obj c) /\ entries c (la ++ concat ls).
Proof.
  intros cl ls F. induction F as [|c l cl ls E F IH]; intros a la EA H; [exists a; rewrite app_nil_r; split; [reflexivity|exact EA]|]. cbn [foldM]. change (add (Obj a) (Obj c)) with (let* r := merge a c in Ok (Obj r)).
    assert (U : uniform_colors (la ++ l)). { destruct H as [(A & B)|((_ & A) & B)]; inversion B; subst; [left|right]; apply Forall_app; split; try assumption. apply H1. }
    rewrite merge_ok.
    - cbn [bind]. destruct (IH (append a c) (la ++ l) (append_entries a c la l EA E U)) as (r & R & ER); [|exists r; rewrite <- app_assoc in ER; split; [exact R|exact ER]].
      destruct H as [(A & B)|((A0 & A) & B)]; inversion B; subst; [left; split; [apply Forall_app; split; assumption|assumption]|right; split; [|assumption]]. split; [destruct la; [congruence|discriminate]|]. apply Forall_app. split; [assumption|apply H1].
    - intro C. destruct (entries_colored a la EA C) as (N & M). destruct (colored c) eqn:CC; [reflexivity|]. destruct (entries_uncolored c l E CC) as (Z & _). exfalso. destruct H as [(A & B)|((A0 & A) & B)].
      + destruct (none_nil _ _ A M) as (? & _). contradiction.
      + apply Forall_inv in B. destruct B as (X & Y). destruct l; [apply X; reflexivity|]. inversion Z; inversion Y; subst. contradiction. 
Qed.
(** sum joins clouds that are all colored or all without colors; the sum of no clouds is
    the number 0. *)
Theorem C71_sum : forall cl ls, Forall2 entries cl ls -> cl <> [] ->
  (Forall (Forall (fun e => snd e = None)) ls \/ Forall (fun l => l <> [] /\ Forall (fun e => snd e <> None) l) ls) ->
  exists c, sum cl = Ok (Obj c) /\ entries c (concat ls).
Proof.
  intros cl ls F NE H.
  destruct F as [|c l cl ls E F]; [congruence|]. unfold sum. cbn [foldM add bind concat]. 
  apply sum_from; [exact F|exact E|]. destruct H as [H|H]; inversion H; subst; [left|right]; split; assumption.
Qed.
Theorem C71_sum_empty : sum [] = Ok (Int 0).
Proof. reflexivity. Qed.

(** With an empty cloud among colored ones, sum fails unless it comes first, although
    register accepts them in any order. *)
Theorem C71_sum_refuted : exists a, coherent a /\ bytes_ok a /\ sum [a; empty_cloud] = Err ValueError /\ sum [empty_cloud; a] = Ok (Obj a) /\
  forall debug, exists c, register debug [(pose_id, a); (pose_id, empty_cloud)] = Ok c /\ colors c = colors a.
Proof.
  exists (Cloud [V 1 2 3] [Color 9 8 7]). split; [exists [(V 1 2 3, Some (Color 9 8 7))]; split; [reflexivity|right; reflexivity]|]. split; [repeat constructor; unfold byte; cbn; lia|].
  split; [reflexivity|]. split; [reflexivity|]. intro debug. destruct debug; eexists; split; reflexivity.
Qed.

(** register mixes colored and uncolored clouds silently unless assertions are on. *)
Theorem C71_register_refuted : exists a b, coherent a /\ coherent b /\ bytes_ok b /\
  register true [(pose_id, a); (pose_id, b)] = Err Terminate /\
  exists c, register false [(pose_id, a); (pose_id, b)] = Ok c /\ ~ coherent c.
Proof.
  exists (Cloud [V 1 2 3] []), (Cloud [V 4 5 6] [Color 9 8 7]). split; [exists [(V 1 2 3, None)]; split; [reflexivity|left; split; [repeat constructor|reflexivity]]|].
  split; [exists [(V 4 5 6, Some (Color 9 8 7))]; split; [reflexivity|right; reflexivity]|]. split; [repeat constructor; unfold byte; cbn; lia|]. split; [reflexivity|].
  eexists. split; [reflexivity|]. intros (l & E). assert (L := entries_lengths _ _ E eq_refl). discriminate L.
Qed.

Lemma list_ext : forall A (x y : list A), (forall i, nth_error x i = nth_error y i) -> x = y.
Proof.
  intros A x. induction x as [|a x IH]; intros [|b y] H; [reflexivity|specialize (H 0%nat); discriminate H|specialize (H 0%nat); discriminate H|].
  assert (H0 := H 0%nat). cbn in H0. injection H0 as ->. f_equal. apply IH. intro i. exact (H (S i)).
Qed.

(** * C72: thinning *)

(** Entry i of the result is the entry drawn; so points keep their colors. *)
Theorem C72_thin : forall debug draws c l k, entries c l -> bytes_ok c -> l <> [] -> below draws (List.length l) -> (0 <= k)%Z ->
  exists c' l', thin debug draws c k = Ok c' /\ entries c' l' /\ Z.of_nat (List.length l') = k /\
    forall i, (i < List.length l')%nat -> nth_error l' i = nth_error l (draws i).
Proof.
  intros debug draws c l k E B NE D K. unfold thin. unfold entry in *.
  assert (LP : List.length (points c) = List.length l) by (destruct E as (-> & _); apply map_length).
  unfold num_points. rewrite LP. rewrite (proj2 (Nat.eqb_neq _ _)) by (destruct l; [congruence|discriminate]). rewrite (proj2 (Z.ltb_ge _ _)) by lia. cbn [orb].
  set (n := Z.to_nat k).
  assert (SEL : forall A (x : list A), List.length x = List.length l -> exists y, mapM (select x) (map draws (seq 0 n)) = Ok y /\ List.length y = n /\ forall i, (i < n)%nat -> nth_error y i = nth_error x (draws i)).
  { intros A x L. assert (G : forall s, exists y, mapM (select x) (map draws (seq s n)) = Ok y /\ List.length y = n /\ forall i, (i < n)%nat -> nth_error y i = nth_error x (draws (s + i)%nat)).
    { clearbody n. induction n as [|n IH]; intro s; [exists []; repeat split; intros; lia|]. cbn [seq map mapM]. assert (X : (draws s < List.length x)%nat) by (rewrite L; apply D). apply nth_error_Some in X. unfold select at 1.
      destruct (nth_error x (draws s)) as [v|] eqn:N; [|congruence]. cbn [bind]. destruct (IH (S s)) as (y & -> & LY & Y). cbn [bind]. exists (v :: y). split; [reflexivity|]. split; [cbn; lia|].
      intros [|i] I; cbn [nth_error]; [rewrite Nat.add_0_r, N; reflexivity|]. rewrite Y by lia. f_equal. f_equal. lia. }
    exact (G 0%nat). }
  destruct (SEL _ (points c) LP) as (ps & -> & LPS & PS). cbn [bind].
  assert (ML : exists l', List.length l' = n /\ forall i, (i < n)%nat -> nth_error l' i = nth_error l (draws i)) by (destruct (SEL _ l eq_refl) as (l' & _ & A & C); eauto).
  destruct ML as (l' & LL & NL).
  assert (EXT : forall A (x y : list A), List.length x = n -> List.length y = n -> (forall i, (i < n)%nat -> nth_error x i = nth_error y i) -> x = y).
  { intros A x y Lx Ly H. apply list_ext. intro i. destruct (lt_dec i n) as [I|I]; [apply H, I|]. rewrite !(proj2 (nth_error_None _ _)) by lia. reflexivity. }
  assert (P' : ps = map fst l').
  { apply EXT; [exact LPS|rewrite map_length; exact LL|]. intros i I. rewrite PS, nth_error_map, NL by exact I. destruct E as (-> & _). apply nth_error_map. }
  destruct (colored c) eqn:C.
  - destruct (entries_colored c l E C) as (_ & M). assert (LC : List.length (colors c) = List.length l) by (rewrite <- (map_length Some), <- M, map_length; reflexivity).
    destruct (SEL _ (colors c) LC) as (cs & -> & LCS & CS). cbn [bind]. rewrite init_colored.
    + exists (Cloud ps cs), l'. split; [reflexivity|]. split; [split; [exact P'|right; cbn [colors]]|].
      * apply EXT; [rewrite map_length; exact LL|rewrite map_length; exact LCS|]. intros i I. rewrite !nth_error_map, NL, CS by exact I. transitivity (nth_error (map snd l) (draws i)); [symmetry; apply nth_error_map|]. rewrite M. apply nth_error_map.
      * split; [rewrite LL; unfold n; lia|]. intros i I. apply NL. lia.
    + congruence.
    + apply Forall_forall. intros q I. apply In_nth_error in I. destruct I as (i & I). assert (X : (i < n)%nat) by (rewrite <- LCS; apply nth_error_Some; congruence). rewrite CS in I by exact X. apply nth_error_In in I. unfold bytes_ok in B. rewrite Forall_forall in B. apply B, I.
  - rewrite init_uncolored. destruct (entries_uncolored c l E C) as (F & _). exists (Cloud ps []), l'. split; [reflexivity|]. split; [split; [exact P'|left; split; [|reflexivity]]|].
    + apply Forall_forall. intros q I. apply In_nth_error in I. destruct I as (i & I). assert (X : (i < n)%nat) by (rewrite <- LL; apply nth_error_Some; congruence). rewrite NL in I by exact X. apply nth_error_In in I. rewrite Forall_forall in F. apply F, I.
    + split; [rewrite LL; unfold n; lia|]. intros i I. apply NL. lia.
Qed.
Theorem C72_thin_errors : forall debug draws c k, (points c = [] \/ (k < 0)%Z) -> thin debug draws c k = Err ValueError.
Proof.
  intros debug draws c k H. unfold thin, num_points. destruct H as [-> |H]; [reflexivity|]. rewrite (proj2 (Z.ltb_lt _ _)) by exact H. rewrite orb_true_r. reflexivity.
Qed.

(** The draws are with replacement: keeping all points of a cloud can lose points and
    repeat others. *)
Theorem C72_thin_refuted : exists c draws, coherent c /\ NoDup (points c) /\ below draws (num_points c) /\
  forall debug, exists c', thin debug draws c (Z.of_nat (num_points c)) = Ok c' /\ ~ NoDup (points c') /\ exists p, In p (points c) /\ ~ In p (points c').
Proof.
  exists (Cloud [V 0 0 0; V 1 0 0] []), (fun _ => 0%nat). split; [exists [(V 0 0 0, None); (V 1 0 0, None)]; split; [reflexivity|left; split; [repeat constructor|reflexivity]]|].
  assert (D : V 0 0 0 <> V 1 0 0) by (intro H; injection H as H; lra).
  split; [constructor; [intros [H|[]]; congruence|constructor; [intros []|constructor]]|]. split; [intro k; cbn; lia|]. intro debug. exists (Cloud [V 0 0 0; V 0 0 0] []). split; [reflexivity|].
  split; [intro N; inversion N as [|? ? X _]; apply X; left; reflexivity|]. exists (V 1 0 0). split; [right; left; reflexivity|]. intros [H|[H|[]]]; congruence.
Qed.

(** * Non-vacuity *)
Example C46_example : forall T, exists c,
  (let* m := merge (Cloud [V 1 2 3] [Color 9 8 7]) (Cloud [V 4 5 6; V 7 8 9] [Color 1 2 3; Color 4 5 6]) in cloud_from true m T) = Ok c /\
  entries c [(transform_from T (V 1 2 3), Some (Color 9 8 7)); (transform_from T (V 4 5 6), Some (Color 1 2 3)); (transform_from T (V 7 8 9), Some (Color 4 5 6))].
Proof. intro T. eexists. split; [reflexivity|]. split; [reflexivity|right; reflexivity]. Qed.
Example C72_example : exists c', thin true (fun k => if Nat.eqb k 0 then 1%nat else 0%nat) (Cloud [V 1 2 3; V 4 5 6] [Color 9 8 7; Color 6 5 4]) 3 = Ok c' /\
  entries c' [(V 4 5 6, Some (Color 6 5 4)); (V 1 2 3, Some (Color 9 8 7)); (V 1 2 3, Some (Color 9 8 7))].
Proof. eexists. split; [reflexivity|]. split; [reflexivity|right; reflexivity]. Qed.

Print Assumptions C46_constructor.
Print Assumptions C46_constructor_errors.
Print Assumptions C46_merge.
Print Assumptions C46_merge_refuted.
Print Assumptions C46_merge_empty_refuted.
Print Assumptions C46_access.
Print Assumptions C71_transform.
Print Assumptions C71_transform_back.
Print Assumptions C71_register.
Print Assumptions C71_register_frame.
Print Assumptions C71_sum.
Print Assumptions C71_sum_empty.
Print Assumptions C71_sum_refuted.
Print Assumptions C71_register_refuted.
Print Assumptions C72_thin.
Print Assumptions C72_thin_errors.
Print Assumptions C72_thin_refuted.
