From Coq Require Import List Bool String Arith Lia.
From Verif.Base Require Import Py PyFacts.
From Verif.Scene Require Import Model.
From Verif.Alias Require Import Model Spec Proofs Proofs2.
Import ListNotations.
Local Open Scope list_scope.

(** Dictionary d belongs to group g; different groups have different dictionaries. *)
Definition ginv (s : scenes_state) (n : nat) (l : list group) : Prop := exists D : group -> nat,
  D None = 0%nat /\ scenes s = map D l /\ (forall g, In g (None :: l) -> (D g < List.length (dicts s))%nat) /\
  (forall g g', In g (None :: l) -> In g' (None :: l) -> D g = D g' -> g = g') /\ (forall m, In (Some m) l -> (m < n)%nat).

Lemma put_length : forall A (l : list A) i x, List.length (put l i x) = List.length l.
Proof. intros A l. induction l as [|y l IH]; intros [|i] x; cbn; auto. Qed.
Lemma put_nth : forall A (l : list A) i x j, nth_error (put l i x) j = if Nat.eqb j i then match nth_error l j with Some _ => Some x | None => None end else nth_error l j.
Proof.
  intros A l. induction l as [|y l IH]; intros [|i] x [|j]; cbn; try reflexivity; try (destruct (Nat.eqb j i); reflexivity). apply IH.
Qed.
Lemma var_ok_in : forall A (l : list A) i x, var l i = Ok x -> In x l.
Proof. unfold var. intros A l i x H. destruct (nth_error l i) eqn:E; [|discriminate]. injection H as <-. eapply nth_error_In, E. Qed.

Lemma ginv_initial : ginv scenes_initial 0 [].
Proof.
  exists (fun _ => 0%nat). cbn. repeat split; try reflexivity.
  - intros. lia.
  - intros g g' [<-|[]] [<-|[]] _. reflexivity.
  - intros m [].
Qed.

Lemma ginv_old : forall s n l d g D, D None = 0%nat /\ scenes s = map D l /\ (forall g, In g (None :: l) -> (D g < List.length (dicts s))%nat) /\
  (forall g g', In g (None :: l) -> In g' (None :: l) -> D g = D g' -> g = g') /\ (forall m, In (Some m) l -> (m < n)%nat) ->
  In g (None :: l) -> d = D g -> ginv (Scenes (dicts s) (scenes s ++ [d])) (S n) (l ++ [g]).
Proof.
  intros s n l d g D (D0 & D1 & D2 & D3 & D4) G ->. exists D. cbn [scenes dicts].
  assert (K : forall x, In x (None :: l ++ [g]) -> In x (None :: l)).
  { intros x [<-|Hx]; [left; reflexivity|]. apply in_app_or in Hx. destruct Hx as [Hx|[<-|[]]]; [right; exact Hx|exact G]. }
  repeat split.
  - exact D0.
  - rewrite map_app, D1. reflexivity.
  - intros x Hx. apply D2, K, Hx.
  - intros x y Hx Hy E. apply D3; auto.
  - intros m Hm. destruct (K (Some m)) as [E|E]; [right; exact Hm|discriminate|]. apply D4 in E. lia.
Qed.
Lemma ginv_new : forall s n l c, ginv s n l -> ginv (Scenes (dicts s ++ [c]) (scenes s ++ [List.length (dicts s)])) (S n) (l ++ [Some n]).
Proof.
  intros s n l c (D & D0 & D1 & D2 & D3 & D4).
  assert (Fr : ~ In (Some n) (None :: l)) by (intros [E|E]; [discriminate|apply D4 in E; lia]).
  set (D' := fun g => match g with Some m => if Nat.eqb m n then List.length (dicts s) else D g | None => D g end).
  assert (Old : forall g, In g (None :: l) -> D' g = D g).
  { intros [m|] Hm; [|reflexivity]. unfold D'. destruct (Nat.eqb_spec m n); [subst; contradiction|reflexivity]. }
  assert (New : D' (Some n) = List.length (dicts s)) by (unfold D'; rewrite Nat.eqb_refl; reflexivity).
  assert (K : forall x, In x (None :: l ++ [Some n]) -> In x (None :: l) \/ x = Some n).
  { intros x [<-|Hx]; [left; left; reflexivity|]. apply in_app_or in Hx. destruct Hx as [Hx|[<-|[]]]; [left; right; exact Hx|right; reflexivity]. }
  exists D'. cbn [scenes dicts]. rewrite app_length. cbn [List.length]. repeat split.
  - rewrite Old by (left; reflexivity). exact D0.
  - rewrite map_app, D1. cbn [map]. rewrite New. f_equal. apply map_ext_in. intros g Hg. symmetry. apply Old. right. exact Hg.
  - intros x Hx. destruct (K x Hx) as [Hx'| ->]; [rewrite Old by exact Hx'; apply D2 in Hx'; lia|rewrite New; lia].
  - intros x y Hx Hy E. destruct (K x Hx) as [Hx'| ->], (K y Hy) as [Hy'| ->].
    + rewrite !Old in E by assumption. apply D3; assumption.
    + rewrite New, Old in E by assumption. apply D2 in Hx'. lia.
    + rewrite New, Old in E by assumption. apply D2 in Hy'. lia.
    + reflexivity.
  - intros m Hm. destruct (K (Some m)) as [[E|E]|E]; [right; exact Hm|discriminate|apply D4 in E; lia|injection E as ->; lia].
Qed.

Lemma var_scene : forall s n l i d, ginv s n l -> var (scenes s) i = Ok d -> exists g, var l i = Ok g /\ In g l.
Proof.
  intros s n l i d (D & D0 & D1 & _) H. rewrite D1, var_map in H. destruct (var l i) as [g|] eqn:E; [|discriminate]. exists g. split; [reflexivity|eapply var_ok_in, E].
Qed.

Lemma gstep_ok : forall s n l o s', ginv s n l -> scene_step s o = Ok s' -> exists l', g_step (n, l) o = Ok (S n, l') /\ ginv s' (S n) l'.
Proof.
  intros s n l o s' I E. destruct o as [|d|i|i|i|i k v]; cbn [scene_step g_step] in *.
  - apply Ok_inj in E; subst s'. eexists. split; [reflexivity|]. destruct I as (D & I). eapply ginv_old; [exact I|left; reflexivity|symmetry; apply I].
  - apply Ok_inj in E; subst s'. eexists. split; [reflexivity|]. apply ginv_new, I.
  - destruct (var (scenes s) i) as [d|] eqn:X; cbn [bind] in E; [|discriminate]. apply Ok_inj in E; subst s'.
    destruct (var_scene _ _ _ _ _ I X) as (g & G & Hg). rewrite G. cbn [bind]. eexists. split; [reflexivity|]. destruct I as (D & I).
    eapply ginv_old; [exact I|right; exact Hg|]. destruct I as (_ & D1 & _). rewrite D1, var_map, G in X. cbn in X. congruence.
  - destruct (var (scenes s) i) as [d|] eqn:X; cbn [bind] in E; [|discriminate]. apply Ok_inj in E; subst s'.
    destruct (var_scene _ _ _ _ _ I X) as (g & G & Hg). rewrite G. cbn [bind]. eexists. split; [reflexivity|]. destruct I as (D & I).
    eapply ginv_old; [exact I|left; reflexivity|symmetry; apply I].
  - destruct (var (scenes s) i) as [d|] eqn:X; cbn [bind] in E; [|discriminate]. destruct (var (dicts s) d) as [c|] eqn:Y; cbn [bind] in E; [|discriminate]. apply Ok_inj in E; subst s'.
    destruct (var_scene _ _ _ _ _ I X) as (g & G & Hg). rewrite G. cbn [bind]. eexists. split; [reflexivity|]. apply ginv_new, I.
  - destruct (var (scenes s) i) as [d|] eqn:X; cbn [bind] in E; [|discriminate]. destruct (var (dicts s) d) as [c|] eqn:Y; cbn [bind] in E; [|discriminate]. apply Ok_inj in E; subst s'.
    destruct (var_scene _ _ _ _ _ I X) as (g & G & Hg). rewrite G. cbn [bind]. eexists. split; [reflexivity|]. destruct I as (D & D0 & D1 & D2 & D3 & D4).
    exists D. cbn [scenes dicts]. rewrite put_length. repeat split; try assumption. intros m Hm. apply D4 in Hm. lia.
Qed.
Lemma grun_ok : forall ops s n l s', ginv s n l -> foldM scene_step s ops = Ok s' -> exists n' l', foldM g_step (n, l) ops = Ok (n', l') /\ ginv s' n' l'.
Proof.
  induction ops as [|o ops IH]; intros s n l s' I E; cbn [foldM] in *.
  - injection E as <-. exists n, l. tauto.
  - destruct (scene_step s o) as [s1|] eqn:E1; cbn [bind] in E; [|discriminate]. destruct (gstep_ok s n l o s1 I E1) as (l1 & -> & I1). cbn [bind]. eapply IH; eassumption.
Qed.
Lemma srun_ok : forall ops s, scene_run ops = Ok s -> exists n l, foldM g_step (0%nat, []) ops = Ok (n, l) /\ ginv s n l.
Proof. intros ops s H. eapply grun_ok; [apply ginv_initial|exact H]. Qed.

Lemma settings_of_ok : forall ops i c, settings_of ops i = Ok c -> exists s d, scene_run ops = Ok s /\ var (scenes s) i = Ok d /\ var (dicts s) d = Ok c.
Proof.
  unfold settings_of, scene_settings. intros ops i c H. destruct (scene_run ops) as [s|]; cbn [bind] in H; [|discriminate]. destruct (var (scenes s) i) as [d|] eqn:E; cbn [bind] in H; [|discriminate].
  exists s, d. tauto.
Qed.
Lemma var_app_old : forall A (l l' : list A) i x, var l i = Ok x -> var (l ++ l') i = Ok x.
Proof. unfold var. intros A l l' i x H. destruct (nth_error l i) eqn:E; [|discriminate]. rewrite nth_error_app1; [rewrite E; exact H|]. apply nth_error_Some. congruence. Qed.
Lemma var_app_new : forall A (l : list A) x, var (l ++ [x]) (List.length l) = Ok x.
Proof. unfold var. intros A l x. rewrite nth_error_app2 by lia. rewrite Nat.sub_diag. reflexivity. Qed.

Lemma set_visible : forall ops i j k v old, settings_of ops j = Ok old -> (exists c, settings_of ops i = Ok c) ->
  exists new, settings_of (ops ++ [Set_ i k v]) j = Ok new /\
    (group_of ops i = group_of ops j -> new = sset k v old) /\ (group_of ops i <> group_of ops j -> new = old).
Proof.
  intros ops i j k v old H (c & H').
  destruct (settings_of_ok _ _ _ H) as (s & d & E & E1 & E2). destruct (settings_of_ok _ _ _ H') as (s1 & d' & E' & E1' & E2').
  assert (s1 = s) by congruence. subst s1. destruct (srun_ok _ _ E) as (n & l & G & I).
  destruct (var_scene _ _ _ _ _ I E1) as (g & V & Hg). destruct (var_scene _ _ _ _ _ I E1') as (g' & V' & Hg').
  assert (R : scene_run (ops ++ [Set_ i k v]) = Ok (Scenes (put (dicts s) d' (sset k v c)) (scenes s))).
  { unfold scene_run in *. rewrite run_app, E. cbn [bind foldM scene_step]. rewrite E1'. cbn [bind]. rewrite E2'. reflexivity. }
  unfold group_of. rewrite G. cbn [bind snd]. rewrite V, V'.
  unfold settings_of. rewrite R. cbn [bind]. unfold scene_settings; cbn [scenes dicts]. rewrite E1. cbn [bind]. unfold var at 1. rewrite put_nth.
  destruct I as (D & D0 & D1 & D2 & D3 & D4).
  assert (Ed : d = D g) by (rewrite D1, var_map, V in E1; cbn in E1; congruence). assert (Ed' : d' = D g') by (rewrite D1, var_map, V' in E1'; cbn in E1'; congruence).
  unfold var in E2. destruct (nth_error (dicts s) d) as [x|] eqn:X; [|discriminate]. injection E2 as ->.
  destruct (Nat.eqb_spec d d') as [Q|Q].
  - exists (sset k v c). split; [reflexivity|]. assert (c = old) by (subst d'; rewrite <- Q in E2'; unfold var in E2'; rewrite X in E2'; congruence). subst c.
    split; [reflexivity|]. intro N. exfalso. apply N. f_equal. apply D3; [right; assumption|right; assumption|congruence].
  - exists old. split; [reflexivity|]. split; [|reflexivity]. intro N. exfalso. apply Q. congruence.
Qed.

(** Dictionary 0 stays the default one. *)
Lemma kept_default : forall ops s, scene_run ops = Ok s -> spares_settings ops -> var (dicts s) 0 = Ok default_settings.
Proof.
  induction ops as [|o ops IH] using rev_ind; intros s E W.
  - injection E as <-. reflexivity.
  - unfold scene_run in E. rewrite run_app in E. destruct (foldM scene_step scenes_initial ops) as [s1|] eqn:E1; cbn [bind] in E; [|discriminate].
    assert (K : var (dicts s1) 0 = Ok default_settings).
    { apply IH; [exact E1|]. intros before i k v after Eo. apply (W before i k v (after ++ [o])). rewrite Eo, <- app_assoc. reflexivity. }
    cbn [foldM bind] in E. destruct (scene_step s1 o) as [s2|] eqn:E2; cbn [bind] in E; [|discriminate]. apply Ok_inj in E; subst s2.
    destruct (srun_ok ops s1 E1) as (n & l & G & I).
    destruct o as [|d|i|i|i|i k v]; cbn [scene_step] in E2;
      repeat match type of E2 with context [var ?x ?y] => let X := fresh "X" in destruct (var x y) eqn:X; cbn [bind] in E2; [|discriminate] end;
      apply Ok_inj in E2; subst s; cbn [dicts]; try exact K; try (apply var_app_old, K).
    match type of X with _ = Ok ?q => rename q into n0 end. unfold var. rewrite put_nth. destruct (Nat.eqb_spec 0 n0) as [Q|Q].
    + exfalso. apply (W ops i k v []); [reflexivity|]. unfold group_of. rewrite G. cbn [bind snd]. destruct (var_scene _ _ _ _ _ I X) as (g & V & Hg). rewrite V. f_equal.
      destruct I as (D & D0 & D1 & D2 & D3 & D4). apply D3; [right; exact Hg|left; reflexivity|]. rewrite D1, var_map, V in X. cbn in X. congruence.
    + exact K.
Qed.
