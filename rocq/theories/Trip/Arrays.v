(** The accessors of normals, texture coordinates and indices. *)
From Coq Require Import List Bool ZArith QArith Ascii String Lia Lqa.
From Verif.Base Require Import Py.
From Verif.Mesh Require Model.
From Verif.Gltf Require Model Spec Proofs.
From Verif.Doc Require Import Model Facts.
From Verif.Trip Require Import Model Spec Floats Building Adding Bounds.
Import ListNotations.
Local Open Scope Z_scope.

Lemma vec2_extremes : forall l, l <> [] -> Forall (fun v => Forall moderate (coordinates2 v)) l ->
  exists lo hi, vec2_bounds l = Some (lo, hi) /\ List.length lo = 2%nat /\ List.length hi = 2%nat /\ forall k, (k < 2)%nat -> extremes (column2 k l) (nth k lo 0%Q) (nth k hi 0%Q).
Proof.
  intros l N M.
  assert (C : forall k, (k < 2)%nat -> exists lo hi, lowest (column2 k l) = Finite lo /\ highest (column2 k l) = Finite hi /\ extremes (column2 k l) lo hi).
  { intros k K. apply column_extremes; [destruct l; [contradiction|discriminate]|]. unfold column2. apply Forall_map. eapply Forall_impl; [|exact M]. intros [x y] F. cbn [coordinates2] in F |- *.
    rewrite !Forall_cons_iff in F. destruct F as (X & Y & _). destruct k as [|[|k]]; [exact X|exact Y|lia]. }
  destruct (C 0%nat ltac:(lia)) as (l0 & h0 & A0 & B0 & E0). destruct (C 1%nat ltac:(lia)) as (l1 & h1 & A1 & B1 & E1).
  assert (K0 : map (fun v : vec2 => fst v) l = column2 0 l) by (apply map_ext; intros [? ?]; reflexivity).
  assert (K1 : map (fun v : vec2 => snd v) l = column2 1 l) by (apply map_ext; intros [? ?]; reflexivity).
  exists [l0; l1], [h0; h1]. split; [|split; [reflexivity|split; [reflexivity|]]].
  - unfold vec2_bounds, columns_bounds. rewrite K0, K1. cbn [map]. rewrite A0, A1, B0, B1. reflexivity.
  - intros [|[|k]] K; [exact E0|exact E1|lia].
Qed.

Lemma min_run : forall l a, let lo := fold_left Z.min l a in lo <= a /\ (forall i, In i l -> lo <= i) /\ (lo = a \/ In lo l).
Proof.
  induction l as [|x l IH]; intros a; [cbn; split; [lia|]; split; [intros i []|left; reflexivity]|]. cbn [fold_left]. destruct (IH (Z.min a x)) as (L & A & O). cbv zeta. split; [lia|]. split.
  - intros i [->|I]; [lia|apply A, I].
  - destruct O as [O|O]; [|right; right; exact O]. destruct (Z.min_spec a x) as [[_ E]|[_ E]]; [left; congruence|right; left; congruence].
Qed.
Lemma max_run : forall l a, let hi := fold_left Z.max l a in a <= hi /\ (forall i, In i l -> i <= hi) /\ (hi = a \/ In hi l).
Proof.
  induction l as [|x l IH]; intros a; [cbn; split; [lia|]; split; [intros i []|left; reflexivity]|]. cbn [fold_left]. destruct (IH (Z.max a x)) as (L & A & O). cbv zeta. split; [lia|]. split.
  - intros i [->|I]; [lia|apply A, I].
  - destruct O as [O|O]; [|right; right; exact O]. destruct (Z.max_spec a x) as [[_ E]|[_ E]]; [right; left; congruence|left; congruence].
Qed.
Lemma index_extremes : forall l : list Z, l <> [] -> Forall (fun i => 0 <= i < 2 ^ 31) l -> exists lo hi, uint_bounds l = Some ([inject_Z lo], [inject_Z hi]) /\ range l lo hi.
Proof.
  intros l N F. destruct (min_run l 2147483647) as (L1 & A1 & O1). destruct (max_run l 0) as (L2 & A2 & O2). exists (fold_left Z.min l 2147483647), (fold_left Z.max l 0). split; [reflexivity|].
  destruct l as [|x l]; [contradiction|]. assert (X := A1 x (or_introl eq_refl)). assert (Y := A2 x (or_introl eq_refl)). inversion F as [|? ? R _]; subst. change (2 ^ 31) with 2147483648 in R. split; [|split].
  - destruct O1 as [O1|O1]; [|exact O1]. left. rewrite O1 in *. lia.
  - destruct O2 as [O2|O2]; [|exact O2]. left. rewrite O2 in *. lia.
  - intros i I. split; [apply A1, I|apply A2, I].
Qed.

(** The indices of the mesh that was added last. *)
Definition indexed (g : model) (ac : accessor) : Prop :=
  exists ms e p, meshes g = ms ++ [e] /\ me_primitives e = [p] /\ at_ (accessors g) (pr_indices p) = Ok ac.
Lemma prim_arrays : forall g t g', addPrimitiveMesh g t = Ok g' -> exists ai an li hi ln hn ms mt i nn pp,
  uint_bounds (Mesh.Model.indices (geo t)) = Some (li, hi) /\ ac_min ai = li /\ ac_max ai = hi /\ ac_count ai = len (Mesh.Model.indices (geo t)) /\
  vec3_bounds (Mesh.Model.normals (geo t)) = Some (ln, hn) /\ ac_min an = ln /\ ac_max an = hn /\ ac_count an = len (Mesh.Model.normals (geo t)) /\
  meshes g' = ms ++ [Mesh "" [Primitive [("NORMAL"%string, nn); ("POSITION"%string, pp)] mt i 4 [] VNull] [] [] [] VNull] /\
  at_ (accessors g') i = Ok ai /\ at_ (accessors g') nn = Ok an.
Proof.
  intros g t g' E. unfold addPrimitiveMesh in E. step E p E0. destruct p as [g1 i]. step E p E1. destruct p as [g2 v]. step E p E2. destruct p as [g3 n]. injection E as <-.
  apply push_get in E0. destruct E0 as (-> & _ & a0 & l0 & h0 & X0 & B0 & L0 & H0 & C0). apply push_get in E1. destruct E1 as (-> & _ & a1 & lo & hi & X1 & B1 & L1 & H1 & C1).
  apply push_get in E2. destruct E2 as (-> & _ & a2 & l2 & h2 & X2 & B2 & L2 & H2 & C2).
  exists a0, a2, l0, h0, l2, h2. do 5 eexists. split; [exact B0|]. split; [exact L0|]. split; [exact H0|]. split; [exact C0|]. split; [exact B2|]. split; [exact L2|]. split; [exact H2|]. split; [exact C2|]. fields. split; [reflexivity|]. split.
  - rewrite X2. apply at_more. rewrite X1. apply at_more. rewrite X0. apply at_inside.
  - rewrite X2. apply at_inside.
Qed.
Lemma add_arrays : forall g t g', add_mesh g t = Ok g' -> exists ai an li hi ln hn,
  indexed g' ai /\ uint_bounds (Mesh.Model.indices (geo t)) = Some (li, hi) /\ ac_min ai = li /\ ac_max ai = hi /\ ac_count ai = len (Mesh.Model.indices (geo t)) /\
  described g' "NORMAL" an /\ vec3_bounds (Mesh.Model.normals (geo t)) = Some (ln, hn) /\ ac_min an = ln /\ ac_max an = hn /\ ac_count an = len (Mesh.Model.normals (geo t)) /\
  forall uv color rough, tex t = Some (uv, color, rough) -> exists au lu hu, described g' "TEXCOORD_0" au /\ vec2_bounds uv = Some (lu, hu) /\ ac_min au = lu /\ ac_max au = hu /\ ac_count au = len uv.
Proof.
  intros g t g' E. unfold add_mesh in E. destruct (tex t) as [[[uv color] rough]|].
  - unfold addTexturedPrimitiveMesh in E. step E g1 E1. apply prim_arrays in E1. destruct E1 as (ai & an & li & hi & ln & hn & ms & mt & i & nn & pp & BI & LI & HI & CI & BN & LN & HN & CN & M & AI & AN).
    step E p E2. destruct p as [g2 u]. apply push_get in E2. destruct E2 as (-> & M2 & a2 & lu & hu & X2 & BU & LU & HU & CU). rewrite M2, M, last_last in E. cbn [me_primitives bind pr_attributes] in E. rewrite removelast_last in E.
    step E q E3. destruct q as [g3 m3]. apply map_described in E3. step E q E4. destruct q as [g4 m4]. apply map_described in E4. injection E as <-. destruct E3 as [A3 M3], E4 as [A4 M4]. revert A3 M3 A4 M4. fields. intros A3 M3 A4 M4.
    exists ai, an, li, hi, ln, hn. split; [|repeat (split; [assumption|])].
    { unfold indexed. fields. rewrite M4, M3, A4, A3, X2. cbn [removelast app me_name me_weights me_targets me_extensions me_extras pr_material pr_indices pr_mode pr_targets pr_extras].
      do 3 eexists. split; [reflexivity|]. split; [reflexivity|]. apply at_more, AI. }
    split; [|repeat (split; [assumption|])].
    { unfold described. fields. rewrite M4, M3, A4, A3, X2. cbn [removelast app me_name me_weights me_targets me_extensions me_extras pr_material pr_indices pr_mode pr_targets pr_extras].
      do 4 eexists. split; [reflexivity|]. split; [reflexivity|]. split; [reflexivity|]. apply at_more, AN. }
    intros uv' color' rough' T. injection T as <- <- <-. exists a2, lu, hu. split; [|repeat split; assumption].
    unfold described. fields. rewrite M4, M3, A4, A3, X2. cbn [removelast app me_name me_weights me_targets me_extensions me_extras pr_material pr_indices pr_mode pr_targets pr_extras].
    do 4 eexists. split; [reflexivity|]. split; [reflexivity|]. split; [reflexivity|]. apply at_inside.
  - apply prim_arrays in E. destruct E as (ai & an & li & hi & ln & hn & ms & mt & i & nn & pp & BI & LI & HI & CI & BN & LN & HN & CN & M & AI & AN).
    exists ai, an, li, hi, ln, hn. split; [|repeat (split; [assumption|])]; [do 3 eexists; split; [exact M|]; split; [reflexivity|exact AI]|]. split; [|repeat (split; [assumption|]); discriminate].
    do 4 eexists. split; [exact M|]. split; [reflexivity|]. split; [reflexivity|]. exact AN.
Qed.
