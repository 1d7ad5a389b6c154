(** The bounds of accessors. *)
From Coq Require Import List Bool ZArith QArith Qabs Ascii String Lia.
From Verif.Base Require Import Py.
From Verif.Mesh Require Model.
From Verif.Gltf Require Model Spec.
From Verif.Round Require Import Spec.
From Verif.Round Require Rounding.
From Verif.Text Require Import Spec.
From Verif.Text Require Props.
From Verif.Trip Require Import Model Spec.
Import ListNotations.
Local Open Scope Z_scope.

Lemma finite15_small : forall q, double q -> (Qabs q < 2 ^ 1000)%Q -> finite15 q.
Proof.
  intros q D L. split; [exact D|]. split; [eapply Qlt_trans; [exact L|reflexivity]|]. apply Text.Props.C98_range. eapply Qlt_trans; [exact L|vm_compute; reflexivity].
Qed.
Lemma finite15_int : forall z, Z.abs z < 2 ^ 53 -> finite15 (inject_Z z).
Proof.
  intros z Z. apply finite15_small; [exists z, 0; split; [exact Z|]; split; [lia|]; rewrite Qmult_1_r; reflexivity|].
  unfold Qlt, Qabs. cbn [inject_Z Qnum Qden]. change (Qden (2 ^ 1000)) with 1%positive. change (Qnum (2 ^ 1000)) with (2 ^ 1000). rewrite !Z.mul_1_r.
  eapply Z.lt_trans; [exact Z|]. apply Z.pow_lt_mono_r; lia.
Qed.

(** A float that is finite. *)
Definition fine (q : Q) : Prop := double q /\ (Qabs q < 2 ^ 1000)%Q.
Lemma pow_small : forall e, -149 <= e <= 104 -> (2 ^ e <= 2 ^ 104)%Q.
Proof. intros e E. apply (Rounding.two_le e 104). lia. Qed.
Lemma float_fine : forall w, Gltf.Spec.is_word w -> not_infinite w -> float_of w = NotANumber \/ exists q, float_of w = Finite q /\ fine q.
Proof.
  intros w W [N1 N2]. unfold Gltf.Spec.is_word in W. unfold float_of. set (e := w / 8388608 mod 256). set (f := w mod 8388608).
  assert (F : 0 <= f < 8388608) by (apply Z.mod_pos_bound; lia). assert (E : 0 <= e < 256) by (apply Z.mod_pos_bound; lia).
  destruct (Z.eqb_spec e 255) as [E1|E1].
  - destruct (Z.eqb_spec f 0) as [F0|F0]; [exfalso|left; reflexivity].
    assert (D := Z.div_mod w 8388608 ltac:(lia)). fold f in D. assert (D2 := Z.div_mod (w / 8388608) 256 ltac:(lia)). fold e in D2.
    assert (Q : 0 <= w / 8388608 / 256 < 2). { split; [apply Z.div_pos; [apply Z.div_pos; lia|lia]|]. rewrite Z.div_div by lia. apply Z.div_lt_upper_bound; lia. }
    assert (w / 8388608 / 256 = 0 \/ w / 8388608 / 256 = 1) as [X|X] by lia; rewrite X in D2; [apply N1|apply N2]; lia.
  - right. eexists. split; [reflexivity|]. set (m := if e =? 0 then f else f + 8388608). set (n := if 2147483648 <=? w then - m else m).
    assert (M : Z.abs n < 16777216). { assert (0 <= m < 16777216) by (unfold m; destruct (e =? 0); lia). unfold n. destruct (2147483648 <=? w); lia. }
    split.
    + exists n, (Z.max e 1 - 150). split; [lia|]. split; [lia|]. apply Qred_correct.
    + rewrite Qred_correct. rewrite Qabs_Qmult. assert (P : (0 <= 2 ^ (Z.max e 1 - 150))%Q) by (apply Qlt_le_weak, (Rounding.two_pos (Z.max e 1 - 150))).
      rewrite (Qabs_pos (2 ^ _) P). apply Qle_lt_trans with (inject_Z 16777216 * 2 ^ 104)%Q; [|reflexivity].
      apply Qle_trans with (inject_Z 16777216 * 2 ^ (Z.max e 1 - 150))%Q.
      * apply Qmult_le_compat_r; [|exact P]. unfold Qle, Qabs, inject_Z. cbn. lia.
      * rewrite (Qmult_comm _ (2 ^ (Z.max e 1 - 150))), (Qmult_comm _ (2 ^ 104)). apply Qmult_le_compat_r; [|discriminate]. apply pow_small. lia.
Qed.
Lemma start_fine : fine 2147483648 /\ fine (-2147483648).
Proof. split; (split; [|reflexivity]); [exists 1, 31|exists (-1), 31]; (split; [lia|]; split; [lia|reflexivity]). Qed.
Lemma fold_fine : forall (better : float -> float -> bool) l q, Forall (fun w => Gltf.Spec.is_word w /\ not_infinite w) l -> fine q ->
  (forall x, better NotANumber x = false) ->
  exists q', fold_left (fun a w => if better (float_of w) a then float_of w else a) l (Finite q) = Finite q' /\ fine q'.
Proof.
  intros better l q F. revert q. induction F as [|w l [W N] F IH]; intros q Q B; [exists q; split; [reflexivity|exact Q]|]. cbn [fold_left].
  destruct (better (float_of w) (Finite q)) eqn:E; [|apply IH; assumption].
  destruct (float_fine w W N) as [X|(q' & X & Q')]; rewrite X in *; [rewrite B in E; discriminate|]. apply IH; assumption.
Qed.
Lemma lowest_fine : forall l, Forall (fun w => Gltf.Spec.is_word w /\ not_infinite w) l -> exists q, lowest l = Finite q /\ fine q.
Proof. intros l F. unfold lowest. apply (fold_fine (fun w a => less w a)); [exact F|apply start_fine|reflexivity]. Qed.
Lemma highest_fine : forall l, Forall (fun w => Gltf.Spec.is_word w /\ not_infinite w) l -> exists q, highest l = Finite q /\ fine q.
Proof. intros l F. unfold highest. apply (fold_fine (fun w a => less a w)); [exact F|apply start_fine|]. intros []; reflexivity. Qed.
Lemma columns_fine : forall cs : list (list word), Forall (Forall (fun w => Gltf.Spec.is_word w /\ not_infinite w)) cs ->
  exists lo hi, columns_bounds cs = Some (lo, hi) /\ Forall2 (fun c q => lowest c = Finite q) cs lo /\ Forall2 (fun c q => highest c = Finite q) cs hi /\ Forall finite15 (lo ++ hi).
Proof.
  intros cs F. unfold columns_bounds.
  assert (X : forall g : list word -> float, (forall l, Forall (fun w => Gltf.Spec.is_word w /\ not_infinite w) l -> exists q, g l = Finite q /\ fine q) ->
    exists qs, finite (map g cs) = Some qs /\ Forall2 (fun c q => g c = Finite q) cs qs /\ Forall finite15 qs).
  { intros g G. induction F as [|c cs C F IH]; [exists []; repeat constructor|]. destruct IH as (qs & E & R & T). destruct (G c C) as (q & EQ & Q1 & Q2).
    exists (q :: qs). cbn [map finite]. rewrite EQ, E. split; [reflexivity|]. split; [constructor; assumption|]. constructor; [apply finite15_small; assumption|exact T]. }
  destruct (X lowest lowest_fine) as (lo & E1 & R1 & T1). destruct (X highest highest_fine) as (hi & E2 & R2 & T2). exists lo, hi. rewrite E1, E2.
  split; [reflexivity|]. split; [exact R1|]. split; [exact R2|]. apply Forall_app. split; assumption.
Qed.
Lemma vec3_fine : forall l, Forall vec3_ok l -> exists lo hi, vec3_bounds l = Some (lo, hi) /\ Forall finite15 (lo ++ hi).
Proof.
  intros l F. edestruct columns_fine as (lo & hi & E & _ & _ & T); [|exists lo, hi; split; [exact E|exact T]].
  repeat apply Forall_cons; try apply Forall_nil; apply Forall_map; (eapply Forall_impl; [|exact F]); intros [[x y] z] V; unfold vec3_ok in V; cbn [coordinates3] in V;
    rewrite !Forall_cons_iff in V; destruct V as (A & B & C & _); assumption.
Qed.
Lemma vec2_fine : forall l, Forall vec2_ok l -> exists lo hi, vec2_bounds l = Some (lo, hi) /\ Forall finite15 (lo ++ hi).
Proof.
  intros l F. edestruct columns_fine as (lo & hi & E & _ & _ & T); [|exists lo, hi; split; [exact E|exact T]].
  repeat apply Forall_cons; try apply Forall_nil; apply Forall_map; (eapply Forall_impl; [|exact F]); intros [x y] V; unfold vec2_ok in V; cbn [coordinates2] in V;
    rewrite !Forall_cons_iff in V; destruct V as (A & B & _); assumption.
Qed.
Lemma uint_fine : forall l, Forall Gltf.Spec.is_word l -> exists lo hi, uint_bounds l = Some (lo, hi) /\ Forall finite15 (lo ++ hi).
Proof.
  intros l F. eexists. eexists. split; [reflexivity|].
  assert (A : forall b, 0 <= b < 2 ^ 53 -> 0 <= fold_left Z.min l b < 2 ^ 53 /\ 0 <= fold_left Z.max l b < 2 ^ 53).
  { assert (P : forall op, (forall a b, 0 <= a < 2 ^ 53 -> 0 <= b < 2 ^ 53 -> 0 <= op a b < 2 ^ 53) -> forall b, 0 <= b < 2 ^ 53 -> 0 <= fold_left op l b < 2 ^ 53).
    { intros op O. induction F as [|w l W F IH]; intros b B; [exact B|]. cbn [fold_left]. apply IH, O; [exact B|]. unfold Gltf.Spec.is_word in W. lia. }
    intros b B. split; apply P; try exact B; intros; lia. }
  cbn [app]. repeat apply Forall_cons; try apply Forall_nil; apply finite15_int; [destruct (A 2147483647 ltac:(lia)) as [? _]|destruct (A 0 ltac:(lia)) as [_ ?]]; lia.
Qed.
