(** A compressor that does not compress. *)
From Coq Require Import List Bool ZArith Lia.
From Verif.Base Require Import Py.
From Verif.Zlib Require Import Model.
From Verif.Zlib Require Import Spec.
From Verif.Zlib Require Import Bits Blocks.
Import ListNotations.
Local Open Scope Z_scope.

Definition block_bytes (final : Z) (l : list Z) : list Z :=
  [final; len l mod 256; len l / 256; (65535 - len l) mod 256; (65535 - len l) / 256] ++ l.
Fixpoint store_blocks (turns : nat) (l : list Z) : list Z :=
  match turns with
  | O => []
  | S turns => if len l <? 65536 then block_bytes 1 l else block_bytes 0 (firstn (Z.to_nat 65535) l) ++ store_blocks turns (skipn (Z.to_nat 65535) l)
  end.
Definition store (l : list Z) : list Z := [120; 1] ++ store_blocks (S (List.length l)) l.

Lemma block_bits : forall f l, (f = 0 \/ f = 1) -> len l < 65536 ->
  bits_of (block_bytes f l) = (f =? 1) :: (field 2 0 ++ repeat false 5 ++ field 16 (len l) ++ field 16 (65535 - len l) ++ bits_of l).
Proof.
  intros f l F L. assert (L0 := len_pos _ l). rewrite !two_bytes by lia. rewrite <- !bits_app. destruct F as [-> | ->]; reflexivity.
Qed.
Lemma block_size : forall f l, len (block_bytes f l) = len l + 5.
Proof. intros. unfold block_bytes. rewrite len_app. unfold len at 1. cbn [List.length]. lia. Qed.
Lemma store_ok : forall turns l out, (List.length l < turns)%nat -> Forall byte l ->
  blocks out (bits_of (store_blocks turns l)) (out ++ l) /\ Forall byte (store_blocks turns l) /\ 65535 * (len (store_blocks turns l) - len l - 5) <= 5 * len l /\ 0 < len (store_blocks turns l).
Proof.
  assert (BB : forall f l, (f = 0 \/ f = 1) -> len l < 65536 -> Forall byte l -> Forall byte (block_bytes f l)).
  { intros f l F L B. assert (L0 := len_pos _ l). unfold block_bytes. apply Forall_app. split; [|exact B].
    apply Forall_cons; [unfold byte; lia|]. apply Forall_cons; [apply Z.mod_pos_bound; lia|]. apply Forall_cons; [split; [apply Z.div_pos; lia|apply Z.div_lt_upper_bound; lia]|]. apply Forall_cons; [apply Z.mod_pos_bound; lia|]. apply Forall_cons; [split; [apply Z.div_pos; lia|apply Z.div_lt_upper_bound; lia]|constructor]. }
  induction turns as [|turns IH]; intros l out T F; [lia|]. cbn [store_blocks]. assert (L0 := len_pos _ l). destruct (Z.ltb_spec (len l) 65536) as [S|S].
  - split; [|split; [apply BB; [right; reflexivity|exact S|exact F]|rewrite block_size; lia]]. rewrite (block_bits 1 l (or_intror eq_refl) S). change (1 =? 1) with true. rewrite <- (app_nil_r (field 2 0 ++ _)). apply last_block. apply stored; [cbn; lia|reflexivity|exact S|exact F].
  - set (a := firstn (Z.to_nat 65535) l). set (b := skipn (Z.to_nat 65535) l). assert (LA : len a = 65535) by (unfold a, len in *; rewrite firstn_length; lia). assert (LB : len b = len l - 65535) by (unfold b, len in *; rewrite skipn_length; lia).
    assert (E : l = a ++ b) by (symmetry; apply firstn_skipn). assert (FF : Forall byte a /\ Forall byte b) by (rewrite E in F; apply Forall_app in F; exact F). destruct FF as [FA FB].
    destruct (IH b (out ++ a) ltac:(unfold len in *; lia) FB) as (I1 & I2 & I3 & I4). split; [|split; [apply Forall_app; split; [apply BB; [left; reflexivity|lia|exact FA]|exact I2]|rewrite len_app, block_size; lia]].
    rewrite bits_app, (block_bits 0 a (or_introl eq_refl) ltac:(lia)). change (0 =? 1) with false. cbn [app]. replace (out ++ l) with ((out ++ a) ++ b) by (rewrite <- app_assoc, <- E; reflexivity). apply more_blocks with (mid := out ++ a); [|exact I1]. apply stored; [cbn; lia| |lia|exact FA].
    assert (X := bits_length (store_blocks turns b)). unfold len in X. apply Nat.mod_divide; [lia|]. exists (List.length (store_blocks turns b)). lia.
Qed.
Lemma stored_stream : forall l, Forall byte l -> stream (store l) l /\ Forall byte (store l) /\ len (store l) <= len l + len l / 13107 + 7 /\ store l <> [].
Proof.
  intros l F. destruct (store_ok (S (List.length l)) l [] ltac:(lia) F) as (S1 & S2 & S3 & S4). assert (FS : Forall byte (store l)) by (unfold store; constructor; [unfold byte; lia|]; constructor; [unfold byte; lia|]; exact S2).
  split; [|split; [exact FS|split; [|discriminate]]].
  - exists 120, 1, (store_blocks (S (List.length l)) l). split; [reflexivity|]. split; [exact FS|]. split; [reflexivity|]. split; [reflexivity|]. split; [reflexivity|]. exact S1.
  - unfold store. rewrite len_app. change (len [120; 1]) with 2. assert (D : len (store_blocks (S (List.length l)) l) - len l - 5 <= len l / 13107) by (apply Z.div_le_lower_bound; lia). lia.
Qed.
