From Coq Require Import Reals ZArith Lra Lia Bool.
From Verif.Base Require Import Py.
From Verif.Depth Require Import Model Spec.
Open Scope R_scope.

Lemma Int_part_eq : forall x k, IZR k <= x < IZR k + 1 -> Int_part x = k.
Proof.
  intros x k H. destruct (base_Int_part x) as (A & B).
  assert (C : IZR (Int_part x) < IZR (k + 1)) by (rewrite plus_IZR; lra).
  assert (D : IZR k < IZR (Int_part x + 1)) by (rewrite plus_IZR; lra).
  apply lt_IZR in C. apply lt_IZR in D. lia.
Qed.

Lemma Int_part_mono : forall x y, x <= y -> (Int_part x <= Int_part y)%Z.
Proof.
  intros x y H. destruct (base_Int_part x) as (A & B). destruct (base_Int_part y) as (C & D).
  assert (E : IZR (Int_part x) < IZR (Int_part y + 1)) by (rewrite plus_IZR; lra). apply lt_IZR in E. lia.
Qed.

Lemma to_uint_ok : forall m e x k, (0 <= k <= m)%Z -> IZR k <= x < IZR k + 1 -> to_uint m e x = Ok k.
Proof.
  intros m e x k K H. unfold to_uint, trunc. assert (P : 0 <= IZR k) by (apply IZR_le; lia).
  destruct (Rle_dec 0 x); [|lra]. rewrite (Int_part_eq x k H).
  destruct (Z.leb_spec 0 k); destruct (Z.leb_spec k m); simpl; auto; lia.
Qed.
Lemma to_uint16_ok : forall x k, to_uint PIXEL_MAX OverflowError x = Ok k -> to_uint16 x = Ok k.
Proof. intros x k H. unfold to_uint16. rewrite H. reflexivity. Qed.
Lemma to_uint16_total : forall x, exists k, to_uint16 x = Ok k /\ (0 <= k <= 65535)%Z.
Proof.
  intro x. unfold to_uint16, to_uint. destruct (((0 <=? trunc x) && (trunc x <=? PIXEL_MAX))%Z%bool) eqn:E.
  - apply Bool.andb_true_iff in E. destruct E as [E1 E2]. apply Z.leb_le in E1, E2. exists (trunc x). split; [reflexivity|]. unfold PIXEL_MAX in E2. lia.
  - exists 0%Z. split; [reflexivity|lia].
Qed.

(** ** Relative error *)

Definition u : R := / 16777216.
Definition near_to (e x y : R) : Prop := x * (1 - e) <= y <= x * (1 + e).

Lemma u_val : u = / 16777216. Proof. reflexivity. Qed.
Lemma u_pos : 0 < u. Proof. unfold u; lra. Qed.
Opaque u.

Lemma round_near : forall f x, rounding f -> 0 <= x -> near_to u x (f x).
Proof.
  intros f x (_ & F) X. specialize (F x). rewrite <- u_val in F. rewrite (Rabs_right x) in F by lra.
  unfold near_to. unfold Rabs in F. destruct (Rcase_abs (f x - x)); lra.
Qed.

Lemma near_trans : forall e1 e2 x y z, 0 <= e1 -> 0 <= e2 -> e1 <= 1 -> e2 <= 1 -> 0 <= x -> near_to e1 x y -> near_to e2 y z -> near_to (e1 + 2 * e2) x z.
Proof.
  unfold near_to. intros e1 e2 x y z E1 E2 L1 L2 X (A & B) (C & D).
  assert (P : 0 <= e1 * e2) by (apply Rmult_le_pos; assumption).
  assert (Q : 0 <= x * (1 - e1)) by (apply Rmult_le_pos; lra).
  assert (Y : x * (1 - e1) * (1 - e2) <= y * (1 - e2)) by (apply Rmult_le_compat_r; lra).
  assert (Z : y * (1 + e2) <= x * (1 + e1) * (1 + e2)) by (apply Rmult_le_compat_r; lra).
  assert (W : e1 * e2 <= e2) by (rewrite <- (Rmult_1_l e2) at 2; apply Rmult_le_compat_r; lra).
  assert (XW : x * (e1 * e2) <= x * e2) by (apply Rmult_le_compat_l; lra).
  assert (XP : 0 <= x * (e1 * e2)) by (apply Rmult_le_pos; assumption).
  assert (XE : 0 <= x * e2) by (apply Rmult_le_pos; assumption).
  split; nra.
Qed.

Lemma near_div : forall e x y c, 0 < c -> near_to e x y -> near_to e (x / c) (y / c).
Proof.
  unfold near_to, Rdiv. intros e x y c C (A & B). assert (I : 0 < / c) by (apply Rinv_0_lt_compat, C).
  split; [replace (x * / c * (1 - e)) with (x * (1 - e) * / c) by ring|replace (x * / c * (1 + e)) with (x * (1 + e) * / c) by ring];
    apply Rmult_le_compat_r; lra.
Qed.

Lemma near_pos : forall e x y, e < 1 -> 0 < x -> near_to e x y -> 0 < y.
Proof. unfold near_to. intros e x y E X (A & _). assert (0 < x * (1 - e)) by (apply Rmult_lt_0_compat; lra). lra. Qed.

Lemma near_inv : forall e x y c, 0 <= e <= 1 / 2 -> 0 < x -> 0 <= c -> near_to e x y -> near_to (2 * e) (c / x) (c / y).
Proof.
  intros e x y c E X C N. assert (Y : 0 < y) by (apply (near_pos e x); auto; lra). destruct N as (A & B).
  assert (I : 0 <= c / y) by (apply Rmult_le_pos; [exact C|left; apply Rinv_0_lt_compat, Y]).
  assert (J : 0 <= c / x) by (apply Rmult_le_pos; [exact C|left; apply Rinv_0_lt_compat, X]).
  assert (F : c / y * y = c / x * x) by (field; lra).
  set (p := c / x) in *. set (q := c / y) in *. clearbody p q.
  unfold near_to. split.
  - (* q y = p x, y <= x (1+e) -> q (1+e) >= p *)
    assert (q * y <= q * (x * (1 + e))) by (apply Rmult_le_compat_l; assumption).
    assert (p <= q * (1 + e)). { apply (Rmult_le_reg_r x); [exact X|]. nra. }
    assert (0 <= p * (e * e)) by (apply Rmult_le_pos; [exact J|nra]).
    assert (0 <= p * e) by (apply Rmult_le_pos; lra).
    apply (Rmult_le_reg_r (1 + e)); [lra|]. nra.
  - assert (q * (x * (1 - e)) <= q * y) by (apply Rmult_le_compat_l; assumption).
    assert (q * (1 - e) <= p). { apply (Rmult_le_reg_r x); [exact X|]. nra. }
    apply (Rmult_le_reg_r (1 - e)); [lra|]. assert (0 <= p * e * (1 - 2 * e)) by (apply Rmult_le_pos; [apply Rmult_le_pos|]; lra). nra.
Qed.

Lemma near_abs : forall e b x y, 0 <= e -> 0 <= x <= b -> near_to e x y -> - (b * e) <= y - x <= b * e.
Proof.
  unfold near_to. intros e b x y E X (A & B). assert (x * e <= b * e) by (apply Rmult_le_compat_r; lra). lra.
Qed.

Section WithRounding.
  Variables f32 f64 : R -> R.
  Hypothesis R32 : rounding f32.
  Hypothesis R64 : rounding f64.

  Lemma round_pos : forall f x, rounding f -> 0 < x -> 0 < f x.
  Proof. intros f x F X. apply (near_pos u x); auto. - rewrite u_val; lra. - apply round_near; auto; lra. Qed.

  Lemma round_nonneg : forall f x, rounding f -> 0 <= x -> 0 <= f x.
  Proof. intros f x F [X|<-]; [left; apply round_pos; auto|]. assert (N := round_near f 0 F (Rle_refl 0)). destruct N as (A & _). lra. Qed.

  (** The decoded depth of a code. *)
  Lemma decode_near : forall M k near f g, rounding f -> rounding g -> 0 < near -> 0 < M -> 0 < k ->
    near_to (5 * u) (near * M / k) (g (f (f (near * M) / k))).
  Proof.
    intros M k near f g Rf Rg N HM K. assert (U := u_pos). assert (UV := u_val).
    assert (P : 0 < near * M) by (apply Rmult_lt_0_compat; assumption).
    assert (A := round_near f (near * M) Rf (Rlt_le _ _ P)).
    assert (B := near_div _ _ _ k K A).
    assert (P' : 0 < near * M / k) by (apply Rmult_lt_0_compat; [exact P|apply Rinv_0_lt_compat, K]).
    assert (Q' : 0 < f (near * M) / k) by (apply (near_pos u (near * M / k)); auto; lra).
    assert (C := round_near f _ Rf (Rlt_le _ _ Q')).
    assert (D := near_trans u u _ _ _ ltac:(lra) ltac:(lra) ltac:(lra) ltac:(lra) (Rlt_le _ _ P') B C).
    assert (Q2 := round_pos f _ Rf Q').
    assert (E := round_near g _ Rg (Rlt_le _ _ Q2)).
    assert (F := near_trans (u + 2 * u) u _ _ _ ltac:(lra) ltac:(lra) ltac:(lra) ltac:(lra) (Rlt_le _ _ P') D E).
    replace (5 * u) with (u + 2 * u + 2 * u) by ring. exact F.
  Qed.

  (** What the encoder rounds to an integer. *)
  Lemma encode_near : forall M d near f, rounding f -> 0 < near -> 0 < M -> 0 < d ->
    near_to (3 * u) (near * M / d) (f (f (near * M) / d)).
  Proof.
    intros M d near f Rf N HM K. assert (U := u_pos). assert (UV := u_val).
    assert (P : 0 < near * M) by (apply Rmult_lt_0_compat; assumption).
    assert (A := round_near f (near * M) Rf (Rlt_le _ _ P)).
    assert (B := near_div _ _ _ d K A).
    assert (P' : 0 < near * M / d) by (apply Rmult_lt_0_compat; [exact P|apply Rinv_0_lt_compat, K]).
    assert (Q' : 0 < f (near * M) / d) by (apply (near_pos u (near * M / d)); auto; lra).
    assert (C := round_near f _ Rf (Rlt_le _ _ Q')).
    assert (D := near_trans u u _ _ _ ltac:(lra) ltac:(lra) ltac:(lra) ltac:(lra) (Rlt_le _ _ P') B C).
    replace (3 * u) with (u + 2 * u) by ring. exact D.
  Qed.

  (** Encoding a depth whose exact code is nearly the integer k gives k. *)
  Lemma encode_hit : forall (M k : Z) e d near f, rounding f -> 0 < near -> (0 < M <= 65535)%Z -> (1 <= k <= M)%Z -> 0 < d ->
    0 <= e <= 100 * u -> near_to e (IZR k) (near * IZR M / d) ->
    forall ex, to_uint M ex (f64 (1 / 2 + f (f (near * IZR M) / d))) = Ok k.
  Proof.
    intros M k e d near f Rf N HM K D E H ex. assert (U := u_pos). assert (UV := u_val).
    assert (MB : 0 < IZR M <= 65535) by (split; [apply IZR_lt|apply IZR_le]; lia).
    assert (KB : 1 <= IZR k <= IZR M) by (split; apply IZR_le; lia).
    assert (A := encode_near (IZR M) d near f Rf N ltac:(lra) D).
    assert (E1 : e <= 1) by lra. assert (KP : 0 <= IZR k) by lra.
    assert (B := near_trans e (3 * u) (IZR k) _ _ (proj1 E) ltac:(lra) E1 ltac:(lra) KP H A).
    assert (Bd := near_abs (e + 2 * (3 * u)) 65535 (IZR k) _ ltac:(lra) ltac:(lra) B).
    set (x := f (f (near * IZR M) / d)) in *. clearbody x.
    assert (XB : - (42/100) <= x - IZR k <= 42 / 100) by lra.
    assert (XP : 0 <= 1 / 2 + x <= 65537) by lra.
    assert (C := near_abs u 65537 (1 / 2 + x) _ ltac:(lra) XP (round_near f64 (1 / 2 + x) R64 ltac:(lra))).
    apply to_uint_ok; [lia|]. rewrite UV in C. lra.
  Qed.

  Lemma decode_encode : forall (M k : Z) near f ex, rounding f -> 0 < near -> (0 < M <= 65535)%Z -> (1 <= k <= M)%Z ->
    let d := f32 (f64 (f64 (near * IZR M) / IZR k)) in
    0 < d /\ d <> 0 /\
    (if Rle_dec d near then Ok M else to_uint M ex (f64 (1 / 2 + f (f (near * IZR M) / d)))) = Ok k.
  Proof.
    intros M k near f ex Rf N HM K d. assert (U := u_pos). assert (UV := u_val).
    assert (MB : 0 < IZR M <= 65535) by (split; [apply IZR_lt|apply IZR_le]; lia).
    assert (KB : 1 <= IZR k <= IZR M) by (split; apply IZR_le; lia).
    assert (A : near_to (5 * u) (near * IZR M / IZR k) d) by (apply decode_near; auto; lra).
    assert (NM : 0 < near * IZR M) by (apply Rmult_lt_0_compat; lra).
    assert (P : 0 < near * IZR M / IZR k) by (apply Rmult_lt_0_compat; [exact NM|apply Rinv_0_lt_compat; lra]).
    assert (D : 0 < d) by (apply (near_pos (5 * u) _ _ ltac:(lra) P A)).
    split; [exact D|]. split; [lra|]. destruct (Rle_dec d near) as [Le|Gt].
    - (* k = M *)
      f_equal. apply Z.le_antisymm; [|lia]. destruct A as (A & _).
      assert (X : near * IZR M * (1 - 5 * u) <= near * IZR k).
      { replace (near * IZR M * (1 - 5 * u)) with (near * IZR M / IZR k * (1 - 5 * u) * IZR k) by (field; lra).
        apply Rmult_le_compat_r; lra. }
      assert (Y : IZR M * (1 - 5 * u) <= IZR k) by (apply (Rmult_le_reg_l near); lra).
      assert (Z : IZR M < IZR (k + 1)) by (rewrite plus_IZR, UV in *; lra). apply lt_IZR in Z. lia.
    - apply (encode_hit M k (2 * (5 * u))); auto; [lra|].
      replace (IZR k) with (near * IZR M / (near * IZR M / IZR k)) by (field; lra).
      apply near_inv; auto; lra.
  Qed.

  (** What the code of a depth beyond near says about it. *)
  Lemma encode_value : forall (M : Z) d near f ex, rounding f -> 0 < near -> (0 < M <= 65535)%Z -> near < d ->
    exists k, to_uint M ex (f64 (1 / 2 + f (f (near * IZR M) / d))) = Ok k /\ (0 <= k <= M)%Z /\
      Rabs (IZR k - near * IZR M / d) <= 52 / 100.
  Proof.
    intros M d near f ex Rf N HM D. assert (U := u_pos). assert (UV := u_val).
    assert (MB : 0 < IZR M <= 65535) by (split; [apply IZR_lt|apply IZR_le]; lia).
    assert (A := encode_near (IZR M) d near f Rf N ltac:(lra) ltac:(lra)).
    assert (NM : 0 < near * IZR M) by (apply Rmult_lt_0_compat; lra).
    set (x := f (f (near * IZR M) / d)) in *. set (y := near * IZR M / d) in *.
    assert (Y : 0 < y < IZR M).
    { unfold y. split; [apply Rmult_lt_0_compat; [exact NM|apply Rinv_0_lt_compat; lra]|].
      apply (Rmult_lt_reg_r d); [lra|]. unfold Rdiv. rewrite Rmult_assoc, Rinv_l by lra. nra. }
    clearbody x y. assert (Bd := near_abs (3 * u) 65535 y x ltac:(lra) ltac:(lra) A).
    assert (XP : 0 <= x) by (left; apply (near_pos (3 * u) y); auto; lra).
    assert (C := near_abs u 65537 (1 / 2 + x) _ ltac:(lra) ltac:(rewrite UV in Bd; lra) (round_near f64 (1 / 2 + x) R64 ltac:(lra))).
    set (z := f64 (1 / 2 + x)) in *. clearbody z.
    destruct (base_Int_part z) as (I1 & I2).
    exists (Int_part z). rewrite UV in *.
    assert (KB : (0 <= Int_part z <= M)%Z).
    { split; [|].
      - assert (IZR (-1) < IZR (Int_part z)) by (lra). apply lt_IZR in H. lia.
      - assert (IZR (Int_part z) < IZR (M + 1)) by (rewrite plus_IZR; lra). apply lt_IZR in H. lia. }
    split; [apply to_uint_ok; [exact KB|lra]|]. split; [exact KB|]. unfold Rabs. destruct (Rcase_abs _); lra.
  Qed.

  Lemma encode_mono : forall M d d' near f, rounding f -> 0 < near -> 0 <= M -> 0 < d <= d' ->
    f64 (1 / 2 + f (f (near * M) / d')) <= f64 (1 / 2 + f (f (near * M) / d)).
  Proof.
    intros M d d' near f Rf N HM D. apply R64. apply Rplus_le_compat_l. apply Rf. unfold Rdiv.
    apply Rmult_le_compat_l; [apply round_nonneg; auto; apply Rmult_le_pos; lra|]. apply Rinv_le_contravar; lra.
  Qed.

  Lemma half_code : forall M ex, (0 <= M)%Z -> to_uint M ex (f64 (1 / 2 + 0)) = Ok 0%Z.
  Proof.
    intros M ex HM. assert (N := round_near f64 (1 / 2 + 0) R64 ltac:(lra)). destruct N as (A & B). rewrite u_val in *.
    apply to_uint_ok; [lia|]. lra.
  Qed.

  Lemma to_uint_mono : forall M ex x y i j, to_uint M ex x = Ok i -> to_uint M ex y = Ok j -> 0 <= x <= y -> (i <= j)%Z.
  Proof.
    unfold to_uint, trunc. intros M ex x y i j A B (X & Y). destruct (Rle_dec 0 x); [|lra]. destruct (Rle_dec 0 y); [|lra].
    destruct ((0 <=? Int_part x)%Z && (Int_part x <=? M)%Z)%bool; [|discriminate].
    destruct ((0 <=? Int_part y)%Z && (Int_part y <=? M)%Z)%bool; [|discriminate].
    injection A as <-. injection B as <-. apply Int_part_mono, Y.
  Qed.
End WithRounding.

(** ** Maps *)

Lemma for_range_ok : forall S n (body : nat -> S -> res S) (I : nat -> S -> Prop) s,
  I O s -> (forall i s, (i < n)%nat -> I i s -> exists s', body i s = Ok s' /\ I (Datatypes.S i) s') ->
  exists s', for_range n body s = Ok s' /\ I n s'.
Proof.
  intros S n body I s H0 HS. induction n as [|n IH]; [exists s; auto|].
  destruct IH as (s1 & E & H1); [intros i s2 Hi; apply HS; lia|]. cbn [for_range]. rewrite E. cbn [bind]. apply HS; [lia|exact H1].
Qed.

Lemma convert_map_total : forall A B (f : A -> res B) junk im,
  (forall v u, (v < height im)%nat -> (u < width im)%nat -> exists y, f (pixel im v u) = Ok y) ->
  exists out, convert_map f junk im = Ok out /\ pixelwise f im out.
Proof.
  intros A B f junk im T. unfold convert_map.
  destruct (for_range_ok _ (height im)
     (fun v out => for_range (width im) (fun u out => let* x := f (pixel im v u) in Ok (write v u x out)) out)
     (fun v out => height out = height im /\ width out = width im /\
     forall v' u', (v' < v)%nat -> (u' < width im)%nat -> f (pixel im v' u') = Ok (pixel out v' u'))
     (Image (height im) (width im) junk))
     as (out & E & (H1 & H2 & H3)).
  - repeat split; auto. intros; lia.
  - intros v out Hv (H1 & H2 & H3).
    destruct (for_range_ok _ (width im) (fun u out => let* x := f (pixel im v u) in Ok (write v u x out))
      (fun u out => height out = height im /\ width out = width im /\
         (forall v' u', (v' < v)%nat -> (u' < width im)%nat -> f (pixel im v' u') = Ok (pixel out v' u')) /\
         forall u', (u' < u)%nat -> f (pixel im v u') = Ok (pixel out v u')) out) as (out' & E & G1 & G2 & G3 & G4).
    + repeat split; auto. intros; lia.
    + intros u o Hu (G1 & G2 & G3 & G4). destruct (T v u Hv Hu) as (y & Ey). rewrite Ey. cbn [bind]. eexists. split; [reflexivity|].
      cbn [write height width pixel]. repeat split; auto.
      * intros v' u' Hv' Hu'. destruct (Nat.eqb_spec v' v); [lia|]. simpl. apply G3; assumption.
      * intros u' Hu'. rewrite Nat.eqb_refl. simpl. destruct (Nat.eqb_spec u' u) as [->|N]; [exact Ey|]. apply G4. lia.
    + exists out'. split; [exact E|]. repeat split; auto. intros v' u' Hv' Hu'.
      destruct (Nat.eq_dec v' v) as [->|N]; [apply G4; exact Hu'|]. apply G3; [lia|exact Hu'].
  - exists out. split; [exact E|]. split; [exact H1|]. split; assumption.
Qed.
