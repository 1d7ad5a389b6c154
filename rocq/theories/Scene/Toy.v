(** A world that meets the whole contract of the formats, for examples. *)
From Coq Require Import Reals Lra Lia List Bool String Ascii ZArith.
From Verif.Base Require Import Py PyFacts Vec Xml Fs FsFacts.
From Verif.Geom Require Import Model.
From Verif.Box Require Import Model Spec.
From Verif.Voxel Require Import Model.
From Verif.Sample Require Import Model.
From Verif.Glb Require Import Spec.
From Verif.Scene Require Import Model Spec Proofs SaveProofs.
Import ListNotations.
Local Open Scope string_scope.
Local Open Scope list_scope.
Local Open Scope R_scope.
(** Numbers in unary after their sign. *)
Definition one (z : Z) : string := (if Z.ltb z 0 then "-" else "+") ++ string_of_list_ascii (repeat "1"%char (Z.to_nat (Z.abs z))).
Definition enc (l : list Z) : string := fold_right (fun z s => (one z ++ s)%string) "" l.
Fixpoint dec (s : string) : list Z * Z :=
  match s with
  | EmptyString => ([], 0%Z)
  | String c t => let (l, n) := dec t in
      if Ascii.eqb c "1" then (l, Z.succ n) else if Ascii.eqb c "-" then (Z.opp n :: l, 0%Z) else (n :: l, 0%Z)
  end.
Lemma dec_ones : forall n s l, dec s = (l, 0%Z) -> dec (string_of_list_ascii (repeat "1"%char n) ++ s) = (l, Z.of_nat n).
Proof.
  induction n as [|n IH]; intros s l E; [exact E|]. cbn [repeat string_of_list_ascii append dec]. rewrite (IH s l E). cbn [Ascii.eqb Bool.eqb]. f_equal. lia.
Qed.
Lemma str_assoc : forall a b c : string, ((a ++ b) ++ c)%string = (a ++ (b ++ c))%string.
Proof. induction a as [|x a IH]; intros b c; [reflexivity|]. cbn. rewrite IH. reflexivity. Qed.
Lemma dec_enc : forall l, dec (enc l) = (l, 0%Z).
Proof.
  induction l as [|z l IH]; [reflexivity|]. cbn [enc fold_right]. fold (enc l). unfold one. rewrite str_assoc. destruct (Z.ltb_spec z 0); cbn [append dec];
    rewrite (dec_ones _ _ _ IH); cbn [Ascii.eqb Bool.eqb]; do 2 f_equal; lia.
Qed.
Lemma enc_plain : forall l, plain (enc l).
Proof.
  assert (A : forall a b, plain a -> plain b -> plain (a ++ b)).
  { unfold plain. induction a as [|x a IH]; intros b P Q; [exact Q|]. cbn in *. apply andb_true_iff in P. destruct P as (P1 & P2). rewrite P1. apply IH; assumption. }
  induction l as [|z l IH]; [reflexivity|]. cbn [enc fold_right]. apply A; [|exact IH]. unfold one. apply A; [destruct (z <? 0)%Z; reflexivity|].
  generalize (Z.to_nat (Z.abs z)). induction n as [|n IHn]; [reflexivity|]. exact IHn.
Qed.
Lemma enc_full : forall z l, enc (z :: l) <> "".
Proof. intros z l. cbn [enc fold_right]. unfold one. destruct (z <? 0)%Z; discriminate. Qed.

(** Rounding, and floats as integers. *)
Definition E8 : R := 100000000.
Definition rnd (x : R) : Z := up (E8 * x - 1 / 2).
Lemma rnd_close : forall x, close (IZR (rnd x) / E8) x.
Proof.
  intro x. unfold close, rnd. destruct (archimed (E8 * x - 1 / 2)) as (A & B). assert (P := Rmax_l 1 (Rabs x)).
  set (u := IZR (up (E8 * x - 1 / 2))) in *. assert (K : Rabs (u / E8 - x) <= 1 / 200000000).
  { replace (u / E8 - x) with ((u - E8 * x) / E8) by (unfold E8; field). unfold E8 in *. apply Rabs_le. lra. }
  lra.
Qed.
Definition big : R := powerRZ 2 1074.
Definition fz (x : R) : Z := (up (x * big) - 1)%Z.
Definition zf (z : Z) : R := IZR z / big.
Lemma zf_fz : forall x, is_float x -> zf (fz x) = x.
Proof.
  intros x (m & e & _ & E & ->). unfold zf, fz. assert (B : big <> 0) by (apply powerRZ_NOR; lra).
  assert (Q : IZR m * powerRZ 2 e * big = IZR (m * 2 ^ (e + 1074))).
  { unfold big. rewrite Rmult_assoc, <- powerRZ_add by lra. rewrite mult_IZR. f_equal. rewrite <- (Z2Nat.id (e + 1074)) by lia. rewrite <- pow_IZR. rewrite <- pow_powerRZ. reflexivity. }
  rewrite Q. replace (up (IZR (m * 2 ^ (e + 1074)))) with (m * 2 ^ (e + 1074) + 1)%Z.
  - replace (m * 2 ^ (e + 1074) + 1 - 1)%Z with (m * 2 ^ (e + 1074))%Z by lia. rewrite <- Q. field. exact B.
  - apply tech_up; rewrite plus_IZR; lra.
Qed.

(** XML: lengths, then contents. *)
Definition wstr (s : string) : bytes := Z.of_nat (String.length s) :: map (fun c => Z.of_nat (nat_of_ascii c)) (list_ascii_of_string s).
Definition wtext (s : option string) : bytes := match s with None => [0%Z] | Some s => 1%Z :: wstr s end.
Fixpoint ser (e : xml) : bytes :=
  let 'Elem t s cs := e in wstr t ++ wtext s ++ Z.of_nat (List.length cs) :: flat_map ser cs.
Definition rstr (b : bytes) : option (string * bytes) :=
  match b with
  | [] => None
  | n :: b => Some (string_of_list_ascii (map (fun z => ascii_of_nat (Z.to_nat z)) (firstn (Z.to_nat n) b)), skipn (Z.to_nat n) b)
  end.
Definition rtext (b : bytes) : option (option string * bytes) :=
  match b with
  | [] => None
  | n :: b => if Z.eqb n 0 then Some (None, b) else match rstr b with Some (s, b) => Some (Some s, b) | None => None end
  end.
Fixpoint rlist {A} (f : bytes -> option (A * bytes)) (n : nat) (b : bytes) : option (list A * bytes) :=
  match n with
  | O => Some ([], b)
  | S n => match f b with Some (x, b) => match rlist f n b with Some (l, b) => Some (x :: l, b) | None => None end | None => None end
  end.
Fixpoint par (fuel : nat) (b : bytes) : option (xml * bytes) :=
  match fuel with
  | O => None
  | S fuel =>
      match rstr b with
      | None => None
      | Some (t, b) => match rtext b with
        | None => None
        | Some (s, b) => match b with
          | [] => None
          | n :: b => match rlist (par fuel) (Z.to_nat n) b with Some (cs, b) => Some (Elem t s cs, b) | None => None end
          end
        end
      end
  end.
Lemma rstr_wstr : forall s b, rstr (wstr s ++ b) = Some (s, b).
Proof.
  intros s b. unfold rstr, wstr. cbn [app]. rewrite Nat2Z.id. assert (L : List.length (map (fun c => Z.of_nat (nat_of_ascii c)) (list_ascii_of_string s)) = String.length s).
  { rewrite map_length. induction s as [|c s IH]; [reflexivity|]. cbn. f_equal. exact IH. }
  rewrite firstn_app, skipn_app, <- L, Nat.sub_diag, firstn_all, skipn_all, app_nil_r. cbn [app skipn]. rewrite map_map. do 2 f_equal.
  rewrite (map_ext _ (fun c => c)); [rewrite map_id; apply string_of_list_ascii_of_string|]. intro c. rewrite Nat2Z.id. apply ascii_nat_embedding.
Qed.
Lemma rtext_wtext : forall s b, rtext (wtext s ++ b) = Some (s, b).
Proof. intros [s|] b; [|reflexivity]. unfold rtext, wtext. cbn [app Z.eqb]. rewrite rstr_wstr. reflexivity. Qed.
Lemma par_ser : forall fuel e b, (List.length (ser e) <= fuel)%nat -> par fuel (ser e ++ b) = Some (e, b).
Proof.
  induction fuel as [|fuel IH]; intros [t s cs] b L; [cbn in L; lia|]. cbn [ser par] in *.
  replace ((wstr t ++ wtext s ++ Z.of_nat (List.length cs) :: flat_map ser cs) ++ b) with (wstr t ++ (wtext s ++ (Z.of_nat (List.length cs) :: flat_map ser cs ++ b)))
    by (rewrite <- !app_assoc; reflexivity).
  rewrite rstr_wstr, rtext_wtext, Nat2Z.id.
  assert (LC : (List.length (flat_map ser cs) <= fuel)%nat) by (rewrite !app_length in L; cbn in L; unfold bytes in *; lia). clear L.
  assert (K : rlist (par fuel) (List.length cs) (flat_map ser cs ++ b) = Some (cs, b)).
  { induction cs as [|c cs IHc]; [reflexivity|]. cbn [flat_map] in *. rewrite app_length in LC. cbn [List.length rlist]. rewrite <- app_assoc, IH by (unfold bytes in *; lia).
    rewrite IHc by (unfold bytes in *; lia). reflexivity. }
  rewrite K. reflexivity.
Qed.

(** Grids. *)
Fixpoint rvox (l : bytes) : list vox := match l with x :: y :: z :: l => Vox x y z :: rvox l | _ => [] end.
Definition wgrid (g : grid) : bytes :=
  fz (g_scale g) :: fz (vx (g_corner g)) :: fz (vy (g_corner g)) :: fz (vz (g_corner g)) :: g_size_x g :: g_size_y g :: flat_map (fun v => [ix v; iy v; iz v]) (g_voxels g).
Definition rgrid (b : bytes) : option grid :=
  match b with
  | s :: x :: y :: z :: sx :: sy :: l => Some (Grid (zf s) (V (zf x) (zf y) (zf z)) (rvox l) sx sy)
  | _ => None
  end.
Lemma rgrid_wgrid : forall g, small_grid g -> rgrid (wgrid g) = Some g.
Proof.
  intros [s [x y z] vs sx sy] (A & B & C & D & _). unfold wgrid, rgrid. cbn [g_scale g_corner g_voxels g_size_x g_size_y vx vy vz] in *. rewrite !zf_fz by assumption. do 2 f_equal.
  induction vs as [|[a b c] vs IH]; [reflexivity|]. cbn [flat_map app rvox ix iy iz]. rewrite IH. reflexivity.
Qed.

(** Models are lists of whole coordinates, written as they are. *)
Fixpoint points (l : bytes) : list vec := match l with x :: y :: z :: l => V (IZR x) (IZR y) (IZR z) :: points l | _ => [] end.
Definition world : Scene.Model.world bytes :=
  World (fun v => enc [rnd (vx v); rnd (vy v); rnd (vz v)]) (fun t => map (fun z => IZR z / E8) (fst (dec t)))
        (fun x => enc [fz x]) (fun t => match fst (dec t) with [z] => Some (zf z) | _ => None end)
        (fun m => Ok [Surface [] (points m) None]) (fun m p => write p m) (fun b => Ok b)
        wgrid rgrid ser (fun b => match par (List.length b) b with Some (e, []) => Some (reread e) | _ => None end).

Lemma ok : forall tmp, formats_ok world tmp (fun _ => True) eq.
Proof.
  intro tmp. split; [split|split; [|split]].
  - intros [x y z]. exists (V (IZR (rnd x) / E8) (IZR (rnd y) / E8) (IZR (rnd z) / E8)). cbn [array2string fromstring world vx vy vz]. rewrite dec_enc. split; [reflexivity|].
    split; [repeat split; apply rnd_close|]. split; [apply enc_plain|apply enc_full].
  - intros x F. cbn [float_of str_float world]. rewrite dec_enc. cbn [fst]. rewrite zf_fz by exact F. split; [reflexivity|]. split; [apply enc_plain|apply enc_full].
  - intros e _. cbn [xml_parse xml_write world]. assert (K := par_ser (List.length (ser e)) e [] (le_n _)). rewrite app_nil_r in K. rewrite K. reflexivity.
  - exact rgrid_wgrid.
  - intros m l s root _ SA TM (LN & NL & LD & LF) _. exists (put s l m), m, m. cbn [save_as_glb decode_glb world]. destruct (written s l m) as ((A & B & C & _) & D).
    split; [unfold write; rewrite resolve_abs by exact NL; apply write_at_ok; assumption|]. split; [split; [exact A|split; [|exact B]]|auto].
    intros l' N. apply C. intros [E|[]]. congruence.
Qed.
