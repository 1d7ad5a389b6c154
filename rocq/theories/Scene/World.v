(** The GLB model of Glb/Model.v meets the part of the contract that is about models. *)
From Coq Require Import Reals Lra Lia List Bool String Ascii ZArith.
From Verif.Base Require Import Py PyFacts Vec Xml Fs FsFacts.
From Verif.Geom Require Import Model.
From Verif.Box Require Import Model Spec.
From Verif.Voxel Require Import Model.
From Verif.Sample Require Import Model.
From Verif.Gltf Require Model.
From Verif.Glb Require Model Props.
From Verif.Glb Require Import Spec.
From Verif.Scene Require Import Model Spec Proofs SaveProofs.
Import ListNotations.
Local Open Scope string_scope.
Local Open Scope list_scope.

(** * The GLB model *)
Section Gltf.
  Import Gltf.Model.
  Variables (write_json : Glb.Model.doc gmodel -> bytes) (loads : bytes -> option (Glb.Model.doc gmodel))
            (dumps : Glb.Model.doc gmodel -> bytes) (parse : bytes -> option (Glb.Model.doc gmodel))
            (encode : string -> mat3b -> option bytes) (decode : bytes -> option (Z * Z * Z * bytes))
            (guess_type : string -> option string) (tmp : list string) (mkdtemp : fs bytes -> list string).
  Hypothesis formats : json_ok write_json loads dumps parse.
  Hypothesis pictures : png_ok encode decode.
  (** tempfile.mkdtemp: a new name in [tmp], with no dot in it. *)
  Hypothesis temporary : forall s, isdir_at s tmp = true -> sane s ->
    fresh s (mkdtemp s) /\ removelast (mkdtemp s) = tmp /\ ~ In "."%char (list_ascii_of_string (last (mkdtemp s) "")).

  Definition gltf_saveable (g : gmodel) : Prop :=
    packable g /\ Forall has_material (materials g) /\ ~ Glb.Props.too_big dumps encode g.
  Definition gltf_kept (g g' : gmodel) : Prop :=
    materials g' = materials g /\ forall l, primitive_meshes g = Ok l -> primitive_meshes g' = Ok l.

  Lemma gltf_glb_ok : forall w : world gmodel,
    save_as_glb w = (fun g p s => Glb.Model.save_as_glb write_json loads dumps encode guess_type (mkdtemp s) g p s) ->
    decode_glb w = (fun b => let* g := Glb.Model.load_binary parse decode b in setURIs g ".png") ->
    glb_ok w tmp gltf_saveable gltf_kept.
  Proof.
    intros w WS WD m l s root (PK & HM & NB) SA TM CW EX. destruct (temporary s TM SA) as (FR & RT & ST).
    assert (AT : above (mkdtemp s) l = false).
    { apply not_true_iff_false. intro A. destruct CW as (LN & _ & LD & _). apply above_spec in A. destruct A as (c & C). destruct c as [|x c] using rev_ind.
      - rewrite app_nil_r in C. subst l. apply ST. destruct EX as (-> & _). rewrite list_ascii_app. apply in_or_app. right. left. reflexivity.
      - subst l. rewrite app_assoc, removelast_snoc in LD. destruct (proj1 (proj2 (proj2 FR)) (mkdtemp s ++ c) (above_app _ _)) as (_ & K). congruence. }
    destruct (Glb.Props.C67_roundtrip write_json loads dumps parse encode decode guess_type formats pictures m (mkdtemp s) s l root PK FR SA CW AT EX)
      as (s' & SB & [(SV & [(_ & g' & LD & P & MT & _ & K)|(NM & _)])|(_ & BIG & _)]); [|contradiction|contradiction].
    unfold Glb.Model.load_from_glb in LD. unfold ibind, read, read_at in LD. rewrite resolve_abs in LD by apply CW.
    destruct (dget loc_eqb l (files s')) as [b|] eqn:B; [|discriminate LD]. injection LD as LD.
    exists s', b, g'. rewrite WS, WD. split; [exact SV|]. split; [exact SB|]. split; [exact B|]. split; [exact LD|]. split; [exact MT|].
    intros ps E. unfold primitive_meshes in *. rewrite P. revert E. generalize (seq 0 (List.length (primitives m))). intro ks. revert ps.
    induction ks as [|k ks IH]; intros ps E; [exact E|]. cbn [mapM] in *. destruct (extract_mesh m k) as [x|] eqn:X; [|discriminate E]. rewrite (K _ _ X). cbn [bind] in *.
    destruct (mapM (extract_mesh m) ks) as [xs|]; [|discriminate E]. rewrite (IH xs eq_refl). exact E.
  Qed.
End Gltf.
