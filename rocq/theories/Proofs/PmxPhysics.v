(** Rigid bodies from PMX over MQO to PMX. *)
From Coq Require Import String List ZArith Bool Lia.
From Verif.Model Require Import Num Vec Matrix Mqo MqoDoc Mmd2Mqo Mqo2Mmd MmdPhysics.
From Verif Require Import Spec.MmdConvSpec Spec.Mqo2MmdSpec Spec.PmxBonesSpec Spec.PmxPhysicsSpec Proofs.MqoDocProofs Proofs.Mqo2MmdBones Proofs.PmxBones.
From Verif Require Proofs.MorphProofs.
Import ListNotations.
Local Open Scope Z_scope.
Local Open Scope list_scope.

Lemma f2_impl {A B} (P Q : A -> B -> Prop) l m : (forall a b, P a b -> Q a b) -> Forall2 P l m -> Forall2 Q l m.
Proof. intros H. induction 1; constructor; auto. Qed.

Section Physics.
Context {T : Type} {N : Num T}.

Lemma shape_back s : 0 <= s <= 2 -> shape_number (shape_name s) = s.
Proof. intros H. assert (s = 0 \/ s = 1 \/ s = 2) as [->|[->| ->]] by lia; reflexivity. Qed.
Lemma bone_index_none (bones : list (bone T)) id : ~ In id (map (@bID T) bones) -> bone_index bones id = 0.
Proof.
  intros H. unfold bone_index. destruct (bone_by_id bones id) as [i|] eqn:E; [|reflexivity]. exfalso. apply H. unfold bone_by_id in E.
  apply MorphProofs.last_index_some in E as ((b & Eb & Pb) & _). apply Z.eqb_eq in Pb. rewrite <- Pb. apply in_map. exact (nth_error_In _ _ Eb).
Qed.
Lemma rigid_back scale (bones : list (bone T)) move grow (r : rigid T) b' : moved_body move grow (from_rigid r) b' ->
  exists r', to_rigids scale bones b' 0 (qbShapes b') = [r'] /\ like r r' /\ rgPos r' = scaled scale (move (flip_z (rgPos r))) /\ rgSize r' = scaled scale (grow (flip_z (rgSize r))) /\
    rgBone r' = bone_index bones (rgBone r + 1) /\ rgMode r' = if rgMode r =? 0 then 1 else 0.
Proof.
  intros (F & E). cbn [from_rigid qbShapes qbName qbMass qbKinematic qbGroup qbMask qbRest qbFric qbLinear qbAngular qbBone qbObj] in *.
  inversion F as [|s s' l l' (A & B & C & D) F' E1 E2]; subst. inversion F'; subst. rewrite <- E2 in E. rewrite E. cbn [qbShapes to_rigids]. eexists. split; [reflexivity|].
  cbn [shType shRot shPos shSize] in A, B, C, D. unfold like. cbn [rgName rgGroup rgTarget rgRot rgMass rgLinear rgAngular rgRest rgFric rgShape rgPos rgSize rgBone rgMode qbName qbMass qbKinematic qbGroup qbMask qbRest qbFric qbLinear qbAngular qbBone].
  rewrite A, B, C, D. repeat (split; [first [reflexivity|repeat (split; [reflexivity|]); exact (shape_back _)]|]). reflexivity.
Qed.
Theorem physics_back scale (bones : list (bone T)) move grow (rs : list (rigid T)) js bs' : Forall2 (moved_body move grow) (fst (from_physics rs js)) bs' ->
  Forall2 (fun r r' => like r r' /\ rgPos r' = scaled scale (move (flip_z (rgPos r))) /\ rgSize r' = scaled scale (grow (flip_z (rgSize r))) /\
    rgBone r' = bone_index bones (rgBone r + 1) /\ rgMode r' = if rgMode r =? 0 then 1 else 0) rs (fst (to_physics scale bones bs' (snd (from_physics rs js)))).
Proof.
  assert (M : fst (from_physics rs js) = map from_rigid rs) by (destruct rs; reflexivity). rewrite M. clear M. unfold to_physics. cbn [fst]. revert bs'.
  induction rs as [|r rs IH]; intros bs' F; inversion F as [|x b' l l' H F' E1 E2]; subst; [constructor|]. cbn [flat_map].
  destruct (rigid_back scale bones move grow r b' H) as (r' & -> & G). constructor; [exact G|]. exact (IH _ F').
Qed.
(** Every shape of a body becomes one rigid body. *)
Lemma shapes_from scale (bones : list (bone T)) b shapes : forall i, Forall2 (of_shape scale b) shapes (to_rigids scale bones b i shapes).
Proof.
  induction shapes as [|s r IH]; intros i; constructor; [|apply IH]. unfold of_shape. cbn [rgPos rgSize rgRot rgMass rgGroup rgTarget rgShape]. repeat (split; [reflexivity|]). unfold shape_number.
  destruct (String.eqb_spec (shType s) "SPHERE"); [auto|]. destruct (String.eqb_spec (shType s) "BOX"); [auto|]. destruct (String.eqb_spec (shType s) "CAPSULE"); [auto|].
  right. right. right. intros [H|[H|[H|[]]]]; congruence.
Qed.
Lemma append_len a b : String.length (a ++ b) = (String.length a + String.length b)%nat.
Proof. induction a; cbn; [reflexivity|congruence]. Qed.
Lemma suffixed_not name n : suffixed name n <> name.
Proof.
  intros E. apply (f_equal String.length) in E. unfold suffixed in E. rewrite append_len in E. cbn in E. lia.
Qed.
Lemma shape_names scale (bones : list (bone T)) b shapes : forall i, NoDup (map (@rgName T) (to_rigids scale bones b i shapes)) /\
  forall n, In n (map (@rgName T) (to_rigids scale bones b i shapes)) -> exists j, (i <= j)%nat /\ n = match j with O => qbName b | _ => suffixed (qbName b) j end.
Proof.
  induction shapes as [|s r IH]; intros i; cbn [to_rigids map rgName]; [split; [constructor|intros n []]|]. destruct (IH (S i)) as (ND & H). split.
  - constructor; [|exact ND]. intros I. destruct (H _ I) as (j & L & E). destruct j as [|j]; [lia|]. destruct i as [|i]; [symmetry in E; exact (suffixed_not _ _ E)|]. apply suffixed_inj in E. lia.
  - intros n [<-|I]; [exists i; split; [lia|reflexivity]|]. destruct (H n I) as (j & L & E). exists j. split; [lia|exact E].
Qed.
End Physics.

Section Whole.
Context {T : Type} {N : Num T}.
Variables (known : list string) (thr : T) (bs : list (pbone T)) (out : list (bone T)).
Hypothesis FB : from_mmd_bones known thr bs = Some out.
Variables (move grow : vec3 T -> vec3 T) (bones : list (bone T)) (scale : T).
Hypothesis MB : Forall2 (moved_bone move) out bones.
Variables (rs : list (rigid T)) (js : list (pjoint T)) (qs : list (qbody T)).
Hypothesis MQ : Forall2 (moved_body move grow) (fst (from_physics rs js)) qs.

Theorem pmx_pmx_physics : Forall2 (fun r r' => like r r' /\ rgPos r' = scaled scale (move (flip_z (rgPos r))) /\ rgSize r' = scaled scale (grow (flip_z (rgSize r))) /\
    (0 <= rgBone r < Z.of_nat (length bs) -> rgBone r' = rgBone r)) rs (fst (to_physics scale bones qs (snd (from_physics rs js)))).
Proof.
  pose proof (physics_back scale bones move grow rs js qs MQ) as F. eapply f2_impl; [|exact F]. cbn beta. intros r r' (A & B & C & D & _). split; [exact A|]. split; [exact B|]. split; [exact C|].
  intros R. rewrite D. exact (index_at known thr bs out FB move bones MB _ R).
Qed.
Theorem pmx_pmx_modes : Forall2 (fun r r' => rgMode r' <> rgMode r) rs (fst (to_physics scale bones qs (snd (from_physics rs js)))).
Proof.
  pose proof (physics_back scale bones move grow rs js qs MQ) as F. eapply f2_impl; [|exact F]. cbn beta. intros r r' (_ & _ & _ & _ & E). rewrite E. destruct (Z.eqb_spec (rgMode r) 0); lia.
Qed.
End Whole.
