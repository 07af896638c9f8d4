(** Proofs about transforming documents (C82). *)
From Coq Require Import String List ZArith Reals Lra Lia Bool.
From Verif.Model Require Import Num NumR Vec Matrix Euler Mqo MqoDoc MqoTransform.
From Verif.Spec Require Import GeomSpec TransformSpec.
From Verif.Proofs Require Import MatrixLemmas DecomposeProofs EulerProofs RotationProofs MqoObjProofs GltfDoc.
Import ListNotations.
Local Open Scope R_scope.

Lemma scale_apply x y z p : mat_apply (mat_scale x y z) p = scaled (mkV3 x y z) p.
Proof. destruct p; unfold mat_apply, mat_scale, scaled; mproj; rnum; comps; ring. Qed.
Lemma transform_total m d : (exists d', transform_doc m d = Some d') <-> Forall has_local (mdObjects d).
Proof.
  unfold transform_doc. split.
  - intros [d' E]. destruct (all_some (transform_object m) (mdObjects d)) as [os|] eqn:A; [|discriminate]. clear E. revert os A. induction (mdObjects d) as [|o l IH]; intros os A; [constructor|].
    cbn [all_some] in A. destruct (transform_object m o) eqn:T; [|discriminate]. destruct (all_some (transform_object m) l); [|discriminate]. constructor; [|eapply IH; reflexivity].
    unfold transform_object in T. unfold has_local. destruct (oTranslation o), (oRotation o), (oScale o); try discriminate. repeat split; discriminate.
  - intros F. assert (A : exists os, all_some (transform_object m) (mdObjects d) = Some os).
    { induction F as [|o l (A & B & C) _ [os IH]]; [exists []; reflexivity|]. cbn [all_some]. rewrite IH. unfold transform_object. destruct (oTranslation o), (oRotation o), (oScale o); try contradiction.
      destruct (set_local_transform _) as [[? ?] ?]. eexists. reflexivity. }
    destruct A as [os A]. rewrite A. eexists. reflexivity.
Qed.
Lemma transform_object_spec m o o' : transform_object m o = Some o' ->
  oVerts o' = map (mat_apply m) (oVerts o) /\ same_object o o' /\ has_local o' /\
  exists t r s, oTranslation o = Some t /\ oRotation o = Some r /\ oScale o = Some s /\
    let '(t', r', s') := set_local_transform (mat_mul m (get_local_transform t r s)) in o' = apply_transform m (set_trs o t' r' s').
Proof.
  unfold transform_object. destruct (oTranslation o) as [t|] eqn:Et; [|discriminate]. destruct (oRotation o) as [r|] eqn:Er; [|discriminate]. destruct (oScale o) as [s|] eqn:Es; [|discriminate].
  destruct (set_local_transform (mat_mul m (get_local_transform t r s))) as [[t' r'] s'] eqn:Es'. intros E. injection E as <-. split; [reflexivity|]. split.
  - unfold same_object. cbn. rewrite map_map. repeat split.
  - split; [repeat split; discriminate|]. exists t, r, s. rewrite Es'. repeat split.
Qed.
Lemma transform_doc_objects m d d' : transform_doc m d = Some d' ->
  length (mdObjects d') = length (mdObjects d) /\ mdBones d' = map (transform_bone m) (mdBones d) /\ mdMorphs d' = mdMorphs d /\ mdPhysics d' = option_map (transform_physics m) (mdPhysics d) /\
  forall i o, nth_error (mdObjects d) i = Some o -> exists o', nth_error (mdObjects d') i = Some o' /\ transform_object m o = Some o'.
Proof.
  unfold transform_doc. destruct (all_some (transform_object m) (mdObjects d)) as [os|] eqn:A; [|discriminate]. intros E. injection E as <-. cbn [mdObjects mdBones mdMorphs mdPhysics].
  apply all_some_spec in A. split; [clear - A; induction A; cbn; congruence|]. split; [reflexivity|]. split; [reflexivity|]. split; [reflexivity|].
  induction A as [|x y l r Hx _ IH]; intros [|i] o Ei; try discriminate; cbn in Ei |- *; [injection Ei as <-; exists y; split; [reflexivity|exact Hx]|apply IH; exact Ei].
Qed.

Lemma scale_trs k t r s : mat_mul (mat_scale k k k) (mat_trs t r s) = mat_trs (v3scale t k) r (v3scale s k).
Proof.
  rewrite !mat_trs_entries. cbv zeta. set (m := mat_rot r). unfold v3scale; mproj; rnum. unfold mat_mul, mat_scale; mproj; rnum; comps; ring.
Qed.
(** Uniform scaling of an object whose rotation survives being stored. *)
Lemma uniform_local k t r s : 0 < k -> 0 < vx s -> 0 < vy s -> 0 < vz s ->
  (forall v, qapply (get_rotation (set_rotation (get_rotation r))) v = qapply (get_rotation r) v) ->
  let '(t', r', s') := set_local_transform (mat_mul (mat_scale k k k) (get_local_transform t r s)) in
  get_local_transform t' r' s' = mat_mul (mat_scale k k k) (get_local_transform t r s).
Proof.
  intros Hk X Y Z H. unfold get_local_transform at 1 3. rewrite scale_trs.
  apply local_transform_round_trip; [apply euler_to_quat_unit| | | |exact H]; unfold v3scale; mproj; rnum; apply Rmult_lt_0_compat; assumption.
Qed.
Lemma trs_id k : mat_scale k k k = mat_trs (mkV3 0 0 0) (mkV4 0 0 0 1) (mkV3 k k k).
Proof. rewrite mat_trs_entries. cbv zeta. unfold mat_rot, mat_scale; mproj; rnum; comps; ring. Qed.
Lemma uniform_shape k s : 0 < k -> 0 <= vx (psSize s) -> 0 <= vy (psSize s) -> 0 <= vz (psSize s) ->
  transform_shape (mat_scale k k k) s = mkPS (psType s) (v3scale (psSize s) k) (v3scale (psPos s) k) (psRot s).
Proof.
  intros Hk X Y Z. unfold transform_shape. assert (D : exists t r, mat_decompose (mat_scale k k k) = (t, r, mkV3 k k k)).
  { rewrite trs_id. pose proof (decompose_positive (mkV3 0 0 0) (mkV4 0 0 0 1) (mkV3 k k k)) as D. unfold unit_quat in D. mproj. specialize (D ltac:(lra) Hk Hk Hk).
    destruct (mat_decompose _) as [[t r] s']. destruct D as (_ & -> & _). eexists; eexists; reflexivity. }
  destruct D as (t & r & ->). mproj. rewrite !Rabs_right by (apply Rle_ge, Rmult_le_pos; lra). rewrite scale_apply. unfold v3scale, scaled; mproj; rnum. f_equal. comps; ring.
Qed.

(** Scaling by axes, with any signs. *)
Lemma len_axis a : sqrt (a * a) = Rabs a.
Proof. apply (sqrt_Rsqr_abs a). Qed.
Lemma scale_shape x y z s :
  let s' := transform_shape (mat_scale x y z) s in
  psSize s' = mkV3 (Rabs (vx (psSize s)) * Rabs x) (Rabs (vy (psSize s)) * Rabs y) (Rabs (vz (psSize s)) * Rabs z) /\
  psPos s' = scaled (mkV3 x y z) (psPos s) /\ psType s' = psType s /\ psRot s' = psRot s.
Proof.
  unfold transform_shape, mat_decompose. cbv zeta. cbn [psSize psPos psType psRot]. split; [|split; [apply scale_apply|split; reflexivity]].
  unfold decomp_scale, v3len, v3lensqr, v3dot, mat_scale; mproj; rnum.
  replace (x * x + 0 * 0 + 0 * 0) with (x * x) by ring. replace (0 * 0 + y * y + 0 * 0) with (y * y) by ring. replace (0 * 0 + 0 * 0 + z * z) with (z * z) by ring.
  change (@nsqrt R RNum) with sqrt. rewrite !len_axis. f_equal; rewrite Rabs_mult; f_equal; try apply Rabs_Rabsolu.
  match goal with |- Rabs (if ?b then _ else _) = _ => destruct b end; [rewrite Rabs_Ropp|]; apply Rabs_Rabsolu.
Qed.

(** The rotation that does not survive. *)
Lemma bad_angles : get_rotation (mkV3 0 90 90) = bad_rotation.
Proof.
  unfold get_rotation, euler_to_quat, v3scale, bad_rotation; mproj; rnum; cbn [eang eord]; mproj.
  pose proof PI_neq0. replace (0 * (PI / 180) / 2) with 0 by field. replace (90 * (PI / 180) / 2) with (PI / 4) by field.
  rewrite sin_0, cos_0, sin_PI4, cos_PI4. assert (Q : sqrt 2 * sqrt 2 = 2) by (apply sqrt_sqrt; lra). assert (P : sqrt 2 <> 0) by (intros E; rewrite E in Q; lra).
  assert (Q2 : 1 / sqrt 2 * (1 / sqrt 2) = 1 / 2) by (replace (1 / sqrt 2 * (1 / sqrt 2)) with (1 / (sqrt 2 * sqrt 2)) by (field; exact P); rewrite Q; reflexivity).
  comps; replace (1 / 2) with (1 / sqrt 2 * (1 / sqrt 2)) by exact Q2; ring.
Qed.
