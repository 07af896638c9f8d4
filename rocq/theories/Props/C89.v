(** C89: colliders of a Unity scene become rigid bodies. *)
From Coq Require Import String List ZArith Reals Lra Lia Bool.
From Verif.Model Require Import Num NumR Vec Matrix Euler Mqo MqoDoc MqoTransform Unity UnityShape Unity2Mqo.
From Verif.Spec Require Import GeomSpec UnitySpec SceneSpec TransformSpec ColliderSpec.
From Verif.Proofs Require Import MatrixLemmas DecomposeProofs EulerProofs RotationProofs TransformProofs UnityProofs SceneProofs SceneMore SceneBodies.
Import ListNotations.
Local Open Scope string_scope.
Local Open Scope list_scope.
Local Open Scope R_scope.

(** One body for each object with a transform and colliders, in the order of the objects, for that object, with its mass and one shape for each collider.  Boxes, spheres and capsules
    are in place; if nothing is stretched, they have their size and their axes.  Partial: the place is that of the mirrored centre, and meshes have no size; see below. *)
Theorem C89_bodies_partial : forall scale load import sc fuel roots st, convert scale true load import fuel sc roots = Some st ->
  exists vs oss, walks sc [] true (map Some roots) vs /\ uObjs st = concat oss /\ blocks scale load import sc (uMats st) 0 vs oss /\ body_list scale sc vs oss (uBodies st).
Proof. exact convert_bodies. Qed.
Print Assumptions C89_bodies_partial.
(** Without the option there are none. *)
Theorem C89_none : forall scale load import sc fuel roots st, convert scale false load import fuel sc roots = Some st -> uBodies st = [].
Proof. exact convert_no_bodies. Qed.
Print Assumptions C89_none.
(** The centre is in place, if it is not in front of or behind the object. *)
Theorem C89_centre_partial : forall scale path kind c size s, shape_at scale path kind c size s -> vz c = 0 -> psPos s = v3scale (mirror (place path c)) scale.
Proof.
  intros scale path kind c size s (_ & P & _) H. rewrite P. unfold doc_place. replace (mirror c) with c; [reflexivity|]. destruct c as [x y z]. cbn [vz] in H. subst z. unfold mirror; mproj; rnum; comps; ring.
Qed.
Print Assumptions C89_centre_partial.

Definition at_rest (sc : vec3 R) : transform R := mkTr (mkV3 0 0 0) (mkV4 0 0 0 1) sc None.
Definition solid (boxes : list (vec3 R * vec3 R)) (capsules : list (vec3 R * R * R * Z)) (meshes : list uref) : gobj := mkGO "solid" 1 None None None None boxes [] capsules meshes None.
Lemma rest_matrix sc : get_matrix (at_rest sc) = mat_trs (mkV3 0 0 0) (mkV4 0 0 0 1) sc.
Proof.
  rewrite get_matrix_trs. replace (mirror (tPos (at_rest sc))) with (mkV3 0 0 0) by (unfold mirror, at_rest; cbn [tPos]; mproj; rnum; comps; ring).
  replace (mirrored_turn (at_rest sc)) with (mkV4 0 0 0 1) by (unfold mirrored_turn, at_rest; cbn [tRot]; mproj; comps; ring). reflexivity.
Qed.
Lemma rest_place sc v : place [at_rest sc] v = mkV3 (vx sc * vx v) (vy sc * vy v) (vz sc * vz v).
Proof.
  change (place [at_rest sc] v) with (unity_local (at_rest sc) v). destruct sc as [a b c], v as [x y z]. unfold unity_local, unity_turn, at_rest. cbn [tPos tRot tScale]. unfold v3add, v3scale, v3cross; mproj; rnum; comps; ring.
Qed.
Lemma rest_decompose sc : 0 < vx sc -> 0 < vy sc -> 0 < vz sc -> exists t q, mat_decompose (get_matrix (at_rest sc)) = (t, q, sc).
Proof.
  intros X Y Z. rewrite rest_matrix. pose proof (decompose_positive (mkV3 0 0 0) (mkV4 0 0 0 1) sc ltac:(unfold unit_quat; mproj; ring) X Y Z) as D. destruct (mat_decompose _) as [[t q] s]. destruct D as (_ & -> & _). eauto.
Qed.

(** Refuted: a box with its centre one unit in front of the object is one unit behind it. *)
Theorem C89_centre_refuted : exists s, collider_shapes 1 (solid [(mkV3 0 0 1, mkV3 1 1 1)] [] []) (get_matrix (at_rest (mkV3 1 1 1))) = [s] /\
  place [at_rest (mkV3 1 1 1)] (mkV3 0 0 1) = mkV3 0 0 1 /\ psPos s = mkV3 0 0 1 /\ mirror (mkV3 0 0 1) = mkV3 0 0 (-1).
Proof.
  assert (P : mat_apply (get_matrix (at_rest (mkV3 1 1 1))) (mkV3 0 0 1) = mkV3 0 0 1).
  { rewrite rest_matrix, mat_trs_apply by (unfold unit_quat; mproj; ring). unfold qapply, v3add; mproj; rnum; comps; ring. }
  destruct (rest_decompose (mkV3 1 1 1)) as (t & q & D); [cbn [vx]; lra|cbn [vy]; lra|cbn [vz]; lra|].
  exists (mkPS "BOX" (v3scale (mkV3 1 1 1) (1 * / 2)) (mat_apply (get_matrix (at_rest (mkV3 1 1 1))) (mkV3 0 0 1)) (eang (euler_of_quat q ZXY))). split; [unfold collider_shapes; rewrite D; reflexivity|]. split; [|split].
  - rewrite rest_place. mproj. comps; ring.
  - cbn [psPos]. exact P.
  - unfold mirror; mproj; rnum; comps; ring.
Qed.
Print Assumptions C89_centre_refuted.
(** Refuted: a plank of size 1 that is stretched four times in one direction is a cube; it takes the scale of the x axis for all. *)
Theorem C89_stretched_refuted : exists s, collider_shapes 1 (solid [(mkV3 0 0 0, mkV3 1 1 1)] [] []) (get_matrix (at_rest (mkV3 1 4 1))) = [s] /\ psSize s = mkV3 (/ 2) (/ 2) (/ 2) /\
  place [at_rest (mkV3 1 4 1)] (mkV3 0 (/ 2) 0) = mkV3 0 2 0.
Proof.
  destruct (rest_decompose (mkV3 1 4 1)) as (t & q & D); [cbn [vx]; lra|cbn [vy]; lra|cbn [vz]; lra|]. eexists. split; [unfold collider_shapes; rewrite D; reflexivity|]. split.
  - cbn [psSize snd]. unfold v3scale; mproj; rnum; comps; field.
  - rewrite rest_place. mproj. comps; field.
Qed.
Print Assumptions C89_stretched_refuted.
(** Refuted: the mesh of a cube as collider is twice as large as the same cube as a box (sizes of boxes are half extents), and has the same size whatever the scale of the object. *)
Theorem C89_mesh_refuted : exists r, mesh_name r = Some "Cube" /\
  (exists b s, collider_shapes 1 (solid [(mkV3 0 0 0, mkV3 1 1 1)] [] [r]) (get_matrix (at_rest (mkV3 1 1 1))) = [b; s] /\ psSize b = mkV3 (/ 2) (/ 2) (/ 2) /\ psSize s = mkV3 1 1 1) /\
  (forall k, 0 < k -> exists s, collider_shapes 1 (solid [] [] [r]) (get_matrix (at_rest (mkV3 k k k))) = [s] /\ psSize s = mkV3 1 1 1).
Proof.
  exists (mkRef 10202 "0000000000000000e000000000000000" 0). split; [reflexivity|]. split.
  - destruct (rest_decompose (mkV3 1 1 1)) as (t & q & D); [cbn [vx]; lra|cbn [vy]; lra|cbn [vz]; lra|]. eexists _, _. split; [unfold collider_shapes; rewrite D; reflexivity|]. split; [|reflexivity]. cbn [psSize snd]. unfold v3scale; mproj; rnum; comps; field.
  - intros k K. destruct (rest_decompose (mkV3 k k k)) as (t & q & D); [exact K..|]. eexists. split; [unfold collider_shapes; rewrite D; reflexivity|reflexivity].
Qed.
Print Assumptions C89_mesh_refuted.
(** Refuted: a capsule that lies (direction 0 is x) stands like one with direction 1. *)
Theorem C89_capsule_refuted : forall scale c r h m d d', collider_shapes scale (solid [] [(c, r, h, d)] []) m = collider_shapes scale (solid [] [(c, r, h, d')] []) m.
Proof. reflexivity. Qed.
Print Assumptions C89_capsule_refuted.
(** Refuted: the angles are for the order Z, X, Y; shapes are read with the order X, Y, Z (C83; mqo/bone_plugin.go 303). *)
Theorem C89_order_refuted : exists t s, even t /\ upright [t] /\ collider_shapes 1 (solid [(mkV3 0 0 0, mkV3 1 1 1)] [] []) (get_matrix t) = [s] /\ shape_axis s (mkV3 1 0 0) <> turned [t] (mkV3 1 0 0).
Proof.
  set (t := mkTr (mkV3 0 0 0) (mkV4 (- (1 / 2)) (- (1 / 2)) (1 / 2) (1 / 2)) (mkV3 1 1 1) None). assert (Ev : even t) by (unfold even, t, unit_quat; cbn [tRot tScale]; mproj; split; [field|split; [reflexivity|lra]]).
  assert (M : mirrored_turn t = bad_rotation) by (unfold mirrored_turn, bad_rotation, t; cbn [tRot]; mproj; comps; field). destruct set_get_bad as (U & B1 & _).
  assert (PQ : forall v, turned [t] v = qapply bad_rotation v).
  { intros v. rewrite <- path_quat_turned by (constructor; [exact Ev|constructor]). cbn [path_quat fold_right]. rewrite M, qapply_mul. destruct v. unfold qapply at 2. mproj; rnum. apply f_equal. comps; ring. }
  assert (Y : turned [t] (mkV3 0 1 0) = mkV3 0 0 1) by (rewrite PQ; unfold qapply, bad_rotation; mproj; rnum; comps; field).
  pose proof (decompose_positive (mirror (tPos t)) (mirrored_turn t) (mkV3 1 1 1) ltac:(rewrite M; exact U) ltac:(cbn [vx]; lra) ltac:(cbn [vy]; lra) ltac:(cbn [vz]; lra)) as D. change (mkV3 1 1 1) with (tScale t) in D at 1. rewrite <- get_matrix_trs in D.
  destruct (mat_decompose (get_matrix t)) as [[p q] s0] eqn:Ed. destruct D as (_ & -> & D). exists t. eexists. split; [exact Ev|]. split; [unfold upright; rewrite Y; cbn [vz]; right; apply Rabs_right; lra|]. split; [unfold collider_shapes; rewrite Ed; reflexivity|].
  unfold shape_axis. cbn [psRot]. rewrite PQ, B1. assert (E : mat_rot q = mkM 0 1 0 0 0 0 1 0 1 0 0 0 0 0 0 1).
  { rewrite (same_rotation_mat (mirrored_turn t) q D), M. unfold mat_rot, bad_rotation; mproj; rnum; comps; field. }
  assert (A : eang (euler_of_quat q ZXY) = mkV3 (PI / 2) 0 (PI / 2)).
  { unfold euler_of_quat, euler_of_matrix. rewrite E; cbv zeta; mproj. assert (B : Rltb (Rabs 1) (1 - euler_eps) = false) by (apply Rltb_false; rewrite Rabs_right by lra; unfold euler_eps; lra).
    rewrite B; cbn [eang]. rewrite clamp1_id, asin_1 by lra. unfold atan2. rewrite (proj2 (Reqb_false 1 0)) by lra. rewrite (proj2 (Reqb_true 0 0) eq_refl), (proj2 (Rltb_true 0 1)) by lra. reflexivity. }
  rewrite A, euler_to_quat_turns. unfold turn_y, turn_x, turn_z; mproj. rewrite sin_0, cos_0, sin_PI2, cos_PI2. intros H. injection H. intros. lra.
Qed.
Print Assumptions C89_order_refuted.

(** A ball of radius 2 on an object that is twice as large. *)
Example C89_example : exists st b, convert 10 true (fun _ => None) no_import 1 [mkGO "ball" 1 (Some (mkTr (mkV3 0 1 0) (mkV4 0 0 0 1) (mkV3 2 2 2) None, [])) None None None [] [(mkV3 0 0 0, 2)] [] [] (Some (5, 0%Z))] [0%nat] = Some st /\
  uBodies st = [b] /\ ubName b = "ball" /\ ubTarget b = 1%Z /\ ubMass b = 5 /\ ubKinematic b = false /\ map psType (ubShapes b) = ["SPHERE"].
Proof. eexists _, _. split; [reflexivity|]. split; [reflexivity|]. repeat split; reflexivity. Qed.
Example C89_example_even : even (mkTr (mkV3 0 1 0) (mkV4 0 0 0 1) (mkV3 2 2 2) None) /\ upright [mkTr (mkV3 0 1 0) (mkV4 0 0 0 1) (mkV3 2 2 2) None] /\ path_scale [mkTr (mkV3 0 1 0) (mkV4 0 0 0 1) (mkV3 2 2 2) None] = 2.
Proof.
  split; [unfold even, unit_quat; cbn [tRot tScale]; mproj; split; [ring|split; [reflexivity|lra]]|]. split; [|unfold path_scale; cbn [fold_right tScale vx]; ring].
  left. assert (Z : forall v, unity_turn (mkV4 0 0 0 1) v = v) by (intros [x y z]; unfold unity_turn, v3add, v3scale, v3cross; mproj; rnum; comps; ring).
  unfold turned. cbn [fold_right tRot]. rewrite Z, mirror_twice. cbn [vz]. rewrite Rabs_R0. unfold euler_eps. lra.
Qed.
