(** [Object.SetRotation] / [GetRotation] (mqo/mqo.go:288-306) over exact reals. *)
From Coq Require Import Reals Lra Psatz.
From Verif.Model Require Import Num NumR Vec Matrix Euler.
From Verif.Spec Require Import GeomSpec.
From Verif.Proofs Require Import MatrixLemmas DecomposeProofs EulerProofs.
Local Open Scope R_scope.

Lemma degrees_cancel (v : vec3 R) : v3scale (v3scale v (180 / PI)) (PI / 180) = v.
Proof.
  destruct v; unfold v3scale; mproj; rnum. pose proof PI_neq0. comps; field; assumption.
Qed.

Lemma get_set_rotation q :
  get_rotation (set_rotation q) = euler_to_quat (mkE (eang (euler_of_quat q ZXY)) YXZ).
Proof. unfold get_rotation, set_rotation. rewrite degrees_cancel. reflexivity. Qed.

Lemma turn_x_0 v : turn_x 0 v = v.
Proof. destruct v; unfold turn_x; mproj; rewrite sin_0, cos_0; comps; ring. Qed.
Lemma turn_y_0 v : turn_y 0 v = v.
Proof. destruct v; unfold turn_y; mproj; rewrite sin_0, cos_0; comps; ring. Qed.
Lemma turn_z_0 v : turn_z 0 v = v.
Proof. destruct v; unfold turn_z; mproj; rewrite sin_0, cos_0; comps; ring. Qed.

Lemma asin_of_0 : asin (clamp1 0) = 0.
Proof. rewrite clamp1_id by lra. apply asin_0. Qed.
Lemma atan2_0_pos x : 0 <= x -> atan2 (- 0) x = 0.
Proof.
  intro H. unfold atan2. rewrite Ropp_0. rewrite (proj2 (Reqb_true 0 0) eq_refl).
  rewrite (proj2 (Rleb_true 0 x) H). reflexivity.
Qed.
Lemma atan2_0_neg x : x < 0 -> atan2 (- 0) x = PI.
Proof.
  intro H. unfold atan2. rewrite Ropp_0. rewrite (proj2 (Reqb_true 0 0) eq_refl).
  rewrite (proj2 (Rleb_false 0 x) H). reflexivity.
Qed.

Lemma guard_0 : Rltb (Rabs 0) (1 - euler_eps) = true.
Proof. apply Rltb_true. rewrite Rabs_R0. unfold euler_eps; lra. Qed.

Lemma axis_y_angles a :
  eang (euler_of_quat (q_turn_y a) ZXY) = mkV3 0 (atan2 (- - sin a) (cos a)) 0.
Proof.
  unfold euler_of_quat, euler_of_matrix. rewrite mat_rot_turn_y. unfold mat_turn_y; cbv zeta; mproj.
  rewrite guard_0. cbn [eang]. rewrite asin_of_0, (atan2_0_pos 1) by lra. reflexivity.
Qed.
Lemma axis_z_angles a :
  eang (euler_of_quat (q_turn_z a) ZXY) = mkV3 0 0 (atan2 (- - sin a) (cos a)).
Proof.
  unfold euler_of_quat, euler_of_matrix. rewrite mat_rot_turn_z. unfold mat_turn_z; cbv zeta; mproj.
  rewrite guard_0. cbn [eang]. rewrite asin_of_0, (atan2_0_pos 1) by lra. reflexivity.
Qed.

Lemma turn_y_atan2 a v : turn_y (atan2 (- - sin a) (cos a)) v = turn_y a v.
Proof.
  rewrite Ropp_involutive.
  destruct (atan2_spec (sin a) (cos a) 1 Rlt_0_1) as [S C]; [pose proof (sc1 a); lra|].
  unfold turn_y. rewrite S, C, !Rdiv_1. reflexivity.
Qed.
Lemma turn_z_atan2 a v : turn_z (atan2 (- - sin a) (cos a)) v = turn_z a v.
Proof.
  rewrite Ropp_involutive.
  destruct (atan2_spec (sin a) (cos a) 1 Rlt_0_1) as [S C]; [pose proof (sc1 a); lra|].
  unfold turn_z. rewrite S, C, !Rdiv_1. reflexivity.
Qed.

Lemma set_get_axis_y a v : qapply (get_rotation (set_rotation (q_turn_y a))) v = turn_y a v.
Proof.
  rewrite get_set_rotation, euler_to_quat_turns, axis_y_angles; mproj.
  rewrite turn_x_0, turn_z_0. apply turn_y_atan2.
Qed.
Lemma set_get_axis_z a v : qapply (get_rotation (set_rotation (q_turn_z a))) v = turn_z a v.
Proof.
  rewrite get_set_rotation, euler_to_quat_turns, axis_z_angles; mproj.
  rewrite turn_x_0, turn_y_0. apply turn_z_atan2.
Qed.

Lemma set_get_axis_x a v : 0 <= cos a \/ Rabs (sin a) < 1 - euler_eps ->
  qapply (get_rotation (set_rotation (q_turn_x a))) v = turn_x a v.
Proof.
  intro H. rewrite get_set_rotation, euler_to_quat_turns.
  unfold euler_of_quat, euler_of_matrix. rewrite mat_rot_turn_x. unfold mat_turn_x; cbv zeta; mproj.
  cbn [eang].
  pose proof (sc1 a) as S1.
  assert (RNG : -1 <= sin a <= 1) by (pose proof (SIN_bound a); lra).
  rewrite clamp1_id by exact RNG.
  assert (SS : sin (asin (sin a)) = sin a) by (apply sin_asin; exact RNG).
  assert (CC : cos (asin (sin a)) = Rabs (cos a)).
  { rewrite cos_asin by exact RNG. replace (1 - (sin a)²) with (Rsqr (cos a)).
    - apply sqrt_Rsqr_abs.
    - unfold Rsqr; lra. }
  destruct (Rltb (Rabs (sin a)) (1 - euler_eps)) eqn:B; mproj.
  - destruct (Rle_lt_dec 0 (cos a)) as [P|N].
    + rewrite !(atan2_0_pos (cos a)) by exact P. rewrite turn_z_0, turn_y_0.
      unfold turn_x. rewrite SS, CC, Rabs_right by lra. reflexivity.
    + rewrite !(atan2_0_neg (cos a)) by exact N.
      destruct v; unfold turn_y, turn_x, turn_z; mproj.
      rewrite SS, CC, Rabs_left, sin_PI, cos_PI by exact N. comps; ring.
  - apply Rltb_false in B. assert (P : 0 <= cos a) by (destruct H; lra).
    assert (Z : atan2 0 1 = 0) by (rewrite <- Ropp_0 at 1; apply atan2_0_pos; lra).
    rewrite Z, turn_z_0, turn_y_0. unfold turn_x. rewrite SS, CC, Rabs_right by lra. reflexivity.
Qed.

(** What the pair really does: the same three angles, applied in the opposite order. *)
Lemma set_get_general q v : unit_quat q ->
  Rabs (mid_entry ZXY (mat_rot q)) < 1 - euler_eps ->
  exists a, qapply q v = turn_z (vz a) (turn_x (vx a) (turn_y (vy a) v)) /\
            qapply (get_rotation (set_rotation q)) v = turn_y (vy a) (turn_x (vx a) (turn_z (vz a) v)).
Proof.
  intros U G. exists (eang (euler_of_quat q ZXY)). split.
  - rewrite <- (euler_to_quat_turns ZXY), <- euler_of_quat_eta.
    rewrite <- !mat_rot_apply by (exact U || apply euler_to_quat_unit).
    rewrite euler_round_trip by assumption. reflexivity.
  - rewrite get_set_rotation. apply (euler_to_quat_turns YXZ).
Qed.

Definition bad_rotation : vec4 R := mkV4 (1/2) (1/2) (1/2) (1/2).

Lemma set_get_bad : unit_quat bad_rotation /\
  qapply bad_rotation (mkV3 1 0 0) = mkV3 0 1 0 /\
  qapply (get_rotation (set_rotation bad_rotation)) (mkV3 1 0 0) = mkV3 0 0 1.
Proof.
  split; [unfold unit_quat, bad_rotation; mproj; field|]. split.
  { unfold qapply, bad_rotation; mproj; rnum; cbv zeta; comps; field. }
  rewrite get_set_rotation, euler_to_quat_turns.
  assert (E : mat_rot bad_rotation = mkM 0 1 0 0 0 0 1 0 1 0 0 0 0 0 0 1).
  { unfold mat_rot, bad_rotation; mproj; rnum; comps; field. }
  assert (A : eang (euler_of_quat bad_rotation ZXY) = mkV3 (PI / 2) 0 (PI / 2)).
  { unfold euler_of_quat, euler_of_matrix. rewrite E; cbv zeta; mproj.
    assert (B : Rltb (Rabs 1) (1 - euler_eps) = false)
      by (apply Rltb_false; rewrite Rabs_right by lra; unfold euler_eps; lra).
    rewrite B; cbn [eang]. rewrite clamp1_id, asin_1 by lra.
    unfold atan2. rewrite (proj2 (Reqb_false 1 0)) by lra. rewrite (proj2 (Reqb_true 0 0) eq_refl).
    rewrite (proj2 (Rltb_true 0 1)) by lra. reflexivity. }
  rewrite A; unfold turn_y, turn_x, turn_z; mproj.
  rewrite sin_0, cos_0, sin_PI2, cos_PI2. comps; ring.
Qed.

(** Local transforms. *)
Lemma same_action_same_matrix p q : unit_quat p -> unit_quat q ->
  (forall v, qapply p v = qapply q v) -> mat_rot p = mat_rot q.
Proof.
  intros Up Uq H.
  assert (X : forall v, mat_apply (mat_rot p) v = mat_apply (mat_rot q) v)
    by (intro v; rewrite !mat_rot_apply by assumption; apply H).
  rewrite (mat_rot_shape p), (mat_rot_shape q).
  remember (mat_rot p) as m; remember (mat_rot q) as n.
  assert (A12 : m12 m = 0 /\ m13 m = 0 /\ m14 m = 0 /\ m12 n = 0 /\ m13 n = 0 /\ m14 n = 0)
    by (subst; unfold mat_rot; mproj; rnum; repeat split; reflexivity).
  pose proof (X (mkV3 1 0 0)) as X1. pose proof (X (mkV3 0 1 0)) as X2. pose proof (X (mkV3 0 0 1)) as X3.
  unfold mat_apply in X1, X2, X3; mproj; rnum. injection X1; injection X2; injection X3; intros.
  comps; lra.
Qed.

Lemma mat_trs_rot t p q s : mat_rot p = mat_rot q -> mat_trs t p s = mat_trs t q s.
Proof. unfold mat_trs; intros ->; reflexivity. Qed.

Lemma set_rotation_sign q : set_rotation (v4scale q (-1)) = set_rotation q.
Proof.
  unfold set_rotation, euler_of_quat.
  rewrite (same_rotation_mat q (v4scale q (-1))) by (right; reflexivity). reflexivity.
Qed.

Lemma local_transform_round_trip t r s :
  unit_quat r -> 0 < vx s -> 0 < vy s -> 0 < vz s ->
  (forall v, qapply (get_rotation (set_rotation r)) v = qapply r v) ->
  let '(t', rot', s') := set_local_transform (mat_trs t r s) in
  get_local_transform t' rot' s' = mat_trs t r s.
Proof.
  intros U PX PY PZ H. unfold set_local_transform.
  pose proof (decompose_positive t r s U PX PY PZ) as D.
  destruct (mat_decompose (mat_trs t r s)) as [[t' r'] s'].
  destruct D as (-> & -> & D). unfold get_local_transform. apply mat_trs_rot.
  assert (E : set_rotation r' = set_rotation r) by (destruct D as [-> | ->]; [reflexivity | apply set_rotation_sign]).
  rewrite E. apply same_action_same_matrix; [apply euler_to_quat_unit | exact U | exact H].
Qed.
