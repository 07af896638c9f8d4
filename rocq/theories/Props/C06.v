(** C06: setting an object's rotation and reading it back.
    Full claim: for every unit quaternion q, [get_rotation (set_rotation q)] is the rotation q.
    It is false: SetRotation extracts ZXY angles, GetRotation composes them as YXZ. *)
From Coq Require Import Reals Lra.
From Verif.Model Require Import Num NumR Vec Matrix Euler.
From Verif.Spec Require Import GeomSpec.
From Verif.Proofs Require Import MatrixLemmas EulerProofs RotationProofs.
Local Open Scope R_scope.

Theorem C06_set_get_rotation_refuted :
  exists q v, unit_quat q /\ qapply q v = mkV3 0 1 0 /\
              qapply (get_rotation (set_rotation q)) v = mkV3 0 0 1.
Proof. exact (ex_intro _ bad_rotation (ex_intro _ (mkV3 1 0 0) set_get_bad)). Qed.
Print Assumptions C06_set_get_rotation_refuted.

(** What the pair does in general: the same three angles in the opposite order. *)
Theorem C06_set_get_order (q : vec4 R) (v : vec3 R) :
  unit_quat q -> Rabs (m6 (mat_rot q)) < 1 - / 100000000 ->
  exists a, qapply q v = turn_z (vz a) (turn_x (vx a) (turn_y (vy a) v)) /\
            qapply (get_rotation (set_rotation q)) v = turn_y (vy a) (turn_x (vx a) (turn_z (vz a) v)).
Proof. exact (set_get_general q v). Qed.
Print Assumptions C06_set_get_order.

(** Rotations about a single axis survive. *)
Theorem C06_set_get_axis_y_partial (a : R) (v : vec3 R) :
  qapply (get_rotation (set_rotation (q_turn_y a))) v = turn_y a v.
Proof. exact (set_get_axis_y a v). Qed.
Print Assumptions C06_set_get_axis_y_partial.
Theorem C06_set_get_axis_z_partial (a : R) (v : vec3 R) :
  qapply (get_rotation (set_rotation (q_turn_z a))) v = turn_z a v.
Proof. exact (set_get_axis_z a v). Qed.
Print Assumptions C06_set_get_axis_z_partial.
Theorem C06_set_get_axis_x_partial (a : R) (v : vec3 R) :
  0 <= cos a \/ Rabs (sin a) < 1 - / 100000000 ->
  qapply (get_rotation (set_rotation (q_turn_x a))) v = turn_x a v.
Proof. exact (set_get_axis_x a v). Qed.
Print Assumptions C06_set_get_axis_x_partial.

(** Local transforms round-trip exactly for the rotations that do. *)
Theorem C06_local_transform_partial (t : vec3 R) (r : vec4 R) (s : vec3 R) :
  unit_quat r -> 0 < vx s -> 0 < vy s -> 0 < vz s ->
  (forall v, qapply (get_rotation (set_rotation r)) v = qapply r v) ->
  let '(t', rot', s') := set_local_transform (mat_trs t r s) in
  get_local_transform t' rot' s' = mat_trs t r s.
Proof. exact (local_transform_round_trip t r s). Qed.
Print Assumptions C06_local_transform_partial.

Example C06_local_hyp (a : R) :
  forall v, qapply (get_rotation (set_rotation (q_turn_y a))) v = qapply (q_turn_y a) v.
Proof. intro v. rewrite set_get_axis_y, q_turn_y_apply. reflexivity. Qed.
