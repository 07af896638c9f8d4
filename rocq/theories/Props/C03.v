(** C03: quaternion rotation, matrix rotation and TRS agree (exact arithmetic). *)
From Coq Require Import Reals Lra.
From Verif.Model Require Import Num NumR Vec Matrix.
From Verif.Spec Require Import GeomSpec.
From Verif.Proofs Require Import MatrixLemmas EulerProofs.
Local Open Scope R_scope.

(** Rotations keep lengths, angles and orientation. *)
Theorem C03_rotation_isometry (q : vec4 R) (v w : vec3 R) :
  unit_quat q ->
  v3dot (qapply q v) (qapply q w) = v3dot v w /\
  qapply q (v3cross v w) = v3cross (qapply q v) (qapply q w).
Proof. exact (fun U => conj (qapply_dot q v w U) (qapply_cross q v w U)). Qed.
Print Assumptions C03_rotation_isometry.

Theorem C03_product (p q : vec4 R) (v : vec3 R) :
  qapply (qmul p q) v = qapply p (qapply q v) /\
  (unit_quat p -> unit_quat q -> unit_quat (qmul p q)).
Proof. exact (conj (qapply_mul p q v) (qmul_unit p q)). Qed.
Print Assumptions C03_product.

Theorem C03_inverse (q : vec4 R) (v : vec3 R) :
  unit_quat q ->
  qapply (qinv q) (qapply q v) = v /\ qapply q (qapply (qinv q) v) = v /\ unit_quat (qinv q).
Proof. exact (fun U => conj (qapply_inv q v U) (conj (qapply_inv' q v U) (qinv_unit q U))). Qed.
Print Assumptions C03_inverse.

Theorem C03_matrix (q : vec4 R) (v : vec3 R) :
  unit_quat q -> mat_apply (mat_rot q) v = qapply q v.
Proof. exact (mat_rot_apply q v). Qed.
Print Assumptions C03_matrix.

Theorem C03_matrix_product (p q : vec4 R) :
  unit_quat p -> unit_quat q -> mat_rot (qmul p q) = mat_mul (mat_rot p) (mat_rot q).
Proof. exact (mat_rot_mul p q). Qed.
Print Assumptions C03_matrix_product.

Theorem C03_trs (t : vec3 R) (r : vec4 R) (s v : vec3 R) :
  unit_quat r ->
  mat_apply (mat_trs t r s) v =
  v3add t (qapply r (mkV3 (vx s * vx v) (vy s * vy v) (vz s * vz v))).
Proof. exact (mat_trs_apply t r s v). Qed.
Print Assumptions C03_trs.

(** The sense of rotation is the right-handed one about each axis. *)
Theorem C03_axis_sense (a : R) (v : vec3 R) :
  qapply (q_turn_x a) v = turn_x a v /\ qapply (q_turn_y a) v = turn_y a v /\
  qapply (q_turn_z a) v = turn_z a v.
Proof. exact (conj (q_turn_x_apply a v) (conj (q_turn_y_apply a v) (q_turn_z_apply a v))). Qed.
Print Assumptions C03_axis_sense.

Example C03_unit : unit_quat (mkV4 (1/2) (1/2) (-1/2) (1/2)).
Proof. unfold unit_quat; mproj; field. Qed.
Example C03_unit_family (a : R) : unit_quat (q_turn_y a).
Proof. exact (q_turn_y_unit a). Qed.
