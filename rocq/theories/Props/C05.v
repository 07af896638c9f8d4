(** C05: Euler angles extracted from a rotation describe that rotation (exact arithmetic). *)
From Coq Require Import Reals Lra.
From Verif.Model Require Import Num NumR Vec Matrix Euler.
From Verif.Spec Require Import GeomSpec.
From Verif.Proofs Require Import MatrixLemmas EulerProofs.
Local Open Scope R_scope.

(** [mid_entry o m] is the sine (up to sign) of the middle angle for the order [o]. *)
Theorem C05_round_trip (q : vec4 R) (o : rot_order) (v : vec3 R) :
  unit_quat q ->
  Rabs (match o with XYZ => m8 (mat_rot q) | YXZ => m9 (mat_rot q)
                   | ZXY => m6 (mat_rot q) | ZYX => m2 (mat_rot q) end) < 1 - / 100000000 ->
  mat_rot (euler_to_quat (euler_of_quat q o)) = mat_rot q /\
  qapply (euler_to_quat (euler_of_quat q o)) v = qapply q v.
Proof. exact (fun U G => euler_round_trip_both q o v U (or_introl G)). Qed.
Print Assumptions C05_round_trip.

(** It also holds exactly at the pole. *)
Theorem C05_round_trip_pole (q : vec4 R) (o : rot_order) (v : vec3 R) :
  unit_quat q ->
  Rabs (match o with XYZ => m8 (mat_rot q) | YXZ => m9 (mat_rot q)
                   | ZXY => m6 (mat_rot q) | ZYX => m2 (mat_rot q) end) = 1 ->
  mat_rot (euler_to_quat (euler_of_quat q o)) = mat_rot q /\
  qapply (euler_to_quat (euler_of_quat q o)) v = qapply q v.
Proof. exact (fun U G => euler_round_trip_both q o v U (or_intror G)). Qed.
Print Assumptions C05_round_trip_pole.

(** [ToQuaternion] is a unit quaternion and turns about the three axes in the order's sequence
    (the last-named axis first). *)
Theorem C05_to_quaternion (a : vec3 R) (o : rot_order) (v : vec3 R) :
  unit_quat (euler_to_quat (mkE a o)) /\
  qapply (euler_to_quat (mkE a o)) v =
  match o with
  | XYZ => turn_x (vx a) (turn_y (vy a) (turn_z (vz a) v))
  | YXZ => turn_y (vy a) (turn_x (vx a) (turn_z (vz a) v))
  | ZXY => turn_z (vz a) (turn_x (vx a) (turn_y (vy a) v))
  | ZYX => turn_z (vz a) (turn_y (vy a) (turn_x (vx a) v))
  end.
Proof. exact (conj (euler_to_quat_unit (mkE a o)) (euler_to_quat_turns o a v)). Qed.
Print Assumptions C05_to_quaternion.

(** A rotation with all angles non-trivial that is outside the guard band for all four orders. *)
Example C05_in_domain (o : rot_order) :
  let q := mkV4 (1/10) (1/10) (7/10) (7/10) in
  unit_quat q /\
  Rabs (match o with XYZ => m8 (mat_rot q) | YXZ => m9 (mat_rot q)
                   | ZXY => m6 (mat_rot q) | ZYX => m2 (mat_rot q) end) < 1 - / 100000000.
Proof.
  split; [unfold unit_quat; mproj; lra|].
  destruct o; unfold mat_rot; mproj; rnum; apply Rabs_def1; lra.
Qed.
(** And one at the pole. *)
Example C05_at_pole : let q := mkV4 (1/2) (1/2) (1/2) (1/2) in unit_quat q /\ Rabs (m6 (mat_rot q)) = 1.
Proof.
  split; [unfold unit_quat; mproj; lra|]. unfold mat_rot; mproj; rnum.
  replace ((1 + 1) * (1 / 2) * (1 / 2) + (1 + 1) * (1 / 2) * (1 / 2)) with 1 by field. apply Rabs_right; lra.
Qed.
