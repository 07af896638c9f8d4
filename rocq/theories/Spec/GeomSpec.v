(** Notions used to state the geometric properties, over exact reals. *)
From Coq Require Import Reals.
From Verif.Model Require Import Num NumR Vec Matrix.
Local Open Scope R_scope.

(** Last row 0 0 0 1: the matrices that represent translations, rotations, scalings and shears. *)
Definition affine (m : mat4 R) : Prop := m3 m = 0 /\ m7 m = 0 /\ m11 m = 0 /\ m15 m = 1.

Definition unit_quat (q : vec4 R) : Prop :=
  qx q * qx q + qy q * qy q + qz q * qz q + qw q * qw q = 1.

(** [q] and [-q] describe the same rotation. *)
Definition same_rotation (p q : vec4 R) : Prop := q = p \/ q = v4scale p (-1).

(** Rotations by an angle about a coordinate axis, right-handed, as they act on points. *)
Definition turn_x (a : R) (v : vec3 R) : vec3 R :=
  mkV3 (vx v) (cos a * vy v - sin a * vz v) (sin a * vy v + cos a * vz v).
Definition turn_y (a : R) (v : vec3 R) : vec3 R :=
  mkV3 (cos a * vx v + sin a * vz v) (vy v) (- sin a * vx v + cos a * vz v).
Definition turn_z (a : R) (v : vec3 R) : vec3 R :=
  mkV3 (cos a * vx v - sin a * vy v) (sin a * vx v + cos a * vy v) (vz v).

(** Unit quaternions of the same rotations. *)
Definition q_turn_x (a : R) : vec4 R := mkV4 (sin (a / 2)) 0 0 (cos (a / 2)).
Definition q_turn_y (a : R) : vec4 R := mkV4 0 (sin (a / 2)) 0 (cos (a / 2)).
Definition q_turn_z (a : R) : vec4 R := mkV4 0 0 (sin (a / 2)) (cos (a / 2)).
