(** [geom/vector2.go], [geom/vector3.go], [geom/quaternion.go]: vectors and quaternions. *)
From Verif.Model Require Import Num.

Section Vec.
Context {T : Type} {N : Num T}.

Local Infix "+" := nadd. Local Infix "-" := nsub. Local Infix "*" := nmul.
Local Infix "/" := ndiv. Local Notation "- x" := (nopp x).

(** geom/vector2.go:5-8 *)
Record vec2 := mkV2 { v2x : T; v2y : T }.
(** geom/vector3.go:7-11 *)
Record vec3 := mkV3 { vx : T; vy : T; vz : T }.
(** geom/quaternion.go:5-10; [type Quaternion = Vector4] (73) *)
Record vec4 := mkV4 { qx : T; qy : T; qz : T; qw : T }.

(** geom/vector3.go:25-27 *)
Definition v3add (a b : vec3) : vec3 := mkV3 (vx a + vx b) (vy a + vy b) (vz a + vz b).
(** geom/vector3.go:29-31 *)
Definition v3sub (a b : vec3) : vec3 := mkV3 (vx a - vx b) (vy a - vy b) (vz a - vz b).
(** geom/vector3.go:33-35 *)
Definition v3dot (a b : vec3) : T := vx a * vx b + vy a * vy b + vz a * vz b.
(** geom/vector3.go:37-43 *)
Definition v3cross (a b : vec3) : vec3 :=
  mkV3 (vy a * vz b - vz a * vy b) (vz a * vx b - vx a * vz b) (vx a * vy b - vy a * vx b).
(** geom/vector3.go:45-47 *)
Definition v3scale (a : vec3) (s : T) : vec3 := mkV3 (vx a * s) (vy a * s) (vz a * s).
(** geom/vector3.go:49-51; the float64 round trip of the square root is not modelled *)
Definition v3len (a : vec3) : T := nsqrt (vx a * vx a + vy a * vy a + vz a * vz a).
(** geom/vector3.go:53-55 *)
Definition v3lensqr (a : vec3) : T := vx a * vx a + vy a * vy a + vz a * vz a.
(** geom/vector3.go:57-67; mutates and returns the receiver, here: returns the new value *)
Definition v3normalize (a : vec3) : vec3 :=
  let l := v3len a in
  if nltb nzero l then mkV3 (vx a / l) (vy a / l) (vz a / l)
  else mkV3 none (vy a) (vz a).

(** geom/vector2.go:14-32 *)
Definition v2add (a b : vec2) : vec2 := mkV2 (v2x a + v2x b) (v2y a + v2y b).
Definition v2sub (a b : vec2) : vec2 := mkV2 (v2x a - v2x b) (v2y a - v2y b).
Definition v2scale (a : vec2) (s : T) : vec2 := mkV2 (v2x a * s) (v2y a * s).
Definition v2dot (a b : vec2) : T := v2x a * v2x b + v2y a * v2y b.
Definition v2cross (a b : vec2) : T := v2x a * v2y b - v2y a * v2x b.
(** geom/vector2.go:34-36 *)
Definition v2len (a : vec2) : T := nsqrt (v2x a * v2x a + v2y a * v2y a).
(** geom/vector2.go:42-51 *)
Definition v2normalize (a : vec2) : vec2 :=
  let l := v2len a in
  if nltb nzero l then mkV2 (v2x a / l) (v2y a / l) else mkV2 none (v2y a).

(** geom/quaternion.go:16-30 *)
Definition v4add (a b : vec4) : vec4 :=
  mkV4 (qx a + qx b) (qy a + qy b) (qz a + qz b) (qw a + qw b).
Definition v4sub (a b : vec4) : vec4 :=
  mkV4 (qx a - qx b) (qy a - qy b) (qz a - qz b) (qw a - qw b).
Definition v4scale (a : vec4) (s : T) : vec4 := mkV4 (qx a * s) (qy a * s) (qz a * s) (qw a * s).
Definition v4dot (a b : vec4) : T := qx a * qx b + qy a * qy b + qz a * qz b + qw a * qw b.
(** geom/quaternion.go:32-34 *)
Definition v4len (a : vec4) : T :=
  nsqrt (qx a * qx a + qy a * qy a + qz a * qz a + qw a * qw a).
(** geom/quaternion.go:40-51 *)
Definition v4normalize (a : vec4) : vec4 :=
  let l := v4len a in
  if nltb nzero l then mkV4 (qx a / l) (qy a / l) (qz a / l) (qw a / l)
  else mkV4 (qx a) (qy a) (qz a) none.

(** geom/quaternion.go:64-71, Hamilton product [a.Mul(b)] *)
Definition qmul (a b : vec4) : vec4 :=
  mkV4 (qw a * qx b + qx a * qw b + qy a * qz b - qz a * qy b)
       (qw a * qy b - qx a * qz b + qy a * qw b + qz a * qx b)
       (qw a * qz b + qx a * qy b - qy a * qx b + qz a * qw b)
       (qw a * qw b - qx a * qx b - qy a * qy b - qz a * qz b).
(** geom/quaternion.go:83-85 *)
Definition qinv (a : vec4) : vec4 := mkV4 (- qx a) (- qy a) (- qz a) (qw a).
(** geom/quaternion.go:87-99 *)
Definition qapply (q : vec4) (v : vec3) : vec3 :=
  let ix := qw q * vx v + qy q * vz v - qz q * vy v in
  let iy := qw q * vy v + qz q * vx v - qx q * vz v in
  let iz := qw q * vz v + qx q * vy v - qy q * vx v in
  let iw := - qx q * vx v - qy q * vy v - qz q * vz v in
  mkV3 (ix * qw q + iw * - qx q + iy * - qz q - iz * - qy q)
       (iy * qw q + iw * - qy q + iz * - qx q - ix * - qz q)
       (iz * qw q + iw * - qz q + ix * - qy q - iy * - qx q).
End Vec.

Arguments vec2 T : clear implicits.
Arguments vec3 T : clear implicits.
Arguments vec4 T : clear implicits.
