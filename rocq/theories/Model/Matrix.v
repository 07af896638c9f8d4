(** [geom/matrix4.go]: 4x4 matrices, column-major, over an arbitrary scalar type. *)
From Verif.Model Require Import Num Vec.

Section Matrix.
Context {T : Type} {N : Num T}.

Local Infix "+" := nadd. Local Infix "-" := nsub. Local Infix "*" := nmul.
Local Infix "/" := ndiv. Local Notation "- x" := (nopp x).
Local Notation "0" := nzero. Local Notation "1" := none.
Local Notation "2" := (nadd none none).

(** geom/matrix4.go:5-6; [m5] is the Go element [m[5]] *)
Record mat4 := mkM { m0 : T; m1 : T; m2 : T; m3 : T; m4 : T; m5 : T; m6 : T; m7 : T; m8 : T; m9 : T; m10 : T; m11 : T; m12 : T; m13 : T; m14 : T; m15 : T }.

(** geom/matrix4.go:8-15 *)
Definition mat_id : mat4 := mkM 1 0 0 0  0 1 0 0  0 0 1 0  0 0 0 1.
(** [&Matrix4{}], the zero matrix *)
Definition mat_zero : mat4 := mkM 0 0 0 0  0 0 0 0  0 0 0 0  0 0 0 0.
(** geom/matrix4.go:27-34 *)
Definition mat_scale (x y z : T) : mat4 := mkM x 0 0 0  0 y 0 0  0 0 z 0  0 0 0 1.
(** geom/matrix4.go:36-43 *)
Definition mat_translate (x y z : T) : mat4 := mkM 1 0 0 0  0 1 0 0  0 0 1 0  x y z 1.
(** geom/matrix4.go:45-58 *)
Definition mat_rot (q : vec4 T) : mat4 :=
  let x := qx q in let y := qy q in let z := qz q in let w := qw q in
  mkM (1 - 2*y*y - 2*z*z) (2*x*y + 2*z*w) (2*x*z - 2*y*w) 0
      (2*x*y - 2*z*w) (1 - 2*x*x - 2*z*z) (2*y*z + 2*x*w) 0
      (2*x*z + 2*y*w) (2*y*z - 2*x*w) (1 - 2*x*x - 2*y*y) 0
      0 0 0 1.

(** geom/matrix4.go:87-110, [b.Mul(a)] *)
Definition mat_mul (b a : mat4) : mat4 :=
  mkM
    (m0 a * m0 b + m1 a * m4 b + m2 a * m8 b + m3 a * m12 b)
    (m0 a * m1 b + m1 a * m5 b + m2 a * m9 b + m3 a * m13 b)
    (m0 a * m2 b + m1 a * m6 b + m2 a * m10 b + m3 a * m14 b)
    (m0 a * m3 b + m1 a * m7 b + m2 a * m11 b + m3 a * m15 b)
    (m4 a * m0 b + m5 a * m4 b + m6 a * m8 b + m7 a * m12 b)
    (m4 a * m1 b + m5 a * m5 b + m6 a * m9 b + m7 a * m13 b)
    (m4 a * m2 b + m5 a * m6 b + m6 a * m10 b + m7 a * m14 b)
    (m4 a * m3 b + m5 a * m7 b + m6 a * m11 b + m7 a * m15 b)
    (m8 a * m0 b + m9 a * m4 b + m10 a * m8 b + m11 a * m12 b)
    (m8 a * m1 b + m9 a * m5 b + m10 a * m9 b + m11 a * m13 b)
    (m8 a * m2 b + m9 a * m6 b + m10 a * m10 b + m11 a * m14 b)
    (m8 a * m3 b + m9 a * m7 b + m10 a * m11 b + m11 a * m15 b)
    (m12 a * m0 b + m13 a * m4 b + m14 a * m8 b + m15 a * m12 b)
    (m12 a * m1 b + m13 a * m5 b + m14 a * m9 b + m15 a * m13 b)
    (m12 a * m2 b + m13 a * m6 b + m14 a * m10 b + m15 a * m14 b)
    (m12 a * m3 b + m13 a * m7 b + m14 a * m11 b + m15 a * m15 b).

(** geom/matrix4.go:113-117 and 124-128 *)
Definition mat_t11 (m : mat4) : T := m9 m * m14 m * m7 m - m13 m * m10 m * m7 m + m13 m * m6 m * m11 m - m5 m * m14 m * m11 m - m9 m * m6 m * m15 m + m5 m * m10 m * m15 m.
Definition mat_t12 (m : mat4) : T := m12 m * m10 m * m7 m - m8 m * m14 m * m7 m - m12 m * m6 m * m11 m + m4 m * m14 m * m11 m + m8 m * m6 m * m15 m - m4 m * m10 m * m15 m.
Definition mat_t13 (m : mat4) : T := m8 m * m13 m * m7 m - m12 m * m9 m * m7 m + m12 m * m5 m * m11 m - m4 m * m13 m * m11 m - m8 m * m5 m * m15 m + m4 m * m9 m * m15 m.
Definition mat_t14 (m : mat4) : T := m12 m * m9 m * m6 m - m8 m * m13 m * m6 m - m12 m * m5 m * m10 m + m4 m * m13 m * m10 m + m8 m * m5 m * m14 m - m4 m * m9 m * m14 m.
(** geom/matrix4.go:112-121 *)
Definition mat_det (m : mat4) : T :=
  m0 m * mat_t11 m + m1 m * mat_t12 m + m2 m * mat_t13 m + m3 m * mat_t14 m.

(** geom/matrix4.go:123-155 *)
Definition mat_inverse (m : mat4) : mat4 :=
  let det := mat_det m in
  if neqb det 0 then mat_zero else
  mkM
    ((mat_t11 m) / det)
    (((m13 m * m10 m * m3 m - m9 m * m14 m * m3 m - m13 m * m2 m * m11 m + m1 m * m14 m * m11 m + m9 m * m2 m * m15 m - m1 m * m10 m * m15 m)) / det)
    (((m5 m * m14 m * m3 m - m13 m * m6 m * m3 m + m13 m * m2 m * m7 m - m1 m * m14 m * m7 m - m5 m * m2 m * m15 m + m1 m * m6 m * m15 m)) / det)
    (((m9 m * m6 m * m3 m - m5 m * m10 m * m3 m - m9 m * m2 m * m7 m + m1 m * m10 m * m7 m + m5 m * m2 m * m11 m - m1 m * m6 m * m11 m)) / det)
    ((mat_t12 m) / det)
    (((m8 m * m14 m * m3 m - m12 m * m10 m * m3 m + m12 m * m2 m * m11 m - m0 m * m14 m * m11 m - m8 m * m2 m * m15 m + m0 m * m10 m * m15 m)) / det)
    (((m12 m * m6 m * m3 m - m4 m * m14 m * m3 m - m12 m * m2 m * m7 m + m0 m * m14 m * m7 m + m4 m * m2 m * m15 m - m0 m * m6 m * m15 m)) / det)
    (((m4 m * m10 m * m3 m - m8 m * m6 m * m3 m + m8 m * m2 m * m7 m - m0 m * m10 m * m7 m - m4 m * m2 m * m11 m + m0 m * m6 m * m11 m)) / det)
    ((mat_t13 m) / det)
    (((m12 m * m9 m * m3 m - m8 m * m13 m * m3 m - m12 m * m1 m * m11 m + m0 m * m13 m * m11 m + m8 m * m1 m * m15 m - m0 m * m9 m * m15 m)) / det)
    (((m4 m * m13 m * m3 m - m12 m * m5 m * m3 m + m12 m * m1 m * m7 m - m0 m * m13 m * m7 m - m4 m * m1 m * m15 m + m0 m * m5 m * m15 m)) / det)
    (((m8 m * m5 m * m3 m - m4 m * m9 m * m3 m - m8 m * m1 m * m7 m + m0 m * m9 m * m7 m + m4 m * m1 m * m11 m - m0 m * m5 m * m11 m)) / det)
    ((mat_t14 m) / det)
    (((m8 m * m13 m * m2 m - m12 m * m9 m * m2 m + m12 m * m1 m * m10 m - m0 m * m13 m * m10 m - m8 m * m1 m * m14 m + m0 m * m9 m * m14 m)) / det)
    (((m12 m * m5 m * m2 m - m4 m * m13 m * m2 m - m12 m * m1 m * m6 m + m0 m * m13 m * m6 m + m4 m * m1 m * m14 m - m0 m * m5 m * m14 m)) / det)
    (((m4 m * m9 m * m2 m - m8 m * m5 m * m2 m + m8 m * m1 m * m6 m - m0 m * m9 m * m6 m - m4 m * m1 m * m10 m + m0 m * m5 m * m10 m)) / det).

(** geom/matrix4.go:157-164 *)
Definition mat_transposed (m : mat4) : mat4 :=
  mkM (m0 m) (m4 m) (m8 m) (m12 m)
      (m1 m) (m5 m) (m9 m) (m13 m)
      (m2 m) (m6 m) (m10 m) (m14 m)
      (m3 m) (m7 m) (m11 m) (m15 m).

(** geom/matrix4.go:23-25 *)
Definition mat_trs (t : vec3 T) (r : vec4 T) (s : vec3 T) : mat4 :=
  mat_mul (mat_translate (vx t) (vy t) (vz t))
          (mat_mul (mat_rot r) (mat_scale (vx s) (vy s) (vz s))).

(** geom/vector3.go:75-81 *)
Definition mat_apply (m : mat4) (v : vec3 T) : vec3 T :=
  mkV3 (m0 m * vx v + m4 m * vy v + m8 m * vz v + m12 m)
       (m1 m * vx v + m5 m * vy v + m9 m * vz v + m13 m)
       (m2 m * vx v + m6 m * vy v + m10 m * vz v + m14 m).

(** geom/matrix4.go:219-227 *)
Definition mat_translation_scale (m : mat4) (s : T) : mat4 :=
  mkM (m0 m) (m1 m) (m2 m) (m3 m) (m4 m) (m5 m) (m6 m) (m7 m)
      (m8 m) (m9 m) (m10 m) (m11 m) (m12 m * s) (m13 m * s) (m14 m * s) (m15 m).

(** geom/matrix4.go:176-213: the quaternion of the normalised 3x3 part *)
Definition rot_to_quat (m11 m12 m13 m21 m22 m23 m31 m32 m33 : T) : vec4 T :=
  let half := 1 / 2 in let quarter := 1 / (2 * 2) in
  let trace := m11 + m22 + m33 in
  if nltb 0 trace then
    let s := half / nsqrt (trace + 1) in
    mkV4 ((m32 - m23) * s) ((m13 - m31) * s) ((m21 - m12) * s) (quarter / s)
  else if andb (nltb m22 m11) (nltb m33 m11) then
    let s := 2 * nsqrt (1 + m11 - m22 - m33) in
    mkV4 (quarter * s) ((m12 + m21) / s) ((m13 + m31) / s) ((m32 - m23) / s)
  else if nltb m33 m22 then
    let s := 2 * nsqrt (1 + m22 - m11 - m33) in
    mkV4 ((m12 + m21) / s) (quarter * s) ((m23 + m32) / s) ((m13 - m31) / s)
  else
    let s := 2 * nsqrt (1 + m33 - m11 - m22) in
    mkV4 ((m13 + m31) / s) ((m23 + m32) / s) (quarter * s) ((m21 - m12) / s).

(** geom/matrix4.go:167-174 *)
Definition decomp_scale (m : mat4) : vec3 T :=
  let sx := v3len (mkV3 (m0 m) (m1 m) (m2 m)) in
  let sy := v3len (mkV3 (m4 m) (m5 m) (m6 m)) in
  let sz := v3len (mkV3 (m8 m) (m9 m) (m10 m)) in
  mkV3 (if nltb (mat_det m) 0 then - sx else sx) sy sz.

(** geom/matrix4.go:166-217: translation, rotation, scale *)
Definition mat_decompose (m : mat4) : vec3 T * vec4 T * vec3 T :=
  let s := decomp_scale m in
  (mkV3 (m12 m) (m13 m) (m14 m),
   rot_to_quat (m0 m / vx s) (m4 m / vy s) (m8 m / vz s)
               (m1 m / vx s) (m5 m / vy s) (m9 m / vz s)
               (m2 m / vx s) (m6 m / vy s) (m10 m / vz s),
   s).
End Matrix.

Arguments mat4 T : clear implicits.
