(** [geom/euler.go] over exact reals.  [math.Sin], [Cos], [Asin] are the real functions;
    the conversions between float32 and float64 are not modelled. *)
From Coq Require Import Reals.
From Verif.Model Require Import Num NumR Vec Matrix.
Local Open Scope R_scope.

(** geom/euler.go:5-12 *)
Inductive rot_order := XYZ | YXZ | ZXY | ZYX.

(** geom/euler.go:14-17 *)
Record euler := mkE { eang : vec3 R; eord : rot_order }.

(** Go's [math.Atan2] on finite arguments (no signed zeros). *)
Definition atan2 (y x : R) : R :=
  if Reqb y 0 then (if Rleb 0 x then 0 else PI)
  else if Reqb x 0 then (if Rltb 0 y then PI / 2 else - (PI / 2))
  else let q := atan (y / x) in
       if Rltb x 0 then (if Rleb q 0 then q + PI else q - PI) else q.

(** [math.Max(-1, math.Min(x, 1))], geom/euler.go:37,47,57,67 *)
Definition clamp1 (x : R) : R := Rmax (-1) (Rmin x 1).

(** geom/euler.go:28 *)
Definition euler_eps : R := / 100000000.

(** geom/euler.go:27-77 *)
Definition euler_of_matrix (m : mat4 R) (o : rot_order) : euler :=
  let m11 := m0 m in let m21 := m1 m in let m31 := m2 m in
  let m12 := m4 m in let m22 := m5 m in let m32 := m6 m in
  let m13 := m8 m in let m23 := m9 m in let m33 := m10 m in
  mkE (match o with
  | XYZ =>
      if Rltb (Rabs m13) (1 - euler_eps)
      then mkV3 (atan2 (- m23) m33) (asin (clamp1 m13)) (atan2 (- m12) m11)
      else mkV3 (atan2 m32 m22) (asin (clamp1 m13)) 0
  | YXZ =>
      if Rltb (Rabs m23) (1 - euler_eps)
      then mkV3 (asin (- clamp1 m23)) (atan2 m13 m33) (atan2 m21 m22)
      else mkV3 (asin (- clamp1 m23)) (atan2 (- m31) m11) 0
  | ZXY =>
      if Rltb (Rabs m32) (1 - euler_eps)
      then mkV3 (asin (clamp1 m32)) (atan2 (- m31) m33) (atan2 (- m12) m22)
      else mkV3 (asin (clamp1 m32)) 0 (atan2 m21 m11)
  | ZYX =>
      if Rltb (Rabs m31) (1 - euler_eps)
      then mkV3 (atan2 m32 m33) (asin (- clamp1 m31)) (atan2 m21 m11)
      else mkV3 0 (asin (- clamp1 m31)) (atan2 (- m12) m22)
  end) o.

(** geom/euler.go:23-25 *)
Definition euler_of_quat (q : vec4 R) (o : rot_order) : euler := euler_of_matrix (mat_rot q) o.

(** geom/euler.go:79-115; the default case (unknown order) has no counterpart *)
Definition euler_to_quat (e : euler) : vec4 R :=
  let v := eang e in
  let cx := cos (vx v / 2) in let cy := cos (vy v / 2) in let cz := cos (vz v / 2) in
  let sx := sin (vx v / 2) in let sy := sin (vy v / 2) in let sz := sin (vz v / 2) in
  match eord e with
  | XYZ => mkV4 (sx*cy*cz + cx*sy*sz) (cx*sy*cz - sx*cy*sz) (cx*cy*sz + sx*sy*cz) (cx*cy*cz - sx*sy*sz)
  | YXZ => mkV4 (sx*cy*cz + cx*sy*sz) (cx*sy*cz - sx*cy*sz) (cx*cy*sz - sx*sy*cz) (cx*cy*cz + sx*sy*sz)
  | ZXY => mkV4 (sx*cy*cz - cx*sy*sz) (cx*sy*cz + sx*cy*sz) (cx*cy*sz + sx*sy*cz) (cx*cy*cz - sx*sy*sz)
  | ZYX => mkV4 (sx*cy*cz - cx*sy*sz) (cx*sy*cz + sx*cy*sz) (cx*cy*sz - sx*sy*cz) (cx*cy*cz + sx*sy*sz)
  end.

(** mqo/mqo.go:288-291; [o.Rotation] is the result (degrees) *)
Definition set_rotation (q : vec4 R) : vec3 R :=
  v3scale (eang (euler_of_quat q ZXY)) (180 / PI).
(** mqo/mqo.go:293-295 *)
Definition get_rotation (rotation : vec3 R) : vec4 R :=
  euler_to_quat (mkE (v3scale rotation (PI / 180)) YXZ).
(** mqo/mqo.go:297-299 *)
Definition get_local_transform (t rotation s : vec3 R) : mat4 R :=
  mat_trs t (get_rotation rotation) s.
(** mqo/mqo.go:301-306: translation, rotation (degrees), scale *)
Definition set_local_transform (m : mat4 R) : vec3 R * vec3 R * vec3 R :=
  let '(t, r, s) := mat_decompose m in (t, set_rotation r, s).
