(** [unity/unity_builtin.go]: the vertex positions of the built-in meshes, in exact arithmetic ([math.Cos] and the rounding to [float32] are replaced by
    the real functions). *)
From Coq Require Import List ZArith Reals.
From Verif.Model Require Import Num NumR Vec Unity.
Import ListNotations.
Local Open Scope list_scope.
Local Open Scope R_scope.

(** unity_builtin.go 93, with [i] and [sv]. *)
Definition down_angle (i sv : Z) : R := IZR i / IZR sv * PI.
(** unity_builtin.go 97, 141. *)
Definition round_angle (j sh : Z) : R := IZR j / IZR sh * 2 * PI.
(** A point of a ring (unity_builtin.go 93-98). *)
Definition ring_point (sh sv i j : Z) : vec3 R :=
  let t := down_angle i sv in
  let y := cos t * / 2 in
  let r2 := sin t * / 2 in
  let t2 := round_angle j sh in
  mkV3 (cos t2 * r2) y (sin t2 * r2).
(** The vertex loop of [sphereInternal] (unity_builtin.go 84-100). *)
Definition sphere_verts (sh sv t b : Z) : list (vec3 R) :=
  flat_map (fun i =>
    if (i =? 0)%Z then [mkV3 0 (/ 2) 0]
    else if (i =? sv)%Z then [mkV3 0 (- / 2) 0]
    else map (ring_point sh sv i) (upto sh)) (range t (b + 1)).
(** [Cylinder] (unity_builtin.go 140-144). *)
Definition cylinder_verts (s : Z) : list (vec3 R) :=
  flat_map (fun i => let t := round_angle i s in [mkV3 (cos t * / 2) 1 (sin t * / 2); mkV3 (cos t * / 2) (-1) (sin t * / 2)]) (upto s).
Definition lift (h : R) (v : vec3 R) : vec3 R := mkV3 (vx v) (vy v + h) (vz v).
(** [Capsule] (unity_builtin.go 166-170, 184-188). *)
Definition capsule_verts (s : Z) : list (vec3 R) := map (lift (/ 2)) (sphere_verts s 8 0 4) ++ map (lift (- / 2)) (sphere_verts s 8 4 8).
(** [Cube] (unity_builtin.go 48-57). *)
Definition cube_verts : list (vec3 R) :=
  let a := - / 2 in let b := / 2 in
  [mkV3 a a a; mkV3 b a a; mkV3 b b a; mkV3 a b a; mkV3 a a b; mkV3 b a b; mkV3 b b b; mkV3 a b b].
(** [Quad], [Plane] (unity_builtin.go 194-225). *)
Definition quad_verts : list (vec3 R) := let a := - / 2 in let b := / 2 in [mkV3 a a 0; mkV3 b a 0; mkV3 a b 0; mkV3 b b 0].
Definition quad_faces : list (list Z) := [[1; 0; 2; 3]]%Z.
Definition plane_verts : list (vec3 R) := [mkV3 (-5) 0 (-5); mkV3 5 0 (-5); mkV3 5 0 5; mkV3 (-5) 0 5].
Definition plane_faces : list (list Z) := [[0; 1; 2; 3]]%Z.
