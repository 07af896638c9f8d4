(** [unity/unity_components.go]: transforms.  [unity/unity_builtin.go]: built-in meshes. *)
From Coq Require Import List ZArith Bool.
From Verif.Model Require Import Num Vec Matrix.
Import ListNotations.
Local Open Scope list_scope.
Local Open Scope Z_scope.

Section Transform.
Context {T : Type} {N : Num T}.
(** The fields of [Transform] that matter (unity_components.go 52-66); [tFather] is the transform that [m_Father] refers to, if it is found
    (lines 110-114). *)
Record transform := mkTr { tPos : vec3 T; tRot : vec4 T; tScale : vec3 T; tFather : option nat }.
(** [GetMatrix] (unity_components.go 68-73). *)
Definition get_matrix (t : transform) : mat4 T :=
  mat_mul (mat_mul (mat_translate (vx (tPos t)) (vy (tPos t)) (nopp (vz (tPos t))))
                   (mat_rot (mkV4 (nopp (qx (tRot t))) (nopp (qy (tRot t))) (qz (tRot t)) (qw (tRot t)))))
          (mat_scale (vx (tScale t)) (vy (tScale t)) (vz (tScale t))).
(** [GetWorldMatrix] (unity_components.go 75-81); [None] is endless recursion. *)
Fixpoint world_matrix (fuel : nat) (ts : list transform) (i : nat) : option (mat4 T) :=
  match fuel with
  | O => None
  | S f =>
      match nth_error ts i with
      | None => None
      | Some t =>
          match tFather t with
          | None => Some (get_matrix t)
          | Some p => match world_matrix f ts p with Some m => Some (mat_mul m (get_matrix t)) | None => None end
          end
      end
  end.
End Transform.
Arguments transform : clear implicits.

(** *** Built-in meshes: faces are lists of vertex numbers *)

(** [for j := 0; j < n; j++]. *)
Definition upto (n : Z) : list Z := map Z.of_nat (seq 0 (Z.to_nat n)).
(** [for i := a; i < b; i++]. *)
Definition range (a b : Z) : list Z := map (fun k => a + k) (upto (b - a)).

(** [Cube] (unity_builtin.go 58-62). *)
Definition cube_faces : list (list Z) := [[0; 1; 2; 3]; [7; 6; 5; 4]; [4; 5; 1; 0]; [3; 2; 6; 7]; [2; 1; 5; 6]; [0; 3; 7; 4]].

(** The number of vertices of [sphereInternal] (unity_builtin.go 84-99). *)
Definition sphere_size (sh sv t b : Z) : Z :=
  fold_left (fun n i => if i =? 0 then n + 1 else if i =? sv then n + 1 else n + sh) (range t (b + 1)) 0.
(** [ofs] after the vertex loop (unity_builtin.go 80-83, 87). *)
Definition sphere_ofs (sh t voffset : Z) : Z :=
  (if 2 <? t then voffset - (t - 1) * sh else voffset) + (if t =? 0 then 1 else 0).
(** The faces of [sphereInternal] (unity_builtin.go 100-130); if the vertex loop is not empty, that is [t <= b], which holds in all calls. *)
Definition sphere_faces (sh sv t b voffset : Z) : list (list Z) :=
  let ofs := sphere_ofs sh t voffset in
  flat_map (fun i =>
    map (fun j =>
      let i1 := (i - 1) * sh in let i2 := i * sh in let j2 := (j + 1) mod sh in
      if i =? 0 then [ofs - 1; i2 + j + ofs; i2 + j2 + ofs]
      else if i =? sv - 1 then [i1 + j + ofs; i2 + ofs; i1 + j2 + ofs]
      else [i1 + j + ofs; i2 + j + ofs; i2 + j2 + ofs; i1 + j2 + ofs]) (upto sh)) (range t b).
(** [Sphere] (unity_builtin.go 74-76). *)
Definition sphere (sh sv : Z) : Z * list (list Z) := (sphere_size sh sv 0 sv, sphere_faces sh sv 0 sv 0).
(** [Cylinder] (unity_builtin.go 134-159). *)
Definition cylinder (s : Z) : Z * list (list Z) :=
  (2 * Z.of_nat (length (upto s)),
   map (fun i => [i * 2; i * 2 + 1; ((i + 1) mod s) * 2 + 1; ((i + 1) mod s) * 2]) (upto s) ++
   [map (fun i => i * 2) (upto s); map (fun i => (s - i - 1) * 2 + 1) (upto s)]).
(** [Capsule] (unity_builtin.go 161-192). *)
Definition capsule (s : Z) : Z * list (list Z) :=
  let n1 := sphere_size s 8 0 4 in
  let st := n1 - s in
  (n1 + sphere_size s 8 4 8,
   sphere_faces s 8 0 4 0 ++ map (fun i => [st + i; st + i + s; st + (i + 1) mod s + s; st + (i + 1) mod s]) (upto s) ++ sphere_faces s 8 4 8 n1).

(** *** Texture coordinates *)
Section UV.
(** [float32(a)/float32(b)], and 1 minus that. *)
Context {T : Type} (fr : Z -> Z -> T) (one_minus : T -> T).
(** unity_builtin.go 106-127. *)
Definition sphere_uvs (sh sv t b : Z) : list (list (vec2 T)) :=
  flat_map (fun i =>
    map (fun j =>
      if i =? 0 then [mkV2 (fr j sh) (fr i sv); mkV2 (fr j sh) (fr (i + 1) sv); mkV2 (fr (j + 1) sh) (fr (i + 1) sv)]
      else if i =? sv - 1 then [mkV2 (fr j sh) (fr i sv); mkV2 (fr j sh) (fr (i + 1) sv); mkV2 (fr (j + 1) sh) (fr i sv)]
      else [mkV2 (fr j sh) (fr i sv); mkV2 (fr j sh) (fr (i + 1) sv); mkV2 (fr (j + 1) sh) (fr (i + 1) sv); mkV2 (fr (j + 1) sh) (fr i sv)]) (upto sh)) (range t b).
(** The side of a cylinder or capsule (unity_builtin.go 148-153, 177-182). *)
Definition side_uvs (s : Z) : list (list (vec2 T)) :=
  map (fun i => [mkV2 (one_minus (fr i s)) (fr 0 1); mkV2 (one_minus (fr i s)) (fr 1 1); mkV2 (one_minus (fr (i + 1) s)) (fr 1 1); mkV2 (one_minus (fr (i + 1) s)) (fr 0 1)]) (upto s).
(** unity_builtin.go 154-157: one slice for both ends. *)
Definition cylinder_uvs (s : Z) : list (list (vec2 T)) :=
  let topuv := map (fun i => mkV2 (fr i s) (fr 1 1)) (upto s) in side_uvs s ++ [topuv; topuv].
Definition capsule_uvs (s : Z) : list (list (vec2 T)) := sphere_uvs s 8 0 4 ++ side_uvs s ++ sphere_uvs s 8 4 8.
(** unity_builtin.go 63-70. *)
Definition cube_uvs : list (list (vec2 T)) :=
  let a := mkV2 (fr 1 1) (fr 1 1) in let b := mkV2 (fr 0 1) (fr 1 1) in let c := mkV2 (fr 0 1) (fr 0 1) in let d := mkV2 (fr 1 1) (fr 0 1) in
  [[a; b; c; d]; [a; b; c; d]; [a; b; c; d]; [a; b; c; d]; [d; a; b; c]; [b; c; d; a]].
End UV.
