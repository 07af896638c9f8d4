(** Unity's coordinates, and closed surfaces. *)
From Coq Require Import List ZArith Reals.
From Verif.Model Require Import Num NumR Vec Matrix Unity.
Import ListNotations.
Local Open Scope list_scope.

(** The mirror between Unity's left-handed and the right-handed system. *)
Definition mirror {T : Type} {N : Num T} (v : vec3 T) : vec3 T := mkV3 (vx v) (vy v) (nopp (vz v)).
(** What a Unity transform does to a point of its local system: scale, turn ([v + 2w(u x v) + 2u x (u x v)]), move. *)
Definition unity_turn (q : vec4 R) (v : vec3 R) : vec3 R :=
  let u := mkV3 (qx q) (qy q) (qz q) in
  let c := v3cross u v in
  v3add v (v3scale (v3add (v3scale c (qw q)) (v3cross u c)) 2%R).
Definition unity_local (t : transform R) (v : vec3 R) : vec3 R :=
  v3add (tPos t) (unity_turn (tRot t) (mkV3 (vx (tScale t) * vx v) (vy (tScale t) * vy v) (vz (tScale t) * vz v))%R).
(** The place in the world: [w] is where the point [v] of transform [i] is. *)
Inductive unity_world (ts : list (transform R)) : nat -> vec3 R -> vec3 R -> Prop :=
| world_root i t v : nth_error ts i = Some t -> tFather t = None -> unity_world ts i v (unity_local t v)
| world_child i t p v w : nth_error ts i = Some t -> tFather t = Some p -> unity_world ts p (unity_local t v) w -> unity_world ts i v w.

(** The directed edges of a polygon. *)
Definition edges_of (f : list Z) : list (Z * Z) := match f with [] => [] | a :: r => combine f (r ++ [a]) end.
Definition edges (faces : list (list Z)) : list (Z * Z) := flat_map edges_of faces.
(** A closed surface, consistently oriented: every directed edge appears once, and so does its opposite. *)
Definition closed (faces : list (list Z)) : Prop := NoDup (edges faces) /\ forall a b, In (a, b) (edges faces) -> In (b, a) (edges faces).
(** Polygons whose vertices are different and exist; and every vertex is used. *)
Definition proper (n : Z) (faces : list (list Z)) : Prop :=
  Forall (fun f => (3 <= length f)%nat /\ NoDup f /\ Forall (fun v => (0 <= v < n)%Z) f) faces /\ forall v, (0 <= v < n)%Z -> exists f, In f faces /\ In v f.
(** Euler's formula for a sphere, with every edge counted twice. *)
Definition euler_sphere (n : Z) (faces : list (list Z)) : Prop := (2 * n + 2 * Z.of_nat (length faces) = Z.of_nat (length (edges faces)) + 4)%Z.
