(** Sizes in the units of formats. *)
From Coq Require Import String List ZArith Reals Bool.
From Verif.Model Require Import Num NumR Vec.
Import ListNotations.
Local Open Scope R_scope.
Local Open Scope string_scope.

Definition mmd_formats : list string := [".pmd"; ".pmx"].
Definition mqo_formats : list string := [".mqo"; ".mqoz"].
Definition gltf_formats : list string := [".glb"; ".gltf"; ".vrm"].
(** What a length of one is, in millimetres: README.md 109-113; in FBX documents UnitScaleFactor [u] in centimetres. *)
Inductive unit_of (u : R) : string -> R -> Prop :=
  | UMqo e : In e mqo_formats -> unit_of u e 1
  | UMmd e : In e mmd_formats -> unit_of u e 80
  | UGltf e : In e gltf_formats -> unit_of u e 1000
  | UFbx : unit_of u ".fbx" (10 * u).
(** The formats whose coordinates are left-handed. *)
Definition hand (e : string) : R := if existsb (String.eqb e) mmd_formats then -1 else 1.

(** The square of a distance, and the volume of a tetrahedron times six: negative if its corners are the other way round. *)
Definition dist2 (a b : vec3 R) : R := (vx b - vx a) * (vx b - vx a) + (vy b - vy a) * (vy b - vy a) + (vz b - vz a) * (vz b - vz a).
Definition volume (a b c d : vec3 R) : R :=
  (vx b - vx a) * ((vy c - vy a) * (vz d - vz a) - (vz c - vz a) * (vy d - vy a)) -
  (vy b - vy a) * ((vx c - vx a) * (vz d - vz a) - (vz c - vz a) * (vx d - vx a)) +
  (vz b - vz a) * ((vx c - vx a) * (vy d - vy a) - (vy c - vy a) * (vx d - vx a)).
(** All lengths in millimetres become [k] times as large, and what was outside stays outside. *)
Definition sized (k ui uo hi ho : R) (f : vec3 R -> vec3 R) : Prop :=
  (forall a b, uo * uo * dist2 (f a) (f b) = (k * ui) * (k * ui) * dist2 a b) /\
  (forall a b c d, ho * (uo * uo * uo) * volume (f a) (f b) (f c) (f d) = hi * ((k * ui) * (k * ui) * (k * ui)) * volume a b c d).
