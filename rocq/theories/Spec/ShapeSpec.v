(** Which way a polygon faces. *)
From Coq Require Import List ZArith Reals.
From Verif.Model Require Import Num NumR Vec.
Import ListNotations.
Local Open Scope list_scope.
Local Open Scope R_scope.

Definition det3 (a b c : vec3 R) : R :=
  vx a * (vy b * vz c - vz b * vy c) - vy a * (vx b * vz c - vz b * vx c) + vz a * (vx b * vy c - vy b * vx c).
Definition point (l : list (vec3 R)) (v : Z) : option (vec3 R) := nth_error l (Z.to_nat v).
(** The triangles of the fan of a polygon. *)
Definition fan (f : list Z) (a b c : Z) : Prop := exists k, nth_error f 0 = Some a /\ nth_error f (S k) = Some b /\ nth_error f (S (S k)) = Some c.
(** Every triangle is visible from outside, clockwise around the origin (the front side in Metasequoia): it is not degenerate and its plane does not contain
    the origin. *)
Definition faces_out (l : list (vec3 R)) (f : list Z) : Prop :=
  forall a b c, fan f a b c -> exists p q r, point l a = Some p /\ point l b = Some q /\ point l c = Some r /\ det3 p q r < 0.
(** The distance from the axis, and from the origin. *)
Definition off_axis2 (v : vec3 R) : R := vx v * vx v + vz v * vz v.
Definition norm2 (v : vec3 R) : R := vx v * vx v + vy v * vy v + vz v * vz v.
