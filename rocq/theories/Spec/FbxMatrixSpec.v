(** How the FBX SDK places points (documentation of FbxNode: geometry transformation formula), and the axes of a document. *)
From Coq Require Import String List ZArith Reals.
From Verif.Model Require Import Num NumR Vec Matrix Fbx2Mqo.
From Verif.Spec Require Import GeomSpec.
Import ListNotations.
Local Open Scope string_scope.
Local Open Scope R_scope.

Definition rad (a : R) : R := a * (PI / 180).
(** Turning by three angles in degrees about fixed axes; [order] as in the property RotationOrder: the axis that is named first turns first. *)
Definition turned (order : nat) (a v : vec3 R) : vec3 R :=
  let X := turn_x (rad (vx a)) in let Y := turn_y (rad (vy a)) in let Z := turn_z (rad (vz a)) in
  match order with
  | 0%nat => Z (Y (X v))
  | 1%nat => Y (Z (X v))
  | 2%nat => X (Z (Y v))
  | 3%nat => Z (X (Y v))
  | 4%nat => Y (X (Z v))
  | _ => X (Y (Z v))
  end.
(** Turning back from order 0. *)
Definition turned_back (a v : vec3 R) : vec3 R := turn_x (rad (- vx a)) (turn_y (rad (- vy a)) (turn_z (rad (- vz a)) v)).
Definition stretched (s v : vec3 R) : vec3 R := mkV3 (vx s * vx v) (vy s * vy v) (vz s * vz v).

(** A point of a model in its parent: T * Roff * Rp * Rpre * R * Rpost^-1 * Rp^-1 * Soff * Sp * S * Sp^-1. *)
Definition sdk_point (p : string -> list (option R)) (order : nat) (v : vec3 R) : vec3 R :=
  let z n := attr_vec (p n) 0 0 0 in
  let v1 := v3add (z "ScalingPivot") (stretched (attr_vec (p "Lcl Scaling") 1 1 1) (v3sub v (z "ScalingPivot"))) in
  let v2 := v3sub (v3add (z "ScalingOffset") v1) (z "RotationPivot") in
  let v3 := turned 0 (z "PreRotation") (turned order (z "Lcl Rotation") (turned_back (z "PostRotation") v2)) in
  v3add (z "Lcl Translation") (v3add (z "RotationOffset") (v3add (z "RotationPivot") v3)).
(** Nothing but translation, rotation, rotation before it, and scaling. *)
Definition plain_transform (p : string -> list (option R)) : Prop :=
  let z n := attr_vec (p n) 0 0 0 in let o := mkV3 0 0 0 in
  z "ScalingOffset" = o /\ z "RotationOffset" = o /\ z "PostRotation" = o /\
  (z "ScalingPivot" = o \/ attr_vec (p "Lcl Scaling") 1 1 1 = mkV3 1 1 1) /\ (z "RotationPivot" = o \/ z "PreRotation" = o /\ z "Lcl Rotation" = o).

(** Component [i] of a vector. *)
Definition along (i : Z) (v : vec3 R) : R := if (i =? 0)%Z then vx v else if (i =? 1)%Z then vy v else vz v.
Definition axis (i : Z) : Prop := (i = 0 \/ i = 1 \/ i = 2)%Z.
Definition sign_of (s : R) : Prop := s = 1 \/ s = -1.
