(** The physics of a PMX model of a PMX model. *)
From Coq Require Import String List ZArith Bool.
From Verif.Model Require Import Num Vec Mqo MqoDoc Mmd2Mqo Mqo2Mmd MmdPhysics.
From Verif Require Import Spec.MmdConvSpec Spec.Mqo2MmdSpec.
Import ListNotations.
Local Open Scope Z_scope.

Section Spec.
Context {T : Type} {N : Num T}.

(** The same shape at another place and of another size. *)
Definition moved_shape (move grow : vec3 T -> vec3 T) (s s' : mshape T) : Prop :=
  shType s' = shType s /\ shRot s' = shRot s /\ shPos s' = move (shPos s) /\ shSize s' = grow (shSize s).
Definition moved_body (move grow : vec3 T -> vec3 T) (b b' : qbody T) : Prop :=
  Forall2 (moved_shape move grow) (qbShapes b) (qbShapes b') /\
  b' = mkQBody (qbName b) (qbShapes b') (qbMass b) (qbKinematic b) (qbGroup b) (qbMask b) (qbRest b) (qbFric b) (qbLinear b) (qbAngular b) (qbBone b) (qbObj b).
(** What two rigid bodies have in common but place, size, bone and mode. *)
Definition like (b b' : rigid T) : Prop :=
  rgName b' = rgName b /\ rgGroup b' = rgGroup b /\ rgTarget b' = rgTarget b /\ rgRot b' = rgRot b /\ rgMass b' = rgMass b /\
  rgLinear b' = rgLinear b /\ rgAngular b' = rgAngular b /\ rgRest b' = rgRest b /\ rgFric b' = rgFric b /\ (0 <= rgShape b <= 2 -> rgShape b' = rgShape b).
(** A rigid body of a shape of [b]. *)
Definition of_shape (scale : T) (b : qbody T) (s : mshape T) (r : rigid T) : Prop :=
  rgPos r = scaled scale (shPos s) /\ rgSize r = scaled scale (shSize s) /\ rgRot r = shRot s /\ rgMass r = qbMass b /\ rgGroup r = qbGroup b /\ rgTarget r = qbMask b /\
  (shType s = "SPHERE" /\ rgShape r = 0 \/ shType s = "BOX" /\ rgShape r = 1 \/ shType s = "CAPSULE" /\ rgShape r = 2 \/ ~ In (shType s) ["SPHERE"; "BOX"; "CAPSULE"])%string.
End Spec.
