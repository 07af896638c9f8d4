(** What a PMX model of a PMX model should show. *)
From Coq Require Import String List ZArith Bool.
From Verif.Model Require Import Num Vec Matrix Mqo MqoDoc Mmd2Mqo.
From Verif Require Import Spec.MmdConvSpec Spec.Mqo2MmdSpec Spec.FbxPmxSpec.
Import ListNotations.
Local Open Scope Z_scope.
Local Open Scope list_scope.

Section Spec.
Context {T : Type} {N : Num T}.
Variables (scale : T) (move : vec3 T -> vec3 T) (p p' : pmodel T).

(** Vertex [id'] of the second model is vertex [id] of the first one, moved, with its texture coordinate. *)
Definition same_vertex (id id' : Z) : Prop :=
  exists v v', zidx (pVerts p) id = Some v /\ zidx (pVerts p') id' = Some v' /\
    pvPos v' = scaled scale (move (flip_z (pvPos v))) /\ same_uv (pvUV v') (pvUV v).
(** A face of the second model is face [fi] of the first one: the same corners in the same order, the same material. *)
Definition same_face (fi : nat) (t : nat * list Z) : Prop :=
  owner (pMats p) 0 fi = Some (Z.of_nat (fst t)) /\ Forall2 same_vertex (nth fi (pFaces p) []) (snd t).
End Spec.
