(** The vertex morphs of a PMX model of a PMX model. *)
From Coq Require Import String List ZArith Bool.
From Verif.Model Require Import Num Vec Matrix Mqo MqoDoc Mmd2Mqo.
From Verif Require Import Spec.MmdConvSpec Spec.Mqo2MmdSpec.
Import ListNotations.
Local Open Scope Z_scope.
Local Open Scope list_scope.

Section Spec.
Context {T : Type} {N : Num T}.
Variables (scale : T) (move : vec3 T -> vec3 T) (p p' : pmodel T).

(** Vertex [id'] of the second model is where vertex [id] of the first one is moved to. *)
Definition same_place (id id' : Z) : Prop :=
  exists v v', zidx (pVerts p) id = Some v /\ zidx (pVerts p') id' = Some v' /\ pvPos v' = scaled scale (move (flip_z (pvPos v))).
(** How far a morph moves vertex [id], seen after the transformation and without z. *)
Definition flat_offset (m : pmorph T) (id : Z) (v : pvert T) : vec3 T :=
  let a := scaled scale (move (flip_z (pvPos v))) in
  let b := scaled scale (move (moved m id (flip_z (pvPos v)))) in
  mkV3 (nsub (vx b) (vx a)) (nsub (vy b) (vy a)) nzero.
(** Every vertex of the morph is a corner of a face. *)
Definition on_faces (m : pmorph T) : Prop :=
  forall v, In v (map fst (phVerts m) ++ map fst (phUVs m)) -> exists fi, (fi < length (pFaces p))%nat /\ In v (nth fi (pFaces p) []).
(** Corners of the second model are moved by the morph as those of the first one are. *)
Definition same_move (m : pmorph T) (id id' : Z) : Prop :=
  same_place id id' /\
  (In id (map fst (phVerts m)) -> exists v, zidx (pVerts p) id = Some v /\ has_offset p' (phName m) id' (flat_offset m id v)).
End Spec.
