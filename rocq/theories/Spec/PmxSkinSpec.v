(** The skin of a PMX model of a PMX model. *)
From Coq Require Import String List ZArith Bool.
From Verif.Model Require Import Num Vec Matrix Mqo MqoDoc Mmd2Mqo.
From Verif Require Import Spec.MmdConvSpec Spec.Mqo2MmdSpec Spec.FbxPmxSpec Spec.PmxPmxSpec.
Import ListNotations.
Local Open Scope Z_scope.
Local Open Scope list_scope.

Section Spec.
Context {T : Type} {N : Num T}.
Variables (hundred centi scale : T) (move : vec3 T -> vec3 T) (p p' : pmodel T).

(** The weights of a vertex that are not zero, in the order of the bones, as percentages and back. *)
Definition skin_over (v : pvert T) : list (Z * T) :=
  flat_map (fun b => map (fun w => (Z.of_nat b, nmul w centi)) (percent hundred (weights_for v (Z.of_nat b)))) (seq 0 (pNBones p)).
(** Vertex [id'] of the second model is vertex [id] of the first one, with the first four of its weights. *)
Definition same_skin (id id' : Z) : Prop :=
  same_vertex scale move p p' id id' /\ exists v, zidx (pVerts p) id = Some v /\ has_weights p' id' (firstn 4 (skin_over v)).
Definition same_skin_face (fi : nat) (t : nat * list Z) : Prop :=
  owner (pMats p) 0 fi = Some (Z.of_nat (fst t)) /\ Forall2 same_skin (nth fi (pFaces p) []) (snd t).
(** No vertex names a bone twice. *)
Definition once : Prop := forall v b, In v (pVerts p) -> (length (weights_for v b) <= 1)%nat.
End Spec.
