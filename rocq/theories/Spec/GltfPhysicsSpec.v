(** Physics bodies in glTF documents. *)
From Coq Require Import String List ZArith Bool Reals.
From Verif.Model Require Import Num NumR Vec Matrix Mqo MqoDoc Gltf GltfPhysics.
From Verif.Spec Require Import GltfSpec.
Import ListNotations.
Local Open Scope R_scope.
Local Open Scope list_scope.

Section Spec.
Variables (os : list (object R)) (bones : list (bone R)) (scale : R).
(** The body belongs to the node: that of an object, or that of a bone, which come behind. *)
Definition belongs (n : nat) (b : mbody R) : Prop :=
  (exists o, nth_error os n = Some o /\ oUID o = mbObj b /\ mbObj b <> 0%Z) \/
  (exists k bn, n = (length os + k)%nat /\ nth_error bones k = Some bn /\ bID bn = mbBone b /\ mbBone b <> 0%Z).

(** The shape is where it was, if its node is at [q], and as large. *)
Definition kept_shape (q : vec3 R) (s : mshape R) (x : xshape R) : Prop :=
  xsType x = shType s /\ xsScale x = at_scale scale (shSize s) /\ xsBox x = at_scale scale (shSize s) /\ v3add q (xsTrans x) = at_scale scale (shPos s).

Fixpoint total (l : list (mbody R)) : R := match l with [] => 0 | b :: r => mbMass b + total r end.

(** The bodies [l] of a node at [q] together; groups and masks are those of the first one only. *)
Definition together (q : vec3 R) (l : list (mbody R)) (x : option (xbody R)) : Prop :=
  match x with
  | None => l = []
  | Some p => l <> [] /\ Forall2 (kept_shape q) (flat_map mbShapes l) (xbShapes p) /\ xbMass p = total l /\
              (xbStatic p = true <-> exists b, In b l /\ mbKinematic b = true) /\
              hd_error (map mbGroup l) = Some (xbGroups p) /\ hd_error (map mbMask l) = Some (xbMasks p)
  end.
End Spec.
