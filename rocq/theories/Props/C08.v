(** C08: flipping and triangulating faces keeps per-corner attributes attached.
    [N : Num T] is arbitrary: the statements hold for every scalar arithmetic. *)
From Coq Require String.
From Coq Require Import List Arith ZArith QArith Permutation.
From Verif.Model Require Import Num Vec Matrix Triangulate Mqo.
From Verif.Spec Require Import Surface MqoSpec.
From Verif.Proofs Require Import SurfaceLemmas TriangulateProofs MqoObjProofs.
Import ListNotations.
Local Open Scope nat_scope.

(** Corner [i] of the flipped face is corner [n-1-i] of the original, in every attribute. *)
Theorem C08_flip_corners (T : Type) (f : face T) :
  length (fVerts (flip f)) = length (fVerts f) /\ fMaterial (flip f) = fMaterial f /\
  fUID (flip f) = fUID f /\
  (length (fUVs f) = length (fVerts f) -> length (fNormals f) = length (fVerts f) ->
   forall i, i < length (fVerts f) ->
   let j := length (fVerts f) - 1 - i in
   nth_error (fVerts (flip f)) i = nth_error (fVerts f) j /\
   nth_error (fUVs (flip f)) i = nth_error (fUVs f) j /\
   nth_error (fNormals (flip f)) i = nth_error (fNormals f) j).
Proof. exact (flip_corners f). Qed.
Print Assumptions C08_flip_corners.

(** The corner cycle is run through backwards. *)
Theorem C08_flip_reverses (T : Type) (f : face T) :
  Permutation (cycle_edges (fVerts (flip f)))
              (map (fun e => (snd e, fst e)) (cycle_edges (fVerts f))).
Proof. exact (flip_reverses f). Qed.
Print Assumptions C08_flip_reverses.

Theorem C08_flip_involution (T : Type) (f : face T) : flip (flip f) = f.
Proof. exact (flip_involutive f). Qed.
Print Assumptions C08_flip_involution.

(** Triangulating an object never panics on well-formed faces; the new face list is, face by
    face and in order, a dissection of the old one with attributes taken from its corners;
    nothing else about the object changes. *)
Theorem C08_triangulate_object (T : Type) (N : Num T) (o : object T) :
  Forall (face_ok (length (oVerts o))) (oFaces o) ->
  exists gss, triangulate_object o = Some (set_faces o (concat gss)) /\
              Forall2 triangulates (oFaces o) gss.
Proof. exact (triangulate_object_ok o). Qed.
Print Assumptions C08_triangulate_object.

Definition quad : object Q :=
  mkObj 1 String.EmptyString [mkV3 0 0 0; mkV3 1 0 0; mkV3 1 1 0; mkV3 0 1 0]%Q
    [mkFace 7 [0; 1; 2; 3]%Z 5 [mkV2 0 0; mkV2 1 0; mkV2 1 1; mkV2 0 1]%Q []; 
     mkFace 8 [1; 0]%Z 5 [] []; mkFace 9 [0; 1; 2]%Z 4 [] [None; Some (mkV3 0 0 1)%Q; None]]
    true false 0 false 1 0%Q 0 0 0 0%Q None None None None [] None.
Example C08_quad_ok : Forall (face_ok (length (oVerts quad))) (oFaces quad).
Proof.
  cbn [quad oFaces oVerts length].
  repeat match goal with |- Forall (face_ok _) _ => constructor end;
    (unfold face_ok; cbn [fVerts fUVs fNormals length];
     split; [repeat constructor; discriminate|]; split; auto).
Qed.
Example C08_quad_run :
  option_map (fun o => map (fun f => (fUID f, fVerts f, fMaterial f, fUVs f, length (fNormals f))) (oFaces o))
    (triangulate_object quad) =
  Some [(0, [2; 3; 0], 5, [mkV2 1 1; mkV2 0 1; mkV2 0 0]%Q, 0%nat);
        (0, [1; 2; 0], 5, [mkV2 1 0; mkV2 1 1; mkV2 0 0]%Q, 0%nat);
        (9, [0; 1; 2], 4, [], 3%nat)]%Z.
Proof. vm_compute. reflexivity. Qed.
