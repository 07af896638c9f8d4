(** C17: faces without a material.  Full claim: a face with Material -1 written by [WriteMQO] is read
    back with Material -1 and with its UVs.  It is false: [readInt] has no case for the sign. *)
From Coq Require Import String List ZArith Lia.
From Verif.Model Require Import Num Vec Matrix Mqo MqoDoc MqoText MqoLex.
From Verif.Spec Require Import TextSpec.
From Verif.Proofs Require Import MqoTextProofs MqoTextMore.
Import ListNotations.
Local Open Scope string_scope.

(** What happens to every such face with UVs: material 0 and no UVs.  [F] is the fuel of the
    reader, [w_face] the text of the face, [r] what follows it. *)
Theorem C17_negative_material (T : Type) (N : Num T) (X : TextNum T) F (f : face T) l r :
  20 + length (toks_of (uv_pieces (fUVs f))) <= F ->
  Forall (fun v => (0 <= v)%Z) (fVerts f) -> (fMaterial f < 0)%Z -> (fUID f <= 0)%Z ->
  length (fUVs f) = length (fVerts f) ->
  exists l', read_face F (St l (TNL :: (toks_of (w_face f) ++ r)%list)) =
    Some (mkFace 0 (fVerts f) 0 []
           (if Nat.eqb (length (fNormals f)) (length (fVerts f)) then map (option_map (rr3 FV)) (fNormals f) else []),
          St l' (TNL :: r)).
Proof. exact (read_face_negative F f l r). Qed.
Print Assumptions C17_negative_material.

(** Faces with a material keep it, with UVs and normals. *)
Theorem C17_with_material_partial (T : Type) (N : Num T) (X : TextNum T) F (f : face T) l r :
  20 <= F -> Forall (fun v => (0 <= v)%Z) (fVerts f) -> (0 <= fMaterial f)%Z ->
  exists l', read_face F (St l (TNL :: (toks_of (w_face f) ++ r)%list)) = Some (kept_face f, St l' (TNL :: r)).
Proof. intros HF Hv Hm. exact (read_face_ok F f l r HF (conj Hv Hm)). Qed.
Print Assumptions C17_with_material_partial.

Local Open Scope Z_scope.
Definition uvs : list (vec2 Z) := [mkV2 0 0; mkV2 1 0; mkV2 0 1].
Definition ob (fs : list (face Z)) : object Z :=
  mkObj 0 "o" [mkV3 0 0 0; mkV3 1 0 0; mkV3 0 1 0] fs true false 0 false 1 59 0 0 0 0
    (Some (mkV3 1 1 1)) (Some (mkV3 0 0 0)) (Some (mkV3 0 0 0)) None [] None.
Definition reload (fs : list (face Z)) : option (list (list (face Z))) :=
  option_map (fun d => map (@oFaces Z) (dObjects (tdDoc d))) (parse_text (write_text (mkTD None None (mkDocument [] [ob fs])))).
(** A whole document with one such face. *)
Theorem C17_material_refuted : exists f : face Z,
  fMaterial f = -1 /\ reload [f] = Some [[mkFace 0 (fVerts f) 0 [] []]] /\ fUVs f <> [].
Proof. exists (mkFace 0 [0; 1; 2] (-1) uvs []). split; [reflexivity|]. split; [vm_compute; reflexivity|discriminate]. Qed.
Print Assumptions C17_material_refuted.
(** Without UVs the bracket is looked for on the next line, so that the next face is damaged. *)
Theorem C17_next_face_refuted : exists f g : face Z,
  fMaterial f = -1 /\ fMaterial g = 0 /\ reload [g; g] = Some [[g; g]] /\ reload [f; g] <> Some [[mkFace 0 (fVerts f) 0 [] []; g]].
Proof.
  exists (mkFace 0 [0; 1; 2] (-1) [] []), (mkFace 0 [0; 2; 1] 0 [] []).
  split; [reflexivity|]. split; [reflexivity|]. split; vm_compute; [reflexivity|discriminate].
Qed.
Print Assumptions C17_next_face_refuted.
(** With an id it is the id that is lost. *)
Example C17_id_lost : reload [mkFace 7 [0; 1; 2] (-1) uvs []] = Some [[mkFace 0 [0; 1; 2] 0 uvs []]].
Proof. vm_compute. reflexivity. Qed.
Example C17_ex : (fMaterial (mkFace 0 [0; 1; 2] (-1) uvs []) < 0) /\ length uvs = 3%nat.
Proof. split; reflexivity. Qed.
