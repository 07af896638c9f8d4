(** C33: PMX to MQO keeps every face with its material and its corners. *)
From Coq Require Import String List ZArith Bool Lia Permutation.
From Verif.Model Require Import Num Vec Matrix Mqo MqoDoc Mmd2Mqo.
From Verif Require Import Spec.MmdConvSpec Proofs.Mmd2MqoProofs.
Import ListNotations.
Local Open Scope Z_scope.

(** The faces of all mesh objects together are the PMX faces, each once, with the material that
    owns it and with mirrored positions and normals and the texture coordinates of its corners. *)
Theorem C33_faces : forall (T : Type) (N : Num T) (hundred facet : T) (shuffle : vmap -> vmap),
  (forall m, Permutation (shuffle m) m) ->
  forall (p : pmodel T) os bw sets, convert hundred facet shuffle p = Some (os, bw, sets) -> covers p ->
  Permutation (all_faces (filter mesh os)) (map (source p) (seq 0 (length (pFaces p)))).
Proof. exact (fun T N => @convert_faces T N). Qed.
Print Assumptions C33_faces.

(** Models with valid indices are converted without a crash. *)
Theorem C33_total : forall (T : Type) (N : Num T) (hundred facet : T) (shuffle : vmap -> vmap),
  (forall m, Permutation (shuffle m) m) ->
  forall p : pmodel T, proper p -> convert hundred facet shuffle p <> None.
Proof. exact (fun T N => @convert_total T N). Qed.
Print Assumptions C33_total.

(** Two triangles sharing an edge and a separate one with a morph, in three materials, one of
    them without faces.  The separate triangle goes into the morph base. *)
Definition pv (x y z : Z) (bs : list Z) (ws : list Z) : pvert Z :=
  mkPV (mkV3 x y z) (mkV3 0 1 z) (mkV2 x y) bs ws.
Definition ex_model : pmodel Z :=
  mkPModel [pv 0 0 1 [0] [1]; pv 4 0 2 [0; 1] [2; 3]; pv 0 4 3 [1; 1] [1; 2]; pv 4 4 4 [] [];
            pv 9 0 5 [1] [7]; pv 9 9 6 [0; 1] [4; 0]; pv 5 9 7 [1] [2]]
           [[0; 1; 2]; [4; 5; 6]; [2; 1; 3]]
           [mkPMat "skin" 3; mkPMat "hair" 6; mkPMat "none" 0]
           [mkPMorph "smile" [(5, mkV3 1 0 2)] [(4, mkV2 3 1)]] 2.
Example C33_example : proper ex_model.
Proof. repeat split; repeat constructor; cbn; lia. Qed.
Example C33_example_result : option_map (fun r => map (fun o => (oName o, oUID o, oVerts o, map (fun f => (fVerts f, fMaterial f)) (oFaces o))) (fst (fst r)))
    (convert 100 60 (@rev _) ex_model) =
  Some [("M_skin"%string, 1, [mkV3 0 0 (-1); mkV3 4 0 (-2); mkV3 0 4 (-3)], [([0; 1; 2], 0)]);
        ("M_hair"%string, 2, [mkV3 0 4 (-3); mkV3 4 0 (-2); mkV3 4 4 (-4)], [([0; 1; 2], 1)]);
        ("M_none"%string, 3, [], []);
        ("MorphBase1"%string, 4, [mkV3 9 0 (-5); mkV3 9 9 (-6); mkV3 5 9 (-7)], [([0; 1; 2], 1)]);
        ("smile"%string, 5, [mkV3 9 0 (-5); mkV3 10 9 (-8); mkV3 5 9 (-7)], [([0; 1; 2], 1)])].
Proof. vm_compute. reflexivity. Qed.
