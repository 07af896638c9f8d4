(** C100: the skeleton of an FBX document becomes the bones of the MQO document. *)
From Coq Require Import String Ascii List ZArith Bool Lia.
From Verif.Model Require Import Num Vec Matrix Mqo MqoDoc FbxDoc Fbx2Mqo.
From Verif.Spec Require Import FbxSceneSpec FbxMeshSpec FbxBoneSpec.
From Verif.Proofs Require Import FbxSceneTotal FbxBones.
Import ListNotations.
Local Open Scope string_scope.
Local Open Scope list_scope.
Local Open Scope Z_scope.

(** There is one bone for each model that a converted mesh is bound to and for each model above such a one, numbered from one, after the bone of its parent and naming it, where the last deformer
    says or the model is, with the weights that deformers give to the vertices of each object. *)
Theorem C100_bones_partial : forall (T : Type) (N : Num T) tenth facet (d : fdoc T) op depth fuel base objs st mats, opTarget op = "" -> tree_doc d depth -> convert_fbx tenth facet d fuel op objs base = FOk (st, mats) ->
  exists coord vs oss M, fdCoord d = Some coord /\ (forall o, In o (map (fun p => last p 0%nat) vs) <-> shown d op o) /\ fsObjs st = objs ++ concat oss /\ length vs = length oss /\
    let js := flat_map (fun q => match snd q with b :: _ => bound_by d op (last (fst q) 0%nat) (oUID b) | [] => [] end) (combine vs oss) in
    NoDup M /\ (forall x, In x M <-> skeleton d js x) /\ length (fsBones st) = length M /\
    (forall i m b, nth_error M i = Some m -> nth_error (fsBones st) i = Some b -> bone_for d coord js M i m b).
Proof. intros T N. exact fbx_bones. Qed.
Print Assumptions C100_bones_partial.

(** A body bound to an arm and to the hips above it; below the arm is a hand without weights, which is no bone. *)
Definition C100_none {A} : layer A := mkLayer "" "" [] [].
Definition C100_model (n k : string) (m : mat4 Z) : fobj Z := OModel (mkFM (binary_name n) k m (mkV3 0 0 0)).
Definition C100_doc : fdoc Z :=
  mkFD (nth_error [C100_model "Scene" "" mat_id; C100_model "hips" "LimbNode" (mat_translate 0 10 0); C100_model "arm" "LimbNode" (mat_translate 5 0 0); C100_model "body" "Mesh" mat_id;
                   OGeom (mkFG "g" "Mesh" [mkV3 0 0 0; mkV3 1 0 0; mkV3 0 1 0] [0; 1; -3] [] C100_none C100_none C100_none []);
                   ODef (mkFDef "Skin" [] [] mat_id); ODef (mkFDef "Cluster" [1; 1] [2; 0] (mat_translate 6 10 0)); ODef (mkFDef "Cluster" [1] [1] (mat_translate 0 9 0));
                   C100_model "hand" "LimbNode" mat_id; ODef (mkFDef "Cluster" [1; 1] [1] (mat_translate 0 9 0)); C100_model "tail" "LimbNode" (mat_translate 0 0 3); C100_model "tip" "LimbNode" mat_id; ODef (mkFDef "Cluster" [1] [0] mat_id)])
       (fun _ => []) [(1, 0); (2, 1); (3, 0); (4, 3); (5, 4); (6, 5); (7, 5); (2, 6); (1, 7); (8, 2); (9, 5); (2, 9); (10, 1); (11, 10); (12, 5); (11, 12)]%nat 0%nat [] (Some mat_id).
Definition C100_op (t : string) : foption Z := mkFOpt false false false 0 None t None.
Definition C100_depth (o : nat) : nat := nth o [0; 1; 2; 1; 0; 0; 0; 0; 3; 0; 2; 3]%nat 0%nat.
Example C100_meets : tree_doc C100_doc C100_depth.
Proof.
  split; [reflexivity|intros I; cbn in I; intuition discriminate| | |intros o k []].
  - cbn. repeat constructor; cbn; intuition discriminate.
  - intros c p I. cbn in I. repeat (destruct I as [I|I]; [injection I as <- <-; reflexivity|]). destruct I.
Qed.
Example C100_example : exists st, convert_fbx 0 0 C100_doc 4 (C100_op "") [] 0 = FOk (st, []) /\
  map (fun b => (bID b, bParent b, bPos b)) (fsBones st) = [(1, 0, mkV3 0 9 0); (2, 1, mkV3 0 9 0); (3, 1, mkV3 0 10 3); (4, 3, mkV3 0 0 0)] /\
  map (fun b => bWeights b) (fsBones st) = [[(1, [(2, 1)])]; [(1, [(3, 1); (1, 1)])]; []; [(1, [(1, 1)])]].
Proof. eexists. split; [vm_compute; reflexivity|]. split; vm_compute; reflexivity. Qed.

(** Refuted: bones of binary files keep the type in their names, while objects do not. *)
Theorem C100_name_refuted : exists st, convert_fbx 0 0 C100_doc 4 (C100_op "") [] 0 = FOk (st, []) /\ map (fun b => bName b) (fsBones st) = ["hips::Model"; "arm::Model"; "tail::Model"; "tip::Model"] /\
  map (fun o => oName o) (fsObjs st) = ["body"].
Proof. eexists. split; [vm_compute; reflexivity|]. split; vm_compute; reflexivity. Qed.
Print Assumptions C100_name_refuted.
(** Refuted: weights of MQO documents are percents; vertex 2 is bound to the hips alone, with all its weight, and gets one percent. *)
Theorem C100_percent_refuted : exists st b, convert_fbx 0 0 C100_doc 4 (C100_op "") [] 0 = FOk (st, []) /\ nth_error (fsBones st) 0 = Some b /\ weights_in (bWeights b) 1 = [(2, 1)] /\
  (forall i c, nth_error (fsBones st) (S i) = Some c -> ~ In 2 (map fst (weights_in (bWeights c) 1))) /\ 1 <> 100.
Proof.
  eexists. eexists. split; [vm_compute; reflexivity|]. split; [reflexivity|]. split; [reflexivity|]. split; [|discriminate].
  intros i c E. repeat (destruct i as [|i]; [injection E as <-; vm_compute; intuition discriminate|]). now destruct i.
Qed.
Print Assumptions C100_percent_refuted.
(** Refuted: if one model is converted alone, its bones are lost. *)
Theorem C100_target_refuted : exists st, convert_fbx 0 0 C100_doc 4 (C100_op "body") [] 0 = FOk (st, []) /\ map (fun o => oName o) (fsObjs st) = ["body"] /\ fsBones st = [].
Proof. eexists. split; [vm_compute; reflexivity|]. split; vm_compute; reflexivity. Qed.
Print Assumptions C100_target_refuted.
