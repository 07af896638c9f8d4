(** C64: the PMX to MQO conversion does not crash on files with valid faces. *)
From Coq Require Import String List ZArith Bool Lia Permutation.
From Verif.Model Require Import Num Vec Matrix Mqo MqoDoc Mmd2Mqo.
From Verif Require Import Spec.MmdConvSpec Proofs.Mmd2MqoProofs Proofs.Mmd2MqoFaces Props.C33.
Import ListNotations.
Local Open Scope Z_scope.

(** It does not if every weight names an existing bone and the materials cover the faces. *)
Theorem C64_total_partial : forall (T : Type) (N : Num T) (hundred facet : T) (shuffle : vmap -> vmap),
  (forall m, Permutation (shuffle m) m) ->
  forall p : pmodel T, proper p -> convert hundred facet shuffle p <> None.
Proof. exact (fun T N => @convert_total T N). Qed.
Print Assumptions C64_total_partial.

(** It crashes on every model whose materials claim more faces than there are. *)
Theorem C64_too_many_faces : forall (T : Type) (N : Num T) (hundred facet : T) (shuffle : vmap -> vmap) (p : pmodel T),
  Forall (fun m => 0 <= pmCount m) (pMats p) -> (length (pFaces p) < total (pMats p))%nat ->
  convert hundred facet shuffle p = None.
Proof. exact (fun T N => @convert_overrun T N). Qed.
Print Assumptions C64_too_many_faces.
Example C64_example : proper ex_model /\ total (pMats (mkPModel (T := Z) [] [] [mkPMat "a" 3] [] 0)) = 1%nat.
Proof. split; [exact C33_example|reflexivity]. Qed.

(** The claim that every model with valid face and morph indices is converted: a vertex without
    bones, which a PMX file stores as bone -1 with weight 1, crashes it. *)
Definition C64_full : Prop := forall (p : pmodel Z), covers p ->
  Forall (Forall (fun v => 0 <= v < Z.of_nat (length (pVerts p)))) (pFaces p) -> pMorphs p = [] ->
  Forall (fun v => length (pvBones v) = length (pvWeights v)) (pVerts p) ->
  convert 100 60 (fun m => m) p <> None.
Theorem C64_refuted : ~ C64_full.
Proof.
  intros H.
  apply (H (mkPModel [pv 0 0 1 [-1] [1]; pv 4 0 2 [0] [1]; pv 0 4 3 [0] [1]] [[0; 1; 2]] [mkPMat "a" 3] [] 1));
    repeat split; repeat constructor; cbn; lia.
Qed.
Print Assumptions C64_refuted.
