(** C67: smooth normals. *)
From Coq Require Import String List ZArith Bool Lia Reals QArith.
From Verif.Model Require Import Num NumR Vec Matrix Mqo MqoDoc Normals.
From Verif Require Import Spec.NormalsSpec Proofs.NormalsProofs Props.C36.
Import ListNotations.
Local Open Scope Z_scope.

(** The smooth normal of a vertex is the normalised sum of the normals at its corners. *)
Theorem C67_smooth : forall (T : Type) (N : Num T) (o : object T), valid_object o ->
  exists ns, smooth_normals o = Some ns /\ length ns = length (oVerts o) /\
    forall v, 0 <= v < Z.of_nat (length (oVerts o)) -> zidx ns v = Some (v3normalize (v3sum (normals_around o v))).
Proof. exact (fun T N => @smooth_normals_spec T N). Qed.
Print Assumptions C67_smooth.

(** In exact arithmetic every smooth normal has length one. *)
Theorem C67_unit : forall (o : object R) ns, smooth_normals o = Some ns ->
  Forall (fun n => vx n * vx n + vy n * vy n + vz n * vz n = 1)%R ns.
Proof. exact smooth_normals_unit. Qed.
Print Assumptions C67_unit.

(** Completing the normals of an object changes nothing else, keeps faces that have all their
    normals and gives the others the smooth ones. *)
Theorem C67_complete : forall (T : Type) (N : Num T) (o : object T), valid_object o ->
  exists o' ns, fixh_normals o = Some o' /\ smooth_normals o = Some ns /\ oVerts o' = oVerts o /\
    Forall2 (fun f f' => fVerts f' = fVerts f /\ fMaterial f' = fMaterial f /\ fUVs f' = fUVs f /\ fUID f' = fUID f /\
       fNormals f' = if complete f then fNormals f else map (zidx ns) (fVerts f)) (oFaces o) (oFaces o').
Proof. exact (fun T N => @fixh_normals_spec T N). Qed.
Print Assumptions C67_complete.

(** With integers, whose division rounds down.  Two faces of a corner of a box share vertices 0 and 1; the second has a stored normal. *)
Definition corner_box : object Z := obj "box" true [mkV3 0 0 0; mkV3 1 0 0; mkV3 1 1 0; mkV3 1 0 1]
  [mkFace 0 [0; 1; 2] 0 [] []; mkFace 0 [1; 0; 3] 0 [] [Some (mkV3 3 4 0); None; None]].
Example C67_example : valid_object corner_box /\ normals_around corner_box 1 = [mkV3 0 0 (-1); mkV3 3 4 0] /\
  option_map (fun o => map fNormals (oFaces o)) (fixh_normals corner_box) =
  Some [[Some (mkV3 0 (-1) (-1)); Some (mkV3 0 0 (-1)); Some (mkV3 0 0 (-1))]; [Some (mkV3 3 4 0); None; None]].
Proof. split; [unfold valid_object; repeat constructor; cbn; lia|]. vm_compute. split; reflexivity. Qed.
