(** C69: the glTF export does not crash. *)
From Coq Require Import String List ZArith Bool Lia.
From Verif.Model Require Import Num Vec Matrix Mqo MqoDoc Mmd2Mqo Gltf Mqo2Gltf.
From Verif Require Import Spec.GltfSpec Proofs.GltfTotal Props.C36 Props.C41.
Import ListNotations.
Local Open Scope Z_scope.

(** Documents whose faces, weights, morph targets and bone parents refer to things that exist are
    exported. *)
Theorem C69_total_partial : forall (T : Type) (N : Num T) (scale centi eps : T) ign unlit opaque99 rough tex_alpha (d : document T) bones sets,
  Forall (fun b => 0 < bParent b -> In (bParent b) (map bID bones)) bones ->
  Forall (exportable (fix_ids 0 (dObjects d)) sets bones) (fix_ids 0 (dObjects d)) ->
  to_gltf scale centi eps ign unlit opaque99 rough tex_alpha d bones sets <> None.
Proof. exact (fun T N => @to_gltf_total T N). Qed.
Print Assumptions C69_total_partial.

Example C69_example : Forall (fun b => 0 < bParent b -> In (bParent b) (map bID ex_bones)) ex_bones /\
  Forall (exportable (fix_ids 0 (dObjects ex_doc)) ex_sets ex_bones) (fix_ids 0 (dObjects ex_doc)).
Proof.
  split; [repeat (apply Forall_cons; [cbn; intros; lia|]); apply Forall_nil|].
  repeat (apply Forall_cons; [|]); try apply Forall_nil; (split; [cbn; lia|]); (split; [unfold well_indexed; repeat apply Forall_cons; try apply Forall_nil; cbn; (split; [repeat constructor; cbn; lia|]); auto|]);
    (split; [repeat apply Forall_cons; try apply Forall_nil; cbn; discriminate|]);
    (split; [intros l e Hl He; cbn in Hl; repeat (destruct Hl as [<-|Hl]; [cbn in He; repeat (destruct He as [<-|He]; [cbn; lia|]); destruct He|]); destruct Hl|]);
    intros names t (a & s & b & Es & _ & _ & ->) Ht; assert (s = mkTL "body" ["smile"%string]) as ->
      by (assert (Hin : In s ex_sets) by (rewrite Es; apply in_or_app; right; left; reflexivity); destruct Hin as [H|[]]; symmetry; exact H);
    destruct Ht as [<-|[]]; right; right; left; reflexivity.
Qed.

(** A morph set that names an object that does not exist crashes the export. *)
Theorem C69_missing_target_refuted : exists (d : document Z) sets, Forall well_indexed (dObjects d) /\ sets = [mkTL "body" ["smil"%string]] /\
  In "body"%string (map (@oName Z) (dObjects d)) /\ to_gltf 1 1 1 false false 0 0 (fun _ => false) d [] sets = None.
Proof. exists ex_doc. eexists. split; [exact ex_well_indexed|]. split; [reflexivity|]. split; [right; left; reflexivity|]. vm_compute. reflexivity. Qed.
Print Assumptions C69_missing_target_refuted.
(** So does a bone whose parent does not exist, *)
Theorem C69_missing_parent_refuted : exists (b : bone Z), bParent b = 7 /\ bID b = 1 /\
  to_gltf 1 1 1 false false 0 0 (fun _ => false) ex_doc [b] [] = None.
Proof. exists (mkBone 1 "hips" 7 (mkV3 0 0 0) []). repeat split. Qed.
Print Assumptions C69_missing_parent_refuted.
(** and a weight of a vertex that does not exist. *)
Theorem C69_missing_vertex_refuted : exists (b : bone Z) (o : object Z), nth_error (fix_ids 0 (dObjects ex_doc)) 1 = Some o /\
  length (oVerts o) = 5%nat /\ bWeights b = [(oUID o, [(6, 100)])] /\ bParent b = 0 /\
  to_gltf 1 1 1 false false 0 0 (fun _ => false) ex_doc [b] [] = None.
Proof. exists (mkBone 1 "hips" 0 (mkV3 0 0 0) [(2, [(6, 100)])]). eexists. split; [vm_compute; reflexivity|]. repeat split. Qed.
Print Assumptions C69_missing_vertex_refuted.
