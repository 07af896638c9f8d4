(** C40: exported skeletons bind without deformation. *)
From Coq Require Import String List ZArith Bool Lia Reals Lra.
From Verif.Model Require Import Num NumR Vec Matrix Mqo MqoDoc Mmd2Mqo Gltf Mqo2Gltf.
From Verif Require Import Spec.GltfSpec Proofs.GltfTop Proofs.GltfDoc Proofs.GltfTotal.
Import ListNotations.
Local Open Scope R_scope.

(** The translations from the root down to the node of a bone add up to its scaled position. *)
Theorem C40_position : forall (scale centi eps : R) ign unlit opaque99 rough tex_alpha (d : document R) bones sets g,
  to_gltf scale centi eps ign unlit opaque99 rough tex_alpha d bones sets = Some g -> proper_bones bones ->
  forall k b, nth_error bones k = Some b ->
  world_pos g (length (exported_objects ign sets (fix_ids 0 (dObjects d))) + k)%nat (at_scale scale (bPos b)).
Proof. exact joint_world. Qed.
Print Assumptions C40_position.

(** World matrix times inverse bind matrix is the identity for every joint of every skin. *)
Theorem C40_rest : forall (scale centi eps : R) ign unlit opaque99 rough tex_alpha (d : document R) bones sets g,
  to_gltf scale centi eps ign unlit opaque99 rough tex_alpha d bones sets = Some g -> proper_bones bones ->
  Forall (fun s => Forall2 (fun j m => exists q, world_pos g j q /\ mat_mul (mat_translate (vx q) (vy q) (vz q)) m = mat_id)
                           (gsJoints s) (gsInverse s)) (gdSkins g).
Proof. exact rest_pose. Qed.
Print Assumptions C40_rest.

Definition bone_at (id : Z) (n : string) (parent : Z) (p : vec3 R) : bone R := mkBone id n parent p [(1%Z, [(1%Z, 100); (2%Z, 50)])].
(** A child before its parents, two roots. *)
Definition ex_bones : list (bone R) :=
  [bone_at 3 "hand" 2 (mkV3 5 5 (-1)); bone_at 1 "hips" 0 (mkV3 0 5 0); bone_at 2 "arm" 1 (mkV3 2 5 (1 / 2)); bone_at 9 "prop" 0 (mkV3 7 7 7)].
Definition ex_obj : object R :=
  mkObj 0 "body" [mkV3 0 0 0; mkV3 1 0 0; mkV3 1 1 0] [mkFace 0 [0; 1; 2]%Z 0%Z [] []] true false 0 false 1 60 0 0 0 0 None None None None [] None.
Definition ex_mat : material R := mkMat "skin" 0 (mkV4 1 1 1 1) 0 0 0 0 0 "" "" "" None false 0 None.
Definition ex_doc : document R := mkDocument [ex_mat] [ex_obj].
Example C40_example : proper_bones ex_bones /\ to_gltf (1 / 1000) (1 / 100) (1 / 10000) false false (99 / 100) (4 / 10) (fun _ => false) ex_doc ex_bones [] <> None.
Proof.
  split.
  - split; [repeat constructor; cbn; intuition lia|]. split; [repeat (apply Forall_cons; [cbn; intros; lia|]); apply Forall_nil|].
    exists (fun id => Z.to_nat id). repeat (apply Forall_cons; [cbn; lia|]); apply Forall_nil.
  - apply to_gltf_total; [repeat (apply Forall_cons; [cbn; intros; lia|]); apply Forall_nil|]. constructor; [|constructor]. split; [cbn; lia|]. split; [repeat constructor; cbn; try lia; left; reflexivity|].
    split; [apply Forall_cons; [cbn; discriminate|apply Forall_nil]|]. split; [|intros ? ? H; exfalso; destruct H as (? & ? & ? & H & _); symmetry in H; exact (app_cons_not_nil _ _ _ (eq_sym H))].
    intros l e Hl He. cbn in Hl. repeat (destruct Hl as [<-|Hl]; [cbn in He; repeat (destruct He as [<-|He]; [cbn; lia|]); destruct He|]). destruct Hl.
Qed.
