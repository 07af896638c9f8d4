(** C109: physics bodies are exported to the nodes of their bones and objects. *)
From Coq Require Import String List ZArith Bool Arith Lia Reals Lra.
From Verif.Model Require Import Num NumR Vec Matrix Mqo MqoDoc Normals Gltf Mqo2Gltf VrmConfig GltfPhysics.
From Verif.Spec Require Import GltfSpec GltfPhysicsSpec.
From Verif.Proofs Require Import MatrixLemmas GltfPhysicsProofs GltfTotal.
Import ListNotations.
Local Open Scope R_scope.
Local Open Scope list_scope.

(** Every node has the bodies that belong to it, all of them, with their shapes in place; the mass is the sum, and it does not move if one of them does not.
    Groups and masks are those of the first of them, and rotations are not kept (see below). *)
Theorem C109_bodies : forall (scale centi eps : R) ign unlit opaque99 rough tex_alpha (d : document R) bones sets g bodies,
  to_gltf scale centi eps ign unlit opaque99 rough tex_alpha d bones sets = Some g -> proper_bones bones ->
  forall n x, nth_error (gltf_physics scale ign d bones sets bodies) n = Some x ->
  exists q l f, world_pos g n q /\ l = filter f bodies /\
    (forall b, In b bodies -> f b = true <-> belongs (exported_objects ign sets (fix_ids 0 (dObjects d))) bones n b /\ mbShapes b <> []) /\ together scale q l x.
Proof. exact physics_nodes. Qed.
Print Assumptions C109_bodies.
(** There is an entry for each node. *)
Theorem C109_nodes : forall (scale centi eps : R) ign unlit opaque99 rough tex_alpha (d : document R) bones sets g bodies,
  to_gltf scale centi eps ign unlit opaque99 rough tex_alpha d bones sets = Some g -> proper_bones bones ->
  length (gltf_physics scale ign d bones sets bodies) = length (gdNodes g).
Proof. exact physics_length. Qed.
Print Assumptions C109_nodes.

(** The colliders of an avatar: the round shapes at nodes with a body that does not move, in place and of the same size, if nodes have different names. *)
Theorem C109_colliders : forall (scale centi eps : R) ign unlit opaque99 rough tex_alpha (d : document R) bones sets g bodies,
  to_gltf scale centi eps ign unlit opaque99 rough tex_alpha d bones sets = Some g -> proper_bones bones -> NoDup (map gnName (gdNodes g)) ->
  let cs := collider_nodes g (gltf_physics scale ign d bones sets bodies) in
  let own := belongs (exported_objects ign sets (fix_ids 0 (dObjects d))) bones in
  forall id r o,
  (exists l, In (l, id) (apply_colliders (map cnName cs) (convert_colliders cs)) /\ In (r, o) l) <->
  exists b s q, In b bodies /\ own id b /\ In s (mbShapes b) /\ (exists k, In k bodies /\ own id k /\ mbShapes k <> [] /\ mbKinematic k = true) /\
    world_pos g id q /\ (shType s = "SPHERE" \/ shType s = "CAPSULE")%string /\ r = vx (shSize s) * scale /\ r <> 0 /\ v3add q o = at_scale scale (shPos s).
Proof. exact colliders_placed. Qed.
Print Assumptions C109_colliders.

(** Refuted: shapes are not turned, whatever their rotations are. *)
Definition turned (r : vec3 R) (b : mbody R) : mbody R :=
  mkMB (map (fun s => mkMSh (shType s) (shSize s) (shPos s) r) (mbShapes b)) (mbMass b) (mbKinematic b) (mbGroup b) (mbMask b) (mbBone b) (mbObj b).
Theorem C109_rotation_refuted : forall scale ign (d : document R) bones sets bodies r,
  gltf_physics scale ign d bones sets (map (turned r) bodies) = gltf_physics scale ign d bones sets bodies.
Proof.
  intros scale ign d bones sets bodies r.
  assert (A : forall p b c, add_body scale p (turned r b) c = add_body scale p b c).
  { intros p b c. unfold add_body, turned. cbn [mbShapes mbMass mbKinematic mbGroup mbMask]. rewrite map_map. reflexivity. }
  unfold gltf_physics. f_equal.
  - apply map_ext. intros o. unfold object_bodies. generalize (@None (xbody R)). induction bodies as [|b l IH]; intros c; [reflexivity|]. cbn [map fold_left].
    change (mbObj (turned r b)) with (mbObj b). rewrite A. apply IH.
  - f_equal. generalize (repeat (@None (xbody R)) (length (target_objects ign sets (fix_ids 0 (dObjects d))) + length bones)). induction bodies as [|b l IH]; intros c; [reflexivity|]. cbn [map fold_left].
    rewrite IH. f_equal. unfold bone_body. change (mbBone (turned r b)) with (mbBone b). destruct (mbBone b =? 0)%Z; [reflexivity|].
    destruct (Mqo2Gltf.bone_node _ bones (mbBone b)) as [n|]; [|reflexivity]. destruct (nth_error bones _) as [bn|]; [|reflexivity].
    unfold list_upd. destruct (skipn n c); [reflexivity|]. now rewrite A.
Qed.
Print Assumptions C109_rotation_refuted.

Definition ball (p : vec3 R) : mshape R := mkMSh "SPHERE" (mkV3 1 1 1) p (mkV3 0 0 0).
Definition body (kin : bool) (group bone obj : Z) : mbody R := mkMB [ball (mkV3 2 3 5)] 1 kin group (-1) bone obj.
Definition one_object : document R := mkDocument [] [mkObj 7 "box" [] [] true false 0 false 1 60 0 0 0 0 None None None None [] None].
Definition one_bone : list (bone R) := [mkBone 4 "arm" 0 (mkV3 1 1 1) []].

(** Refuted: the second body of a node loses its group. *)
Theorem C109_group_refuted : exists b1 b2, mbGroup b1 <> mbGroup b2 /\
  exists p, nth_error (gltf_physics 1 false one_object one_bone [] [b1; b2]) 1 = Some (Some p) /\ length (xbShapes p) = 2%nat /\ xbGroups p = mbGroup b1.
Proof. exists (body false 1 4 0), (body false 2 4 0). split; [discriminate|]. eexists. split; [reflexivity|]. split; reflexivity. Qed.
Print Assumptions C109_group_refuted.
(** Refuted: a body that moves gets stuck, and becomes a collider, if one that does not is on the same node. *)
Theorem C109_mixed_refuted : exists b1 b2 p, mbKinematic b1 = false /\ nth_error (gltf_physics 1 false one_object one_bone [] [b1]) 1 = Some (Some p) /\ xbStatic p = false /\
  exists p', nth_error (gltf_physics 1 false one_object one_bone [] [b1; b2]) 1 = Some (Some p') /\ xbStatic p' = true /\ exists r, xbShapes p' = xbShapes p ++ r.
Proof.
  exists (body false 1 4 0), (body true 1 4 0). eexists. split; [reflexivity|]. split; [reflexivity|]. split; [reflexivity|]. eexists. split; [reflexivity|]. split; [reflexivity|].
  eexists. reflexivity.
Qed.
Print Assumptions C109_mixed_refuted.
(** Refuted: a body with a bone and an object is there twice, with its whole mass. *)
Theorem C109_twice_refuted : exists b p1 p2, gltf_physics 1 false one_object one_bone [] [b] = [Some p1; Some p2] /\ xbMass p1 = mbMass b /\ xbMass p2 = mbMass b /\ mbMass b = 1.
Proof. exists (body false 1 4 7). eexists _, _. split; [reflexivity|]. repeat split; reflexivity. Qed.
Print Assumptions C109_twice_refuted.
(** Refuted: the body of an object that has no faces is lost without the hierarchy of objects, as is a body without bone and object. *)
Theorem C109_lost_refuted : gltf_physics 1 true one_object one_bone [] [body true 1 0 7; body true 1 0 0] = [None] /\
  exists p, gltf_physics 1 false one_object one_bone [] [body true 1 0 7; body true 1 0 0] = [Some p; None].
Proof. split; [reflexivity|]. eexists. reflexivity. Qed.
Print Assumptions C109_lost_refuted.

(** A document to which the theorems apply. *)
Example C109_example : proper_bones one_bone /\
  (exists g, to_gltf (1 / 1000) (1 / 100) (1 / 10000) false false (99 / 100) (4 / 10) (fun _ => false) one_object one_bone [] = Some g /\ NoDup (map gnName (gdNodes g))) /\
  exists p s, gltf_physics 1 false one_object one_bone [] [body true 1 4 0] = [None; Some p] /\ xbShapes p = [s] /\ xsTrans s = mkV3 1 2 4.
Proof.
  split.
  - split; [repeat constructor; cbn; intuition lia|]. split; [repeat (apply Forall_cons; [cbn; intros; lia|]); apply Forall_nil|].
    exists (fun id => Z.to_nat id). repeat (apply Forall_cons; [cbn; lia|]); apply Forall_nil.
  - split.
    + eexists. split; [reflexivity|]. cbn. repeat constructor; cbn; intuition discriminate.
    + eexists _, _. split; [reflexivity|]. split; [reflexivity|]. cbn [xsTrans export_shape ball body v3scaled]. unfold v3scaled, v3sub. cbn [vx vy vz shPos ball bPos]. rnum. f_equal; lra.
Qed.
