(** C107: lights of Unity scenes are in the exported glTF document. *)
From Coq Require Import String List ZArith Reals Lra Lia Bool.
From Verif.Model Require Import Num NumR Vec Matrix Euler Mqo MqoDoc MqoTransform Unity UnityShape Unity2Mqo Mqo2Gltf Mqo2GltfShared Lights.
From Verif.Spec Require Import GeomSpec UnitySpec SceneSpec LightSpec.
From Verif.Proofs Require Import MatrixLemmas SceneProofs LightProofs.
Import ListNotations.
Local Open Scope string_scope.
Local Open Scope list_scope.
Local Open Scope R_scope.

(** Each object of the scene that has a light becomes a node that has this light, at the place and in the direction that it has in Unity (mirrored), if the object made of it is
    visible; other nodes have none; no light is listed twice.  Only nodes without a matrix have children (C106). *)
Theorem C107_scene : forall scale on load import sc fuel roots st gscale centi eps unlit acc0 acc0uv bones node_of mmap morphs ns is ps,
  convert scale on load import fuel sc roots = Some st -> scene_lights true st = (is, ps) ->
  conv_shared gscale centi eps unlit acc0 acc0uv false true bones node_of mmap morphs (scene_objects st) (scene_objects st) [] = Some ns ->
  exists vs oss, walks sc [] true (map Some roots) vs /\ uObjs st = concat oss /\ blocks scale load import sc (uMats st) 0 vs oss /\
    length is = length (uObjs st) /\ numbers is = seq 0 (length ps) /\
    (forall j v o u, nth_error vs j = Some v -> nth_error sc (vObj v) = Some o -> goTr o <> None -> goLight o = Some u ->
       exists x, nth_error (uObjs st) (start oss j) = Some x /\
       if oVisible x
       then exists i n m, nth_error is (start oss j) = Some (Some i) /\ nth_error ps i = Some (light_params u) /\
            nth_error ns (start oss j) = Some n /\ snMatrix n = Some m /\ affine m /\ shines gscale scale (vPath v) m
       else nth_error is (start oss j) = Some None) /\
    (forall k i, nth_error is k = Some (Some i) -> exists j v o u, k = start oss j /\ nth_error vs j = Some v /\ nth_error sc (vObj v) = Some o /\ goTr o <> None /\ goLight o = Some u /\ nth_error ps i = Some (light_params u)).
Proof. exact scene_lit. Qed.
Print Assumptions C107_scene.

(** What is listed means the light of the scene: for directional and point lights that are on. *)
Theorem C107_params_partial : forall u, liEnabled u = true -> liType u = 1%Z \/ liType u = 2%Z -> gltf_light (light_params u) = unity_light u.
Proof.
  intros u E H. unfold unity_light. rewrite E. unfold gltf_light, gltf_emitter, light_params. destruct H as [-> | ->]; reflexivity.
Qed.
Print Assumptions C107_params_partial.
(** All others are spot lights of 90 degrees. *)
Theorem C107_others : forall u, liType u <> 1%Z -> liType u <> 2%Z ->
  gltf_light (light_params u) = Some (mkLight (Cone 0 (PI / 4)) [qx (liColor u); qy (liColor u); qz (liColor u)] (liIntensity u) (Some (liRange u))).
Proof.
  intros u H1 H2. unfold gltf_light, gltf_emitter, light_params, light_type. destruct (Z.eqb_spec (liType u) 1); [contradiction|]. destruct (Z.eqb_spec (liType u) 2); [contradiction|]. reflexivity.
Qed.
Print Assumptions C107_others.

(** Without the option there are none, and the meshes and skins are the same with it. *)
Theorem C107_meshes : forall (T : Type) (N : Num T) (scale centi eps : T) unlit acc0 acc0uv bones node_of mmap morphs (os : list (sobj T)) ns0 ns,
  conv_shared scale centi eps unlit acc0 acc0uv false false bones node_of mmap morphs os os [] = Some ns0 ->
  conv_shared scale centi eps unlit acc0 acc0uv false true bones node_of mmap morphs os os [] = Some ns ->
  Forall2 (fun n0 n => snMesh n = snMesh n0 /\ snJoints n = snJoints n0) ns0 ns /\
  forall k o n, nth_error os k = Some o -> nth_error ns k = Some n -> soLight o = false -> snMatrix n = None.
Proof.
  intros T N scale centi eps unlit acc0 acc0uv bones node_of mmap morphs os ns0 ns H0 H. split; [exact (conv_lights _ _ _ _ _ _ _ _ _ _ _ _ _ _ _ H0 H)|].
  intros k o n Eo En L. rewrite (proj2 (conv_matrix _ _ _ _ _ _ _ _ _ _ _ _ _ _ _ H) k o n Eo En). unfold node_matrix. rewrite L. destruct (oVisible (soObj o)); reflexivity.
Qed.
Print Assumptions C107_meshes.

(** Refuted: the cone of a spot light of 30 degrees. *)
Definition lamp (kind : Z) (on : bool) : ulight := mkUL kind (mkV4 1 1 1 1) 1 10 30 20 on.
Theorem C107_cone_refuted : gltf_light (light_params (lamp 0 true)) <> unity_light (lamp 0 true).
Proof. cbn. intros H. injection H. intros E _. unfold half_angle in E. pose proof PI_RGT_0. lra. Qed.
Print Assumptions C107_cone_refuted.
(** Refuted: areas become spot lights. *)
Theorem C107_area_refuted : unity_light (lamp 3 true) = None /\ gltf_light (light_params (lamp 3 true)) <> None.
Proof. split; [reflexivity|discriminate]. Qed.
Print Assumptions C107_area_refuted.
(** Refuted: lights that are switched off shine. *)
Theorem C107_off_refuted : unity_light (lamp 2 false) = None /\ gltf_light (light_params (lamp 2 false)) = unity_light (lamp 2 true).
Proof. split; reflexivity. Qed.
Print Assumptions C107_off_refuted.

(** A square with a light, five units up. *)
Definition sign (shown : Z) : gobj :=
  mkGO "sign" 1 (Some (mkTr (mkV3 0 5 0) (mkV4 0 0 0 1) (mkV3 1 1 1) None, [])) (Some (Some (mkRef 10210 "0000000000000000e000000000000000" 0))) (Some (shown, [])) (Some (lamp 2 true)) [] [] [] [] None.
(** Refuted: its light is lost if the renderer of its mesh is switched off. *)
Theorem C107_renderer_refuted : option_map (scene_lights true) (convert 1 false (fun _ => None) (fun _ _ _ _ _ _ => None) 1 [sign 0] [0%nat]) = Some ([None], []).
Proof. lazy. reflexivity. Qed.
Print Assumptions C107_renderer_refuted.
(** Refuted: a mesh with a light is moved twice. *)
Theorem C107_mesh_refuted : exists st x m p, convert 1 false (fun _ => None) (fun _ _ _ _ _ _ => None) 1 [sign 1] [0%nat] = Some st /\ scene_objects st = [mkSO x None true] /\ In p (oVerts x) /\
  node_matrix 1 true (mkSO x None true) None = Some m /\ vy p = 5 - / 2 /\ vy (mat_apply m p) = 10 - / 2.
Proof.
  eexists _, _, _, _. split; [reflexivity|]. split; [reflexivity|]. split; [left; reflexivity|]. split; [reflexivity|].
  cbn. split; field.
Qed.
Print Assumptions C107_mesh_refuted.
(** Refuted: without the hierarchy of objects, lights without a mesh are lost. *)
Definition bare : gobj := mkGO "lamp" 1 (Some (mkTr (mkV3 0 5 0) (mkV4 0 0 0 1) (mkV3 1 1 1) None, [])) None None (Some (lamp 1 true)) [] [] [] [] None.
Theorem C107_ignored_refuted : exists st x, convert 1 false (fun _ => None) (fun _ _ _ _ _ _ => None) 1 [bare] [0%nat] = Some st /\ uObjs st = [x] /\ oVisible x = true /\
  scene_lights true st = ([Some 0%nat], [light_params (lamp 1 true)]) /\ becomes_node false x = true /\ becomes_node true x = false.
Proof. eexists _, _. split; [reflexivity|]. split; [reflexivity|]. repeat split; reflexivity. Qed.
Print Assumptions C107_ignored_refuted.
(** This one is exported with the hierarchy. *)
Example C107_example : exists st ns is ps, convert 1000 false (fun _ => None) (fun _ _ _ _ _ _ => None) 1 [bare] [0%nat] = Some st /\ scene_lights true st = (is, ps) /\ length ps = 1%nat /\
  conv_shared (/ 1000) (/ 100) (/ 10000) false [] [] false true [] (fun _ => None) (fun z => Some z) (fun _ => Some []) (scene_objects st) (scene_objects st) [] = Some ns.
Proof. eexists _, _, _, _. split; [reflexivity|]. split; [reflexivity|]. split; [reflexivity|]. lazy. reflexivity. Qed.
