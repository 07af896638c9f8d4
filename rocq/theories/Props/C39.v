(** C39: the exported node graph is a forest that mirrors the object tree. *)
From Coq Require Import String List ZArith Bool Lia Permutation.
From Verif.Model Require Import Num Vec Matrix Mqo MqoDoc Mmd2Mqo Gltf Mqo2Gltf.
From Verif Require Import Spec.GltfSpec Proofs.GltfTop Props.C36.
Import ListNotations.
Local Open Scope Z_scope.

Definition bone_ids {T} (bones : list (bone T)) : list Z := map (@bID T) bones.

(** Every node is referenced exactly once, as a root of the scene or as a child. *)
Theorem C39_once : forall (T : Type) (N : Num T) (scale centi eps : T) ign unlit opaque99 rough tex_alpha (d : document T) bones sets g,
  to_gltf scale centi eps ign unlit opaque99 rough tex_alpha d bones sets = Some g -> NoDup (bone_ids bones) ->
  Permutation (references g) (seq 0 (length (gdNodes g))).
Proof. exact (fun T N => @referenced_once T N). Qed.
Print Assumptions C39_once.

(** The parent of an object node is an earlier node. *)
Theorem C39_earlier : forall (T : Type) (N : Num T) (scale centi eps : T) ign unlit opaque99 rough tex_alpha (d : document T) bones sets g,
  to_gltf scale centi eps ign unlit opaque99 rough tex_alpha d bones sets = Some g -> NoDup (bone_ids bones) ->
  forall p i, (i < length (exported_objects ign sets (fix_ids 0 (dObjects d))))%nat -> child_of g p i -> (p < i)%nat.
Proof. exact (fun T N => @objects_earlier T N). Qed.
Print Assumptions C39_earlier.

(** The object tree, if the depths of the exported objects go up by one at most. *)
Theorem C39_tree_partial : forall (T : Type) (N : Num T) (scale centi eps : T) unlit opaque99 rough tex_alpha (d : document T) bones sets g,
  to_gltf scale centi eps false unlit opaque99 rough tex_alpha d bones sets = Some g -> NoDup (bone_ids bones) ->
  let depths := map (@oDepth T) (exported_objects false sets (fix_ids 0 (dObjects d))) in
  proper_depths depths -> forall i, (i < length depths)%nat ->
  (In i (gdRoots g) <-> tree_root depths i) /\ forall p, child_of g p i <-> tree_parent depths i p.
Proof.
  intros T N scale centi eps unlit opaque99 rough tex_alpha d bones sets g E HB depths HP i Hi.
  apply (object_tree scale centi eps false unlit opaque99 rough tex_alpha d bones sets g E HB eq_refl HP i).
  unfold depths in Hi. rewrite map_length in Hi. exact Hi.
Qed.
Print Assumptions C39_tree_partial.

(** With [IgnoreObjectHierarchy] all objects are roots. *)
Theorem C39_flat : forall (T : Type) (N : Num T) (scale centi eps : T) unlit opaque99 rough tex_alpha (d : document T) bones sets g,
  to_gltf scale centi eps true unlit opaque99 rough tex_alpha d bones sets = Some g -> NoDup (bone_ids bones) ->
  forall i, (i < length (exported_objects true sets (fix_ids 0 (dObjects d))))%nat -> In i (gdRoots g).
Proof.
  intros T N scale centi eps unlit opaque99 rough tex_alpha d bones sets g E HB.
  exact (flat_objects scale centi eps true unlit opaque99 rough tex_alpha d bones sets g E HB eq_refl).
Qed.
Print Assumptions C39_flat.

(** Bone [k] has the node after the objects, below the node of its parent bone. *)
Theorem C39_bones : forall (T : Type) (N : Num T) (scale centi eps : T) ign unlit opaque99 rough tex_alpha (d : document T) bones sets g,
  to_gltf scale centi eps ign unlit opaque99 rough tex_alpha d bones sets = Some g -> NoDup (bone_ids bones) ->
  let base := length (exported_objects ign sets (fix_ids 0 (dObjects d))) in
  forall k b, nth_error bones k = Some b ->
  (In (base + k)%nat (gdRoots g) <-> bParent b <= 0) /\
  forall p, child_of g p (base + k)%nat <-> exists i, p = (base + i)%nat /\ bone_parent bones i k.
Proof. exact (fun T N => @bone_tree T N). Qed.
Print Assumptions C39_bones.

(** No cycles: every node is reached from a root. *)
Theorem C39_reachable : forall (T : Type) (N : Num T) (scale centi eps : T) ign unlit opaque99 rough tex_alpha (d : document T) bones sets g,
  to_gltf scale centi eps ign unlit opaque99 rough tex_alpha d bones sets = Some g -> NoDup (bone_ids bones) -> proper_bones bones ->
  forall i, (i < length (gdNodes g))%nat -> reachable g i.
Proof. exact (fun T N => @all_reachable T N). Qed.
Print Assumptions C39_reachable.

Definition at_depth (o : object Z) (dp : Z) : object Z :=
  mkObj (oUID o) (oName o) (oVerts o) (oFaces o) (oVisible o) (oLocked o) dp (oFolding o) (oShading o) (oFacet o) (oPatch o)
    (oPatchSegment o) (oMirror o) (oMirrorDis o) (oScale o) (oRotation o) (oTranslation o) (oColor o) (oVertexByUID o) (oInternal o).
Definition node (n : string) (dp : Z) : object Z := at_depth (obj n true ex_verts ex_faces) dp.
Definition mats := [mat "skin"; mat "hair"; mat "none"].
Definition the_bone (id : Z) (n : string) (parent : Z) (p : vec3 Z) (ws : list (Z * list (Z * Z))) : bone Z := mkBone id n parent p ws.
Definition ex_bones : list (bone Z) :=
  [the_bone 3 "hand" 2 (mkV3 5 5 0) [(1, [(1, 100); (2, 50)])]; the_bone 1 "hips" 0 (mkV3 0 5 0) []; the_bone 2 "arm" 1 (mkV3 2 5 0) [(1, [(2, 50); (3, 100)])]].
Definition tree_doc := mkDocument mats [node "a" 0; node "b" 1; node "c" 2; node "d" 1; node "e" 0].

Example C39_example : NoDup (bone_ids ex_bones) /\ proper_bones ex_bones /\ proper_depths (map (@oDepth Z) (exported_objects false [] (fix_ids 0 (dObjects tree_doc)))) /\
  option_map (fun g => (gdRoots g, map (fun n => (gnName n, gnTrans n, gnChildren n)) (gdNodes g)))
    (to_gltf 2 1 1 false false 0 0 (fun _ => false) tree_doc ex_bones []) =
  Some ([6; 0; 4]%nat,
        [("a"%string, mkV3 0 0 0, [1; 3]%nat); ("b"%string, mkV3 0 0 0, [2]%nat); ("c"%string, mkV3 0 0 0, []); ("d"%string, mkV3 0 0 0, []);
         ("e"%string, mkV3 0 0 0, []); ("hand"%string, mkV3 6 0 0, []); ("hips"%string, mkV3 0 10 0, [7]%nat); ("arm"%string, mkV3 4 0 0, [5]%nat)]).
Proof.
  assert (ND : NoDup (bone_ids ex_bones)) by (repeat constructor; cbn; intuition lia).
  split; [exact ND|]. split; [|split; [|vm_compute; reflexivity]].
  - split; [exact ND|]. split; [repeat (apply Forall_cons; [cbn; intros; lia|]); apply Forall_nil|].
    exists (fun id => Z.to_nat id). repeat (apply Forall_cons; [cbn; lia|]); apply Forall_nil.
  - intros i dp. do 5 (destruct i as [|i]; [cbn; intros [= <-]; split; [lia|]; split; [lia|]; cbn; intros e _ [= <-]; lia|]). destruct i; discriminate.
Qed.

(** The depths of the document are proper, but its first object is a morph target and gets no
    node: of its two children, both at depth 1, one becomes the child of the other. *)
Theorem C39_sibling_refuted : exists (d : document Z) sets g,
  to_gltf 1 1 1 false false 0 0 (fun _ => false) d [] sets = Some g /\ proper_depths (map (@oDepth Z) (dObjects d)) /\
  exists i p oi op, nth_error (exported_objects false sets (fix_ids 0 (dObjects d))) i = Some oi /\
    nth_error (exported_objects false sets (fix_ids 0 (dObjects d))) p = Some op /\ oDepth oi = oDepth op /\ child_of g p i.
Proof.
  set (d := mkDocument mats [node "smile" 0; node "left" 1; node "right" 1; node "face" 0]).
  set (sets := [mkTL "face" ["smile"%string]]).
  destruct (to_gltf 1 1 1 false false 0 0 (fun _ => false) d [] sets) as [g|] eqn:E; [|vm_compute in E; discriminate].
  exists d, sets, g. split; [exact E|]. split.
  - intros i dp. do 4 (destruct i as [|i]; [cbn; intros [= <-]; split; [lia|]; split; [lia|]; cbn; intros e _ [= <-]; lia|]). destruct i; discriminate.
  - vm_compute in E. injection E as <-. exists 1%nat, 0%nat. do 2 eexists. split; [vm_compute; reflexivity|]. split; [vm_compute; reflexivity|].
    split; [reflexivity|]. eexists. split; [vm_compute; reflexivity|]. left. reflexivity.
Qed.
Print Assumptions C39_sibling_refuted.
(** The same without morph targets, if a depth is skipped. *)
Theorem C39_gap_refuted : exists (d : document Z) g,
  to_gltf 1 1 1 false false 0 0 (fun _ => false) d [] [] = Some g /\ map (@oDepth Z) (dObjects d) = [0; 2; 2] /\
  tree_parent [0; 2; 2] 2 0 /\ ~ child_of g 0 2 /\ child_of g 1 2.
Proof.
  set (d := mkDocument mats [node "a" 0; node "b" 2; node "c" 2]).
  destruct (to_gltf 1 1 1 false false 0 0 (fun _ => false) d [] []) as [g|] eqn:E; [|vm_compute in E; discriminate].
  exists d, g. split; [exact E|]. split; [reflexivity|]. vm_compute in E. injection E as <-. split; [|split].
  - exists 2, 0. do 2 (split; [reflexivity|]). split; [lia|]. split; [lia|]. intros j dj Hj H. assert (j = 1)%nat by lia. subst j. injection H as <-. lia.
  - intros (n & Hn & Hc). vm_compute in Hn. injection Hn as <-. destruct Hc as [H|[]]. discriminate.
  - eexists. split; [vm_compute; reflexivity|]. left. reflexivity.
Qed.
Print Assumptions C39_gap_refuted.
