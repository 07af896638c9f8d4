(** C68: the exported meshes are the visible objects. *)
From Coq Require Import String List ZArith Bool Lia Permutation.
From Verif.Model Require Import Num Vec Matrix Mqo MqoDoc Mmd2Mqo Gltf Mqo2Gltf.
From Verif Require Import Spec.GltfSpec Spec.DrawnSpec Spec.SceneDrawnSpec Proofs.GltfDoc Proofs.GltfProps Proofs.DrawnDoc Props.C36 Props.C41.
Import ListNotations.
Local Open Scope Z_scope.

(** Object [i] of the exported ones has node [i]: its mesh draws the object, corner by corner, with
    position, texture coordinate, weights and morph offsets, and a normal some face gives to the
    same vertex. *)
Theorem C68_objects : forall (T : Type) (N : Num T) (scale centi eps : T) ign unlit opaque99 rough tex_alpha (d : document T) bones sets g,
  to_gltf scale centi eps ign unlit opaque99 rough tex_alpha d bones sets = Some g -> NoDup (map bID bones) -> Forall well_indexed (dObjects d) ->
  let os := exported_objects ign sets (fix_ids 0 (dObjects d)) in
  Forall (fun o => Z.of_nat (length (lists_of o bones)) <= 65536) os ->
  exists mmap, renumbers os (dMaterials d) (gdMats g) mmap /\
  forall i o, nth_error os i = Some o -> exists n, nth_error (gdNodes g) i = Some n /\
    exports_object scale eps centi unlit (fix_ids 0 (dObjects d)) sets bones (length os) mmap g o n.
Proof. exact (fun T N => @exports_all T N). Qed.
Print Assumptions C68_objects.

(** No triangle with an exported material is lost. *)
Theorem C68_drawn : forall (T : Type) (N : Num T) (scale centi eps : T) ign unlit opaque99 rough tex_alpha (d : document T) bones sets g,
  to_gltf scale centi eps ign unlit opaque99 rough tex_alpha d bones sets = Some g -> NoDup (map bID bones) -> Forall well_indexed (dObjects d) ->
  let os := exported_objects ign sets (fix_ids 0 (dObjects d)) in
  Forall (fun o => Z.of_nat (length (lists_of o bones)) <= 65536) os ->
  exists mm, renumbers os (dMaterials d) (gdMats g) mm /\
  forall i o, nth_error os i = Some o -> oVisible o = true -> exists tris, triangles_of o tris /\
   forall f k, In f tris -> mm (fMaterial f) = Some k ->
   exists n mi mesh p is_ a b c, nth_error (gdNodes g) i = Some n /\ gnMesh n = Some mi /\ nth_error (gdMeshes g) mi = Some mesh /\ In p (gmPrims mesh) /\
     gpMaterial p = Some k /\ gpIndices p = Some is_ /\ (exists u v, is_ = u ++ [c; b; a] ++ v) /\
     exists ws morphs, exports_corner scale eps o ws morphs (given_normal tris) p f 0 a /\
       exports_corner scale eps o ws morphs (given_normal tris) p f 1 b /\ exports_corner scale eps o ws morphs (given_normal tris) p f 2 c.
Proof. exact (fun T N => @faces_drawn T N). Qed.
Print Assumptions C68_drawn.

(** Vertex 1 has three texture coordinates, one within the tolerance of another. *)
Definition uv_faces : list (face Z) :=
  [mkFace 0 [0; 1; 2] 0 [mkV2 0 0; mkV2 4 0; mkV2 8 8] []; mkFace 0 [1; 3; 2] 0 [mkV2 4 1; mkV2 6 6; mkV2 8 8] []; mkFace 0 [1; 4; 2] 0 [mkV2 9 9; mkV2 7 7; mkV2 8 8] []].
Definition uv_doc : document Z := mkDocument [mat "skin"] [obj "hidden" false [] []; obj "body" true ex_verts uv_faces].
Example C68_example : Forall well_indexed (dObjects uv_doc) /\
  option_map (fun g => map (fun m => map (fun p => (gpPos p, gpUV p, gpSkin p, gpIndices p)) (gmPrims m)) (gdMeshes g))
    (to_gltf 2 1 2 false false 0 0 (fun _ => false) uv_doc ex_bones []) =
  Some [[(Some [mkV3 0 0 10; mkV3 8 0 10; mkV3 8 8 10; mkV3 0 8 10; mkV3 16 4 10; mkV3 8 0 10],
          Some [mkV2 0 0; mkV2 4 0; mkV2 8 8; mkV2 6 6; mkV2 7 7; mkV2 9 9],
          Some (let z := (0, 0) in [[(0, 100); z; z; z]; [(0, 50); (1, 50); z; z]; [(1, 100); z; z; z]; [z; z; z; z]; [z; z; z; z]; [(0, 50); (1, 50); z; z]]),
          Some [2; 1; 0; 2; 3; 1; 2; 4; 5])]].
Proof.
  split; [|vm_compute; reflexivity].
  unfold well_indexed. repeat apply Forall_cons; try apply Forall_nil; cbn; (split; [repeat constructor; cbn; lia|]); auto.
Qed.

(** The normals of the corners themselves are not kept: two faces share an edge, with different
    normals and the same texture coordinates, and all corners at the edge get the same one. *)
Definition sharp_faces : list (face Z) :=
  let up := Some (mkV3 0 1 0) in let side := Some (mkV3 1 0 0) in
  [mkFace 0 [0; 1; 2] 0 [mkV2 0 0; mkV2 4 0; mkV2 8 8] [up; up; up]; mkFace 0 [1; 3; 2] 0 [mkV2 4 0; mkV2 6 6; mkV2 8 8] [side; side; side]].
Definition sharp_doc : document Z := mkDocument [mat "skin"] [obj "body" true ex_verts sharp_faces].
Theorem C68_normals_refuted : exists (d : document Z) g o f mesh p ns,
  to_gltf 1 1 1 false false 0 0 (fun _ => false) d [] [] = Some g /\ dObjects d = [o] /\ nth_error (oFaces o) 1 = Some f /\
  gdMeshes g = [mesh] /\ gmPrims mesh = [p] /\ gpIndices p = Some [2; 1; 0; 2; 3; 1] /\ gpNormals p = Some ns /\
  nth_error (fNormals f) 0 = Some (Some (mkV3 1 0 0)) /\ zidx ns 1 = Some (mkV3 0 1 0).
Proof.
  destruct (to_gltf 1 1 1 false false 0 0 (fun _ => false) sharp_doc [] []) as [g|] eqn:E; [|vm_compute in E; discriminate].
  exists sharp_doc, g. do 5 eexists. split; [exact E|]. vm_compute in E. injection E as <-. repeat (split; [reflexivity|]). reflexivity.
Qed.
Print Assumptions C68_normals_refuted.
(** A morph target with another number of vertices is left out. *)
Theorem C68_morph_refuted : exists (d : document Z) sets g mesh, to_gltf 1 1 1 false false 0 0 (fun _ => false) d [] sets = Some g /\
  sets = [mkTL "body" ["smile"%string]] /\ In "smile"%string (map (@oName Z) (dObjects d)) /\ gdMeshes g = [mesh] /\ gmTargetNames mesh = [] /\
  ~ In "smile"%string (map (@gnName Z) (gdNodes g)).
Proof.
  set (d := mkDocument [mat "skin"] [obj "body" true ex_verts uv_faces; obj "smile" true (mkV3 0 0 0 :: ex_verts) uv_faces]).
  destruct (to_gltf 1 1 1 false false 0 0 (fun _ => false) d [] [mkTL "body" ["smile"%string]]) as [g|] eqn:E; [|vm_compute in E; discriminate].
  exists d. do 2 eexists. eexists. split; [exact E|]. split; [reflexivity|]. vm_compute in E. injection E as <-. split; [right; left; reflexivity|].
  split; [reflexivity|]. split; [reflexivity|]. intros [H|[]]. discriminate.
Qed.
Print Assumptions C68_morph_refuted.

(** Everything the document draws, read back through nodes, meshes, primitives and accessors: the triangles of the faces of visible objects that have a material, each exactly once, and nothing else. *)
Theorem C68_document : forall (T : Type) (N : Num T) (scale centi eps : T) ign unlit opaque99 rough tex_alpha (d : document T) bones sets g,
  to_gltf scale centi eps ign unlit opaque99 rough tex_alpha d bones sets = Some g -> NoDup (map bID bones) -> Forall well_indexed (dObjects d) ->
  let es := exported_objects ign sets (fix_ids 0 (dObjects d)) in Forall (fun o => Z.of_nat (length (lists_of o bones)) <= 65536) es ->
  exists mm tss l, renumbers es (dMaterials d) (gdMats g) mm /\ Forall2 (fun o ts => if oVisible o then triangles_of o ts else ts = []) es tss /\
    Permutation l (filter (fun q => match mm (fMaterial (snd q)) with Some _ => true | None => false end) (owned es tss)) /\
    Forall2 (shows_tri scale eps centi unlit bones (length es) mm) l (drawn g).
Proof. exact @doc_drawn. Qed.
Print Assumptions C68_document.
