(** What a PMX model of a glTF scene should show. *)
From Coq Require Import String List ZArith Bool.
From Verif.Model Require Import Num Vec Matrix Mqo MqoDoc Mmd2Mqo Gltf GltfScene.
From Verif Require Import Spec.GltfSceneSpec Spec.Mqo2MmdSpec Spec.FbxPmxSpec.
Import ListNotations.
Local Open Scope Z_scope.
Local Open Scope list_scope.

Section Spec.
Context {T : Type} {N : Num T}.

(** Every material that a primitive of the document names exists. *)
Definition materials_exist (d : xdoc T) : Prop := forall m p k, In m (xdMeshes d) -> In p (xmPrims m) -> gpMaterial (xpPrim p) = Some k -> 0 <= k < Z.of_nat (length (xdMats d)).
(** No morph target has the name of a mesh. *)
Definition no_targets (d : xdoc T) (sets : list target_list) : Prop := forall m s, In m (xdMeshes d) -> In s sets -> ~ In (xmName m) (tlTargets s).
(** Vertex [id] of the model is at [a]. *)
Definition vertex_at (p : pmodel T) (id : Z) (a : vec3 T) : Prop := exists x, zidx (pVerts p) id = Some x /\ pvPos x = a.
(** Face [ids] has its corners at these places, listed in the opposite order: glTF has the front where they run counter-clockwise, PMX where they run clockwise. *)
Definition face_at (p : pmodel T) (ids : list Z) (a b c : vec3 T) : Prop :=
  exists x y z, ids = [x; z; y] /\ vertex_at p x a /\ vertex_at p y b /\ vertex_at p z c.
(** The faces of the model with the numbers of their materials. *)
Definition painted_faces (p : pmodel T) : list (nat * list Z) := combine (face_owners (pMats p)) (pFaces p).
(** The number of triangles of the meshes of all nodes. *)
Definition mesh_triangles (m : xmesh T) : nat :=
  list_sum (map (fun p => match gpIndices (xpPrim p) with Some is_ => length is_ / 3 | None => 0 end)%nat (xmPrims m)).
Definition scene_triangles (d : xdoc T) : nat :=
  list_sum (map (fun n => match xnMesh n with Some i => match nth_error (xdMeshes d) i with Some m => mesh_triangles m | None => 0%nat end | None => 0%nat end) (xdNodes d)).
End Spec.
