(** C42: exported primitives refer to the right material. *)
From Coq Require Import String List ZArith Bool Lia.
From Verif.Model Require Import Num Vec Matrix Mqo MqoDoc Mmd2Mqo Gltf Mqo2Gltf.
From Verif Require Import Spec.GltfSpec Proofs.GltfDoc Proofs.GltfProps Props.C36 Props.C41.
Import ListNotations.
Local Open Scope Z_scope.

(** The material number of every primitive is valid. *)
Theorem C42_valid : forall (T : Type) (N : Num T) (scale centi eps : T) ign unlit opaque99 rough tex_alpha (d : document T) bones sets g,
  to_gltf scale centi eps ign unlit opaque99 rough tex_alpha d bones sets = Some g -> Forall well_indexed (dObjects d) ->
  Forall (fun o => Z.of_nat (length (lists_of o bones)) <= 65536) (exported_objects ign sets (fix_ids 0 (dObjects d))) ->
  forall mesh p, In mesh (gdMeshes g) -> In p (gmPrims mesh) -> exists k gm, gpMaterial p = Some k /\ zidx (gdMats g) k = Some gm.
Proof. exact (fun T N => @material_valid T N). Qed.
Print Assumptions C42_valid.

(** There is one renumbering of the materials that are used and not left out, keeping their order,
    name, colour and sidedness, so that every primitive draws exactly the triangles of an object
    whose material became its own. *)
Theorem C42_renumbered : forall (T : Type) (N : Num T) (scale centi eps : T) ign unlit opaque99 rough tex_alpha (d : document T) bones sets g,
  to_gltf scale centi eps ign unlit opaque99 rough tex_alpha d bones sets = Some g -> Forall well_indexed (dObjects d) ->
  let os := exported_objects ign sets (fix_ids 0 (dObjects d)) in
  Forall (fun o => Z.of_nat (length (lists_of o bones)) <= 65536) os ->
  exists mmap, renumbers os (dMaterials d) (gdMats g) mmap /\
  Forall (fun mesh => exists o, In o os /\ oVisible o = true /\
            exports_mesh scale eps centi unlit (fix_ids 0 (dObjects d)) sets bones mmap o mesh) (gdMeshes g).
Proof. exact (fun T N => @meshes_from T N). Qed.
Print Assumptions C42_renumbered.

(** Material 0 is unused, 1 left out by name, 3 used by a hidden object only. *)
Definition mat_faces : list (face Z) := [mkFace 0 [0; 1; 2] 4 [] []; mkFace 0 [0; 1; 2; 3] 2 [] []; mkFace 0 [1; 2; 3] 1 [] []; mkFace 0 [1; 2; 4] 4 [] []].
Definition mats_doc : document Z :=
  mkDocument [mat "unused"; mat "helper$IGNORE"; mat "skin"; mat "secret"; mat "hair"]
    [obj "body" true ex_verts mat_faces; obj "hidden" false ex_verts [mkFace 0 [0; 1; 2] 3 [] []]].
Example C42_example : Forall well_indexed (dObjects mats_doc) /\
  option_map (fun g => (map (@gtName Z) (gdMats g), map (fun m => map (fun p => (gpMaterial p, gpIndices p)) (gmPrims m)) (gdMeshes g)))
    (to_gltf 2 1 1 false false 0 0 (fun _ => false) mats_doc [] []) =
  Some (["skin"%string; "hair"%string], [[(Some 1, Some [2; 1; 0; 4; 2; 1]); (Some 0, Some [0; 3; 2; 0; 2; 1])]]).
Proof.
  split; [|vm_compute; reflexivity].
  unfold well_indexed. repeat apply Forall_cons; try apply Forall_nil; cbn; (split; [repeat constructor; cbn; lia|]); auto.
Qed.
