(** C44: a document exported to glTF and imported again has its triangles. *)
From Coq Require Import String List ZArith Bool Lia Permutation.
From Verif.Model Require Import Num Vec Matrix Mqo MqoDoc Mmd2Mqo Gltf Mqo2Gltf Gltf2Mqo.
From Verif Require Import Spec.GltfSpec Spec.Gltf2MqoSpec Proofs.GltfDoc Proofs.Gltf2MqoProofs Props.C36 Props.C42.
Import ListNotations.
Local Open Scope Z_scope.

(** One object for every exported object with a mesh, in the same order and with the same name; it has the same
    triangles (scaled, with the same orientation, the new material number and the same texture
    coordinates up to the tolerance of the exporter), except those whose material is left out.  The importer does not fail. *)
Theorem C44_round_trip : forall (T : Type) (N : Num T) (scale centi eps : T) ign unlit opaque99 rough tex_alpha facet half has_pbr
    (d : document T) bones sets g,
  to_gltf scale centi eps ign unlit opaque99 rough tex_alpha d bones sets = Some g -> NoDup (map bID bones) -> Forall well_indexed (dObjects d) ->
  let os := exported_objects ign sets (fix_ids 0 (dObjects d)) in
  Forall (fun o => Z.of_nat (length (lists_of o bones)) <= 65536) os ->
  forall fuel, exists mm d', renumbers os (dMaterials d) (gdMats g) mm /\
    from_gltf facet has_pbr half fuel g = Some (d', []) /\
    Forall2 (comes_back scale eps mm)
      (map fst (filter (fun p => match gnMesh (snd p) with Some _ => true | None => false end) (combine os (gdNodes g)))) (dObjects d').
Proof. exact (fun T N => @round_trip T N). Qed.
Print Assumptions C44_round_trip.

Example C44_example : Forall well_indexed (dObjects mats_doc) /\
  match to_gltf 2 1 1 false false 0 0 (fun _ => false) mats_doc [] [] with
  | Some g => option_map (fun r => (map (@mtName Z) (dMaterials (fst r)),
       map (fun o => (oName o, map (fun f => (map (zidx (oVerts o)) (fVerts f), fMaterial f)) (oFaces o))) (dObjects (fst r)))) (from_gltf 0 (fun _ => true) 0 0 g)
  | None => None
  end = Some (["skin"%string; "hair"%string],
      let v i := option_map (fun q : vec3 Z => mkV3 (2 * vx q) (2 * vy q) (2 * vz q)) (zidx ex_verts i) in
      [("body"%string, [([v 2; v 0; v 1], 1); ([v 4; v 1; v 2], 1); ([v 0; v 2; v 3], 0); ([v 0; v 1; v 2], 0)])]).
Proof. split; [exact (proj1 C42_example)|vm_compute; reflexivity]. Qed.
