(** C43: glTF meshes are imported with all their triangles in place. *)
From Coq Require Import String List ZArith Bool Lia.
From Verif.Model Require Import Num Vec Matrix Mqo MqoDoc Mmd2Mqo Gltf Gltf2Mqo.
From Verif Require Import Spec.Gltf2MqoSpec Proofs.Gltf2MqoProofs.
Import ListNotations.
Local Open Scope Z_scope.

(** The claim: every triangle of the mesh is a face of the object, and the corners of the face are where
    the primitive puts them. *)
Definition triangles_in_place {T : Type} (m : gmesh T) (o : object T) : Prop :=
  forall p is_ k a b c qa qb qc, In p (gmPrims m) -> gpIndices p = Some is_ -> triangle_at is_ k a b c ->
  prim_pos p a qa -> prim_pos p b qb -> prim_pos p c qc ->
  exists f x y z, In f (oFaces o) /\ fVerts f = [x; z; y] /\
    zidx (oVerts o) x = Some qa /\ zidx (oVerts o) y = Some qb /\ zidx (oVerts o) z = Some qc.

Definition quad : list (vec3 Z) := [mkV3 0 0 0; mkV3 1 0 0; mkV3 1 1 0; mkV3 0 1 0].
Definition plain_prim (pos : list (vec3 Z)) (is_ : option (list Z)) : prim Z := mkPrim (Some pos) None None None [] is_ (Some 0).

(** The vertices of the second primitive are appended, but its indices are not moved. *)
Theorem C43_offset_refuted : exists (m : gmesh Z) o, import_mesh 0 m = Some o /\ ~ triangles_in_place m o.
Proof.
  exists (mkMesh "two" [plain_prim quad (Some [0; 1; 2]); plain_prim (map (fun v => mkV3 (vx v + 10) (vy v) (vz v)) quad) (Some [0; 1; 2])] []).
  eexists. split; [vm_compute; reflexivity|]. intros H.
  destruct (H (plain_prim (map (fun v => mkV3 (vx v + 10) (vy v) (vz v)) quad) (Some [0; 1; 2])) [0; 1; 2] O 0 1 2 (mkV3 10 0 0) (mkV3 11 0 0) (mkV3 11 1 0))
    as (f & x & y & z & Hf & Hv & Hx & _).
  1: right; left; reflexivity. 1: reflexivity. 1: repeat split.
  1-3: eexists; split; reflexivity.
  cbn in Hf. destruct Hf as [<-|[<-|[]]]; cbn in Hv; injection Hv as <- <- <-; vm_compute in Hx; discriminate.
Qed.
Print Assumptions C43_offset_refuted.

(** Primitives without indices, which draw their vertices three by three, disappear. *)
Theorem C43_unindexed_refuted : exists (m : gmesh Z) o, gmPrims m <> [] /\ Forall (fun p => gpPos p = Some quad) (gmPrims m) /\
  import_mesh 0 m = Some o /\ oVerts o = [] /\ oFaces o = [].
Proof. exists (mkMesh "soup" [plain_prim quad None] []). eexists. split; [discriminate|]. split; [constructor; [reflexivity|constructor]|]. vm_compute. auto. Qed.
Print Assumptions C43_unindexed_refuted.

(** Exactly what is imported: the positions of the indexed primitives one after the other, and for every
    primitive its triangles with their material and texture coordinates. *)
Theorem C43_exact : forall (T : Type) (N : Num T) (facet : T) (m : gmesh T) o, import_mesh facet m = Some o ->
  oName o = gmName m /\ oVisible o = true /\ oVerts o = positions (gmPrims m) /\
  exists groups, oFaces o = concat groups /\ Forall2 imports_prim (gmPrims m) groups.
Proof. exact (fun T N => @import_mesh_spec T N). Qed.
Print Assumptions C43_exact.

(** The claim holds if the primitives share their positions, as in the documents written by this program. *)
Theorem C43_shared_partial : forall (T : Type) (N : Num T) (facet : T) (m : gmesh T) o pos, import_mesh facet m = Some o ->
  Forall (fun p => gpIndices p <> None -> gpPos p = Some pos) (gmPrims m) -> triangles_in_place m o.
Proof.
  intros T N facet m o pos H HS p is_ k a b c qa qb qc Hp Hi Ht Ha Hb Hc.
  destruct (shared_corners facet m o pos H HS p is_ k a b c qa qb qc Hp Hi Ht Ha Hb Hc) as (f & H1 & H2 & H3 & H4 & H5). exists f, a, b, c. auto.
Qed.
Print Assumptions C43_shared_partial.

Example C43_example :
  let uv := [mkV2 0 0; mkV2 5 0; mkV2 5 5; mkV2 0 5] in
  let m := mkMesh "quad" [mkPrim (Some quad) (Some uv) None None [] (Some [0; 1; 2]) (Some 3); mkPrim (Some quad) None None None [] (Some [0; 2; 3; 1]) None] [] in
  Forall (fun p => gpIndices p <> None -> gpPos p = Some quad) (gmPrims m) /\
  option_map (fun o => (oVerts o, map (fun f => (fVerts f, fMaterial f, fUVs f)) (oFaces o))) (import_mesh 0 m) =
  Some (quad ++ quad, [([0; 2; 1], 3, [mkV2 0 0; mkV2 5 5; mkV2 5 0]); ([0; 3; 2], 0, [])]).
Proof. split; [|vm_compute; reflexivity]. repeat (apply Forall_cons; [reflexivity|]). apply Forall_nil. Qed.
