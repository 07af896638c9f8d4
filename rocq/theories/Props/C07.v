(** C07: transforming an MQO object moves geometry consistently (exact arithmetic). *)
From Coq Require Import Reals Lra List.
From Verif.Model Require Import Num NumR Vec Matrix Mqo.
From Verif.Spec Require Import GeomSpec MqoSpec.
From Verif.Proofs Require Import MatrixLemmas MqoObjProofs.
Import ListNotations.
Local Open Scope R_scope.

(** Two transforms in a row equal the product, on the whole object (vertices, normals,
    internal transform; everything else is unchanged by both). *)
Theorem C07_apply_transform_compose (a b : mat4 R) (o : object R) :
  affine a -> affine b -> mat_det a <> 0 -> mat_det b <> 0 ->
  apply_transform b (apply_transform a o) = apply_transform (mat_mul b a) o.
Proof. exact (apply_transform_compose a b o). Qed.
Print Assumptions C07_apply_transform_compose.

(** What is moved where, and what is left alone; holds for every scalar arithmetic. *)
Theorem C07_apply_transform_effect (T : Type) (N : Num T) (m : mat4 T) (o : object T) :
  let o' := apply_transform m o in
  oVerts o' = map (mat_apply m) (oVerts o) /\
  map (fun f => (fUID f, fVerts f, fMaterial f, fUVs f)) (oFaces o') =
    map (fun f => (fUID f, fVerts f, fMaterial f, fUVs f)) (oFaces o) /\
  map (fun f => map (fun n => match n with None => true | _ => false end) (fNormals f)) (oFaces o') =
    map (fun f => map (fun n => match n with None => true | _ => false end) (fNormals f)) (oFaces o) /\
  set_internal (set_faces (set_verts o' (oVerts o)) (oFaces o)) (oInternal o) = o.
Proof. exact (apply_transform_effect m o). Qed.
Print Assumptions C07_apply_transform_effect.

(** A normal perpendicular to an edge stays perpendicular to the moved edge. *)
Theorem C07_normals_stay_perpendicular (m : mat4 R) (o : object R) :
  affine m -> mat_det m <> 0 ->
  forall fi k f n i j u v,
  nth_error (oFaces o) fi = Some f -> nth_error (fNormals f) k = Some (Some n) ->
  nth_error (oVerts o) i = Some u -> nth_error (oVerts o) j = Some v ->
  v3dot n (v3sub u v) = 0 ->
  exists f' n' u' v',
    nth_error (oFaces (apply_transform m o)) fi = Some f' /\
    nth_error (fNormals f') k = Some (Some n') /\
    nth_error (oVerts (apply_transform m o)) i = Some u' /\
    nth_error (oVerts (apply_transform m o)) j = Some v' /\
    v3dot n' (v3sub u' v') = 0.
Proof. exact (normals_perpendicular m o). Qed.
Print Assumptions C07_normals_stay_perpendicular.

(** A non-uniform scale with shear meets the hypotheses. *)
Definition shear : mat4 R := mkM 2 0 0 0  1 3 0 0  0 0 1 0  5 6 7 1.
Example C07_shear : affine shear /\ mat_det shear <> 0.
Proof.
  split; [unfold affine, shear; mproj; repeat split; reflexivity|].
  unfold mat_det, mat_t11, mat_t12, mat_t13, mat_t14, shear; mproj; rnum; lra.
Qed.
