(** C04: Decompose is a section of NewTRSMatrix4 (exact arithmetic). *)
From Coq Require Import Reals Lra.
From Verif.Model Require Import Num NumR Vec Matrix.
From Verif.Spec Require Import GeomSpec.
From Verif.Proofs Require Import MatrixLemmas DecomposeProofs.
Local Open Scope R_scope.

(** Recomposing gives the same matrix, for every sign pattern of the scale. *)
Theorem C04_decompose_recompose (t : vec3 R) (r : vec4 R) (s : vec3 R) :
  unit_quat r -> vx s <> 0 -> vy s <> 0 -> vz s <> 0 ->
  let '(t', r', s') := mat_decompose (mat_trs t r s) in
  mat_trs t' r' s' = mat_trs t r s /\ unit_quat r' /\ t' = t.
Proof. exact (decompose_recompose t r s). Qed.
Print Assumptions C04_decompose_recompose.

(** With positive scales the parts come back themselves. *)
Theorem C04_decompose_positive (t : vec3 R) (r : vec4 R) (s : vec3 R) :
  unit_quat r -> 0 < vx s -> 0 < vy s -> 0 < vz s ->
  let '(t', r', s') := mat_decompose (mat_trs t r s) in
  t' = t /\ s' = s /\ same_rotation r r'.
Proof. exact (decompose_positive t r s). Qed.
Print Assumptions C04_decompose_positive.

(** A half turn about a diagonal with one mirrored axis meets the hypotheses (and takes the
    last branch of the extraction: the trace is not positive). *)
Example C04_mirrored :
  unit_quat (mkV4 (3/5) 0 (4/5) 0) /\ vx (mkV3 (-2) 3 1) <> 0 /\ vy (mkV3 (-2) 3 1) <> 0 /\ vz (mkV3 (-2) 3 1) <> 0.
Proof. unfold unit_quat; mproj; repeat split; lra. Qed.
