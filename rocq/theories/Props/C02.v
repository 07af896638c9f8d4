(** C02: matrix algebra used everywhere is sound (exact arithmetic). *)
From Coq Require Import Reals Lra.
From Verif.Model Require Import Num NumR Vec Matrix.
From Verif.Spec Require Import GeomSpec.
From Verif.Proofs Require Import MatrixLemmas.
Local Open Scope R_scope.

Theorem C02_apply_mul (a b : mat4 R) (v : vec3 R) :
  affine b -> mat_apply (mat_mul a b) v = mat_apply a (mat_apply b v).
Proof. exact (mat_apply_mul a b v). Qed.
Print Assumptions C02_apply_mul.

Theorem C02_mul_monoid (a b c : mat4 R) :
  mat_mul a (mat_mul b c) = mat_mul (mat_mul a b) c /\
  mat_mul mat_id a = a /\ mat_mul a mat_id = a /\
  (forall v, mat_apply mat_id v = v).
Proof. exact (conj (mat_mul_assoc a b c) (conj (mat_mul_id_l a) (conj (mat_mul_id_r a) mat_apply_id))). Qed.
Print Assumptions C02_mul_monoid.

Theorem C02_inverse (a : mat4 R) :
  (mat_det a <> 0 -> mat_mul a (mat_inverse a) = mat_id /\ mat_mul (mat_inverse a) a = mat_id) /\
  (mat_det a = 0 -> mat_inverse a = mat_zero).
Proof.
  exact (conj (fun H => conj (mat_inverse_r a H) (mat_inverse_l a H)) (mat_inverse_singular a)).
Qed.
Print Assumptions C02_inverse.

Theorem C02_inverse_mul (a b : mat4 R) :
  mat_det a <> 0 -> mat_det b <> 0 ->
  mat_inverse (mat_mul a b) = mat_mul (mat_inverse b) (mat_inverse a).
Proof. exact (mat_inverse_mul a b). Qed.
Print Assumptions C02_inverse_mul.

Theorem C02_det_mul (a b : mat4 R) :
  mat_det (mat_mul a b) = mat_det a * mat_det b /\ mat_det (mat_id : mat4 R) = 1.
Proof. exact (conj (mat_det_mul a b) mat_det_id). Qed.
Print Assumptions C02_det_mul.

Theorem C02_transposed (a b : mat4 R) :
  mat_transposed (mat_transposed a) = a /\
  mat_transposed (mat_mul a b) = mat_mul (mat_transposed b) (mat_transposed a) /\
  mat_det (mat_transposed a) = mat_det a.
Proof. exact (conj (mat_transposed_invol a) (conj (mat_transposed_mul a b) (mat_det_transposed a))). Qed.
Print Assumptions C02_transposed.

(** An invertible affine matrix that is neither diagonal nor a rotation; and a singular one. *)
Definition shear : mat4 R := mkM 2 0 0 0  1 3 0 0  0 0 1 0  5 6 7 1.
Example C02_shear : affine shear /\ mat_det shear = 6.
Proof.
  split; [unfold affine, shear; mproj; repeat split; reflexivity|].
  unfold mat_det, mat_t11, mat_t12, mat_t13, mat_t14, shear; mproj; rnum; ring.
Qed.
(** The point is moved as expected: the matrix is column-major. *)
Example C02_shear_apply : mat_apply shear (mkV3 1 1 1) = mkV3 8 9 8.
Proof. unfold mat_apply, shear; mproj; rnum; comps; ring. Qed.
