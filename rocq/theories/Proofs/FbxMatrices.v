(** The matrices of FBX models and documents. *)
From Coq Require Import String List ZArith Reals Lra Lia Bool.
From Verif.Model Require Import Num NumR Vec Matrix Euler Fbx2Mqo FbxMatrix.
From Verif.Spec Require Import GeomSpec FbxMatrixSpec.
From Verif.Proofs Require Import MatrixLemmas EulerProofs.
Import ListNotations.
Local Open Scope string_scope.
Local Open Scope R_scope.

Lemma apply_turn_x a v : mat_apply (mat_turn_x a) v = turn_x a v.
Proof. unfold mat_apply, mat_turn_x, turn_x; mproj; rnum; comps; ring. Qed.
Lemma apply_turn_y a v : mat_apply (mat_turn_y a) v = turn_y a v.
Proof. unfold mat_apply, mat_turn_y, turn_y; mproj; rnum; comps; ring. Qed.
Lemma apply_turn_z a v : mat_apply (mat_turn_z a) v = turn_z a v.
Proof. unfold mat_apply, mat_turn_z, turn_z; mproj; rnum; comps; ring. Qed.
Lemma affine_turn_x a : affine (mat_turn_x a). Proof. repeat split. Qed.
Lemma affine_turn_y a : affine (mat_turn_y a). Proof. repeat split. Qed.
Lemma affine_mul (a b : mat4 R) : affine a -> affine b -> affine (mat_mul a b).
Proof. intros (A1 & A2 & A3 & A4) (B1 & B2 & B3 & B4). unfold affine, mat_mul. mproj. rnum. rewrite A1, A2, A3, A4, B1, B2, B3, B4. repeat split; ring. Qed.
Lemma affine_rot (q : vec4 R) : affine (mat_rot q). Proof. repeat split. Qed.
Lemma affine_scale (x y z : R) : affine (mat_scale x y z). Proof. repeat split. Qed.
Lemma degrees_turn a v : mat_apply (mat_rot (euler_to_quat (mkE (v3scale a (PI / 180)) ZYX))) v = turned 0 a v.
Proof.
  rewrite euler_to_matrix. cbn [mat_product]. rewrite mat_apply_mul by (apply affine_mul; [apply affine_turn_y|apply affine_turn_x]). rewrite mat_apply_mul by apply affine_turn_x.
  rewrite apply_turn_x, apply_turn_y, apply_turn_z. reflexivity.
Qed.
Lemma model_point p v : mat_apply (model_matrix p) v =
  v3add (get_translation p) (turned 0 (attr_vec (p "PreRotation") 0 0 0) (turned 0 (get_rotation_deg p) (stretched (get_scaling p) v))).
Proof.
  unfold model_matrix. rewrite mat_apply_mul by apply affine_scale. rewrite mat_apply_mul by apply affine_rot. rewrite mat_apply_mul by apply affine_rot. rewrite !degrees_turn.
  assert (S : mat_apply (mat_scale (vx (get_scaling p)) (vy (get_scaling p)) (vz (get_scaling p))) v = stretched (get_scaling p) v) by (unfold mat_apply, mat_scale, stretched; mproj; rnum; comps; ring).
  rewrite S. generalize (turned 0 (attr_vec (p "PreRotation") 0 0 0) (turned 0 (get_rotation_deg p) (stretched (get_scaling p) v))). intros w. unfold mat_apply, mat_translate, v3add; mproj; rnum; comps; ring.
Qed.
Lemma rad_0 : rad 0 = 0. Proof. unfold rad. ring. Qed.
Lemma turn_x_0 v : turn_x 0 v = v. Proof. destruct v as [a b c]. unfold turn_x. cbn [vx vy vz]. rewrite sin_0, cos_0. comps; ring. Qed.
Lemma turn_y_0 v : turn_y 0 v = v. Proof. destruct v as [a b c]. unfold turn_y. cbn [vx vy vz]. rewrite sin_0, cos_0. comps; ring. Qed.
Lemma turn_z_0 v : turn_z 0 v = v. Proof. destruct v as [a b c]. unfold turn_z. cbn [vx vy vz]. rewrite sin_0, cos_0. comps; ring. Qed.
Lemma turned_0 v : turned 0 (mkV3 0 0 0) v = v.
Proof. unfold turned. cbn [vx vy vz]. now rewrite rad_0, turn_x_0, turn_y_0, turn_z_0. Qed.
Lemma back_0 v : turned_back (mkV3 0 0 0) v = v.
Proof. unfold turned_back. cbn [vx vy vz]. now rewrite Ropp_0, rad_0, turn_x_0, turn_y_0, turn_z_0. Qed.
Lemma add_0 v : v3add (mkV3 0 0 0) v = v :> vec3 R. Proof. destruct v as [a b c]. unfold v3add. cbn [vx vy vz]. rnum. comps; ring. Qed.
Lemma sub_0 v : v3sub v (mkV3 0 0 0) = v :> vec3 R. Proof. destruct v as [a b c]. unfold v3sub. cbn [vx vy vz]. rnum. comps; ring. Qed.
Lemma add_sub a v : v3add a (v3sub v a) = v :> vec3 R. Proof. destruct v as [x y z]. unfold v3sub, v3add. cbn [vx vy vz]. rnum. comps; ring. Qed.
Lemma stretched_1 v : stretched (mkV3 1 1 1) v = v. Proof. destruct v as [a b c]. unfold stretched. cbn [vx vy vz]. comps; ring. Qed.
Lemma matrix_sdk p v : plain_transform p -> mat_apply (model_matrix p) v = sdk_point p 0 v.
Proof.
  intros (SO & RO & PO & SP & RP). rewrite model_point. unfold sdk_point, get_translation, get_rotation_deg, get_scaling. rewrite SO, RO, PO, back_0, !add_0. f_equal.
  assert (E : v3add (attr_vec (p "ScalingPivot") 0 0 0) (stretched (attr_vec (p "Lcl Scaling") 1 1 1) (v3sub v (attr_vec (p "ScalingPivot") 0 0 0))) = stretched (attr_vec (p "Lcl Scaling") 1 1 1) v).
  { destruct SP as [-> | ->]; [now rewrite add_0, sub_0|]. now rewrite !stretched_1, add_sub. }
  rewrite E. destruct RP as [-> | [-> ->]]; [now rewrite add_0, sub_0|]. now rewrite !turned_0, add_sub.
Qed.

(** *** Axes *)
Lemma coord_axes ca ua fa (cs us fs : R) : axis ca -> axis ua -> axis fa -> exists m, coord_matrix ca ua fa cs us fs = Some m /\ affine m /\
  (forall v, mat_apply m v = mkV3 (cs * along ca v) (us * along ua v) (fs * along fa v)).
Proof.
  intros A B C. destruct A as [-> |[-> | ->]]; destruct B as [-> |[-> | ->]]; destruct C as [-> |[-> | ->]]; (eexists; split; [reflexivity|]; split; [repeat split|]); intros v; unfold mat_apply, along; cbn [Z.eqb]; cbn; comps; ring.
Qed.
Lemma sign_sq s : sign_of s -> s * s = 1. Proof. intros [-> | ->]; ring. Qed.
Lemma coord_lengths ca ua fa (cs us fs : R) m v w : axis ca -> axis ua -> axis fa -> ca <> ua -> ua <> fa -> ca <> fa -> sign_of cs -> sign_of us -> sign_of fs -> coord_matrix ca ua fa cs us fs = Some m ->
  v3dot (v3sub (mat_apply m v) (mat_apply m w)) (v3sub (mat_apply m v) (mat_apply m w)) = v3dot (v3sub v w) (v3sub v w).
Proof.
  intros A B C N1 N2 N3 S1 S2 S3 E. destruct (coord_axes ca ua fa cs us fs A B C) as (m' & E' & _ & P). rewrite E in E'. injection E' as <-. rewrite !P. apply sign_sq in S1, S2, S3. unfold v3dot, v3sub. cbn [vx vy vz]. rnum.
  assert (G : forall s x y, s * s = 1 -> (s * x - s * y) * (s * x - s * y) = (x - y) * (x - y)) by (intros s x y Q; replace ((s * x - s * y) * (s * x - s * y)) with (s * s * ((x - y) * (x - y))) by ring; rewrite Q; ring).
  rewrite !G by assumption. destruct A as [-> |[-> | ->]]; destruct B as [-> |[-> | ->]]; destruct C as [-> |[-> | ->]]; try congruence; unfold along; cbn [Z.eqb]; cbn; ring.
Qed.
