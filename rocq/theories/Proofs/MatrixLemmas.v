(** Linear algebra over exact reals for [geom/matrix4.go] and [geom/quaternion.go]. *)
From Coq Require Import Reals Lra Psatz.
From Verif.Model Require Import Num NumR Vec Matrix.
From Verif.Spec Require Import GeomSpec.
Local Open Scope R_scope.

Ltac rnum := cbn [nzero none nadd nsub nmul ndiv nopp nsqrt nltb nleb neqb RNum] in *.
Ltac mdestr := repeat match goal with
  | m : mat4 R |- _ => destruct m
  | v : vec3 R |- _ => destruct v
  | q : vec4 R |- _ => destruct q
  end.
Ltac mproj := cbn [m0 m1 m2 m3 m4 m5 m6 m7 m8 m9 m10 m11 m12 m13 m14 m15
                   vx vy vz qx qy qz qw] in *.

Lemma Reqb_true a b : Reqb a b = true <-> a = b.
Proof. unfold Reqb; destruct (Req_EM_T a b); split; congruence. Qed.
Lemma Reqb_false a b : Reqb a b = false <-> a <> b.
Proof. unfold Reqb; destruct (Req_EM_T a b); split; congruence. Qed.
Lemma Rltb_true a b : Rltb a b = true <-> a < b.
Proof. unfold Rltb; destruct (Rlt_dec a b); split; try congruence; lra. Qed.
Lemma Rltb_false a b : Rltb a b = false <-> b <= a.
Proof. unfold Rltb; destruct (Rlt_dec a b); split; try congruence; lra. Qed.
Lemma Rleb_true a b : Rleb a b = true <-> a <= b.
Proof. unfold Rleb; destruct (Rle_dec a b); split; try congruence; lra. Qed.
Lemma Rleb_false a b : Rleb a b = false <-> b < a.
Proof. unfold Rleb; destruct (Rle_dec a b); split; try congruence; lra. Qed.

(** Componentwise equality; [f_equal] would try to decide real equalities by conversion. *)
Lemma mkM_eq (a0 a1 a2 a3 a4 a5 a6 a7 a8 a9 a10 a11 a12 a13 a14 a15 b0 b1 b2 b3 b4 b5 b6 b7 b8 b9 b10 b11 b12 b13 b14 b15 : R) :
  a0 = b0 -> a1 = b1 -> a2 = b2 -> a3 = b3 -> a4 = b4 -> a5 = b5 -> a6 = b6 -> a7 = b7 -> a8 = b8 -> a9 = b9 -> a10 = b10 -> a11 = b11 -> a12 = b12 -> a13 = b13 -> a14 = b14 -> a15 = b15 -> 
  mkM a0 a1 a2 a3 a4 a5 a6 a7 a8 a9 a10 a11 a12 a13 a14 a15 = mkM b0 b1 b2 b3 b4 b5 b6 b7 b8 b9 b10 b11 b12 b13 b14 b15.
Proof. intros; subst; reflexivity. Qed.
Lemma mkV3_eq (a b c d e f : R) : a = d -> b = e -> c = f -> mkV3 a b c = mkV3 d e f.
Proof. intros; subst; reflexivity. Qed.
Lemma mkV4_eq (a b c d e f g h : R) :
  a = e -> b = f -> c = g -> d = h -> mkV4 a b c d = mkV4 e f g h.
Proof. intros; subst; reflexivity. Qed.
Ltac comps := first [ apply mkM_eq | apply mkV3_eq | apply mkV4_eq ].

(** ** Multiplication *)

Lemma mat_mul_assoc (a b c : mat4 R) : mat_mul a (mat_mul b c) = mat_mul (mat_mul a b) c.
Proof. mdestr; unfold mat_mul; mproj; rnum; comps; ring. Qed.

Lemma mat_mul_id_l (a : mat4 R) : mat_mul mat_id a = a.
Proof. mdestr; unfold mat_mul, mat_id; mproj; rnum; comps; ring. Qed.
Lemma mat_mul_id_r (a : mat4 R) : mat_mul a mat_id = a.
Proof. mdestr; unfold mat_mul, mat_id; mproj; rnum; comps; ring. Qed.

Lemma mat_apply_id (v : vec3 R) : mat_apply mat_id v = v.
Proof. mdestr; unfold mat_apply, mat_id; mproj; rnum; comps; ring. Qed.


Lemma mat_apply_mul (a b : mat4 R) (v : vec3 R) :
  affine b -> mat_apply (mat_mul a b) v = mat_apply a (mat_apply b v).
Proof.
  intros (E3 & E7 & E11 & E15); mdestr; mproj; subst.
  unfold mat_mul, mat_apply; mproj; rnum; comps; ring.
Qed.

Lemma affine_mul (a b : mat4 R) : affine a -> affine b -> affine (mat_mul a b).
Proof.
  intros (A3 & A7 & A11 & A15) (E3 & E7 & E11 & E15); mdestr; mproj; subst.
  unfold affine, mat_mul; mproj; rnum; repeat split; ring.
Qed.
Lemma affine_id : affine mat_id.
Proof. unfold affine, mat_id; mproj; rnum; repeat split; reflexivity. Qed.

(** ** Transposition, determinant *)

Lemma mat_transposed_invol (a : mat4 R) : mat_transposed (mat_transposed a) = a.
Proof. mdestr; reflexivity. Qed.
Lemma mat_transposed_mul (a b : mat4 R) :
  mat_transposed (mat_mul a b) = mat_mul (mat_transposed b) (mat_transposed a).
Proof. mdestr; unfold mat_transposed, mat_mul; mproj; rnum; comps; ring. Qed.

Lemma mat_det_mul (a b : mat4 R) : mat_det (mat_mul a b) = mat_det a * mat_det b.
Proof.
  mdestr; unfold mat_det, mat_t11, mat_t12, mat_t13, mat_t14, mat_mul; mproj; rnum; ring.
Qed.
Lemma mat_det_id : mat_det mat_id = 1.
Proof. unfold mat_det, mat_t11, mat_t12, mat_t13, mat_t14, mat_id; mproj; rnum; ring. Qed.
Lemma mat_det_transposed (a : mat4 R) : mat_det (mat_transposed a) = mat_det a.
Proof.
  mdestr; unfold mat_det, mat_t11, mat_t12, mat_t13, mat_t14, mat_transposed; mproj; rnum; ring.
Qed.

(** ** Inverse *)

Lemma div4 (d a b c e x y z w : R) :
  a * (x / d) + b * (y / d) + c * (z / d) + e * (w / d) = (a * x + b * y + c * z + e * w) / d.
Proof. unfold Rdiv; ring. Qed.
Lemma div4' (d a b c e x y z w : R) :
  x / d * a + y / d * b + z / d * c + w / d * e = (a * x + b * y + c * z + e * w) / d.
Proof. unfold Rdiv; ring. Qed.

Lemma div_one d n : d <> 0 -> n = d -> n / d = 1.
Proof. intros H ->; field; exact H. Qed.
Lemma div_zero d n : n = 0 -> n / d = 0.
Proof. intros ->; unfold Rdiv; ring. Qed.

Lemma mat_inverse_r (a : mat4 R) : mat_det a <> 0 -> mat_mul a (mat_inverse a) = mat_id.
Proof.
  intro Hd. unfold mat_inverse. change (@neqb R RNum) with Reqb. change (@nzero R RNum) with 0.
  destruct (Reqb (mat_det a) 0) eqn:E; [apply Reqb_true in E; contradiction|].
  remember (mat_det a) as d eqn:Ed.
  mdestr; unfold mat_det, mat_mul, mat_id, mat_t11, mat_t12, mat_t13, mat_t14 in *; mproj; rnum.
  rewrite ?div4'. comps.
  all: first [ apply div_zero; ring | apply div_one; [exact Hd | rewrite Ed; ring] ].
Qed.
Lemma mat_inverse_l (a : mat4 R) : mat_det a <> 0 -> mat_mul (mat_inverse a) a = mat_id.
Proof.
  intro Hd. unfold mat_inverse. change (@neqb R RNum) with Reqb. change (@nzero R RNum) with 0.
  destruct (Reqb (mat_det a) 0) eqn:E; [apply Reqb_true in E; contradiction|].
  remember (mat_det a) as d eqn:Ed.
  mdestr; unfold mat_det, mat_mul, mat_id, mat_t11, mat_t12, mat_t13, mat_t14 in *; mproj; rnum.
  rewrite ?div4. comps.
  all: first [ apply div_zero; ring | apply div_one; [exact Hd | rewrite Ed; ring] ].
Qed.
Lemma mat_inverse_singular (a : mat4 R) : mat_det a = 0 -> mat_inverse a = mat_zero.
Proof.
  intro E. unfold mat_inverse. change (@neqb R RNum) with Reqb. change (@nzero R RNum) with 0.
  destruct (Reqb (mat_det a) 0) eqn:F; [reflexivity|]. apply Reqb_false in F; contradiction.
Qed.

Lemma mat_det_inverse (a : mat4 R) : mat_det a <> 0 -> mat_det (mat_inverse a) = / mat_det a.
Proof.
  intro H. pose proof (f_equal mat_det (mat_inverse_r a H)) as E.
  rewrite mat_det_mul, mat_det_id in E. apply (Rmult_eq_reg_l (mat_det a)); [|exact H].
  rewrite E; field; exact H.
Qed.

(** Right inverses are unique. *)
Lemma mat_inverse_unique (a b : mat4 R) : mat_mul a b = mat_id -> mat_inverse a = b.
Proof.
  intro E.
  assert (Hd : mat_det a <> 0).
  { intro Z. pose proof (f_equal mat_det E) as D.
    rewrite mat_det_mul, mat_det_id, Z in D. lra. }
  rewrite <- (mat_mul_id_r (mat_inverse a)), <- E, mat_mul_assoc, (mat_inverse_l a Hd), mat_mul_id_l.
  reflexivity.
Qed.
Lemma mat_inverse_mul (a b : mat4 R) :
  mat_det a <> 0 -> mat_det b <> 0 ->
  mat_inverse (mat_mul a b) = mat_mul (mat_inverse b) (mat_inverse a).
Proof.
  intros Ha Hb. apply mat_inverse_unique.
  rewrite mat_mul_assoc, <- (mat_mul_assoc a b), (mat_inverse_r b Hb), mat_mul_id_r.
  apply mat_inverse_r; exact Ha.
Qed.

(** ** Quaternions *)


Lemma qmul_unit p q : unit_quat p -> unit_quat q -> unit_quat (qmul p q).
Proof.
  unfold unit_quat; intros Hp Hq. mdestr; unfold qmul; mproj; rnum.
  transitivity ((qx * qx + qy * qy + qz * qz + qw * qw) *
                (qx0 * qx0 + qy0 * qy0 + qz0 * qz0 + qw0 * qw0)); [ring|].
  rewrite Hp, Hq; ring.
Qed.

Lemma qapply_mul (p q : vec4 R) v : qapply (qmul p q) v = qapply p (qapply q v).
Proof. mdestr; unfold qapply, qmul; mproj; rnum; comps; ring. Qed.

Lemma qapply_dot (q : vec4 R) v w :
  unit_quat q -> v3dot (qapply q v) (qapply q w) = v3dot v w.
Proof.
  unfold unit_quat; intro H. mdestr; unfold qapply, v3dot; mproj; rnum.
  transitivity ((qx * qx + qy * qy + qz * qz + qw * qw) * (qx * qx + qy * qy + qz * qz + qw * qw) *
                (vx * vx0 + vy * vy0 + vz * vz0)); [ring|].
  rewrite H; ring.
Qed.

Lemma qapply_inv (q : vec4 R) v : unit_quat q -> qapply (qinv q) (qapply q v) = v.
Proof.
  unfold unit_quat; intro H. mdestr; unfold qapply, qinv; mproj; rnum.
  assert (K : forall x n, n = 1 -> n * n * x = x) by (intros x n ->; ring).
  comps; (etransitivity; [|apply (K _ _ H)]; ring).
Qed.
Lemma qapply_inv' (q : vec4 R) v : unit_quat q -> qapply q (qapply (qinv q) v) = v.
Proof.
  unfold unit_quat; intro H. mdestr; unfold qapply, qinv; mproj; rnum.
  assert (K : forall x n, n = 1 -> n * n * x = x) by (intros x n ->; ring).
  comps; (etransitivity; [|apply (K _ _ H)]; ring).
Qed.
Lemma qinv_unit q : unit_quat q -> unit_quat (qinv q).
Proof. unfold unit_quat; intro H; mdestr; unfold qinv; mproj; rnum; rewrite <- H; ring. Qed.

(** The rotation keeps orientation: it commutes with the cross product. *)
Lemma qapply_cross (q : vec4 R) v w :
  unit_quat q -> qapply q (v3cross v w) = v3cross (qapply q v) (qapply q w).
Proof.
  unfold unit_quat; intro H. mdestr; unfold qapply, v3cross; mproj; rnum.
  assert (K : forall x n, n = 1 -> x = n * x) by (intros x n ->; ring).
  comps; (etransitivity; [apply (K _ _ H)|]; ring).
Qed.

Lemma mat_rot_apply (q : vec4 R) v : unit_quat q -> mat_apply (mat_rot q) v = qapply q v.
Proof.
  unfold unit_quat; intro H. mdestr; unfold mat_apply, mat_rot, qapply; mproj; rnum.
  assert (Hw : qw * qw = 1 - qx * qx - qy * qy - qz * qz) by (rewrite <- H; ring).
  comps; ring [Hw].
Qed.
Lemma mat_rot_affine q : affine (mat_rot q).
Proof. unfold affine, mat_rot; mproj; rnum; repeat split; reflexivity. Qed.
Lemma mat_translate_affine x y z : affine (mat_translate x y z).
Proof. unfold affine, mat_translate; mproj; rnum; repeat split; reflexivity. Qed.
Lemma mat_scale_affine x y z : affine (mat_scale x y z).
Proof. unfold affine, mat_scale; mproj; rnum; repeat split; reflexivity. Qed.

Lemma mat_rot_mul p q : unit_quat p -> unit_quat q ->
  mat_rot (qmul p q) = mat_mul (mat_rot p) (mat_rot q).
Proof.
  unfold unit_quat; intros Hp Hq. destruct p as [qx qy qz qw], q as [qx0 qy0 qz0 qw0].
  unfold mat_rot, qmul, mat_mul; mproj; rnum.
  assert (Hp' : qw * qw = 1 - qx * qx - qy * qy - qz * qz) by (rewrite <- Hp; ring).
  assert (Hq' : qw0 * qw0 = 1 - qx0 * qx0 - qy0 * qy0 - qz0 * qz0) by (rewrite <- Hq; ring).
  comps; try ring; ring [Hp' Hq'].
Qed.

Lemma mat_trs_apply t r s v :
  unit_quat r ->
  mat_apply (mat_trs t r s) v =
  v3add t (qapply r (mkV3 (vx s * vx v) (vy s * vy v) (vz s * vz v))).
Proof.
  intro H. unfold mat_trs.
  rewrite mat_apply_mul by (apply affine_mul; [apply mat_rot_affine | apply mat_scale_affine]).
  rewrite mat_apply_mul by apply mat_scale_affine.
  rewrite mat_rot_apply by exact H.
  assert (E : mat_apply (mat_scale (vx s) (vy s) (vz s)) v = mkV3 (vx s * vx v) (vy s * vy v) (vz s * vz v)).
  { mdestr; unfold mat_apply, mat_scale; mproj; rnum; comps; ring. }
  rewrite E. generalize (qapply r (mkV3 (vx s * vx v) (vy s * vy v) (vz s * vz v))); intro w.
  mdestr; unfold mat_apply, mat_translate, v3add; mproj; rnum; comps; ring.
Qed.
