(** [Matrix4.Decompose] (geom/matrix4.go:166-217) over exact reals. *)
From Coq Require Import Reals Lra Psatz.
From Verif.Model Require Import Num NumR Vec Matrix.
From Verif.Spec Require Import GeomSpec.
From Verif.Proofs Require Import MatrixLemmas.
Local Open Scope R_scope.

(** ** Reading the quaternion off a rotation matrix *)


Lemma same_rotation_mat p q : same_rotation p q -> mat_rot q = mat_rot p.
Proof.
  intros [->| ->]; [reflexivity|].
  destruct p as [x y z w]; unfold mat_rot, v4scale; mproj; rnum; comps; ring.
Qed.
Lemma same_rotation_unit p q : unit_quat p -> same_rotation p q -> unit_quat q.
Proof.
  intros H [->| ->]; [exact H|]. unfold unit_quat in *.
  destruct p as [x y z w]; unfold v4scale; mproj; rnum; rewrite <- H; ring.
Qed.

Definition quat_of_rot (m : mat4 R) : vec4 R :=
  rot_to_quat (m0 m) (m4 m) (m8 m) (m1 m) (m5 m) (m9 m) (m2 m) (m6 m) (m10 m).

Lemma sqrt_4sq a : sqrt (4 * (a * a)) = 2 * Rabs a.
Proof.
  replace (4 * (a * a)) with (Rsqr (2 * a)) by (unfold Rsqr; ring).
  rewrite sqrt_Rsqr_abs, Rabs_mult, (Rabs_right 2) by lra. reflexivity.
Qed.

Lemma quat_of_rot_spec p : unit_quat p -> same_rotation p (quat_of_rot (mat_rot p)).
Proof.
  intro U. destruct p as [x y z w]. unfold unit_quat in U; mproj.
  unfold quat_of_rot, rot_to_quat, mat_rot; mproj; rnum.
  assert (Hw : w * w = 1 - x * x - y * y - z * z) by (rewrite <- U; ring).
  set (tr := 1 - (1 + 1) * y * y - (1 + 1) * z * z + (1 - (1 + 1) * x * x - (1 + 1) * z * z) +
             (1 - (1 + 1) * x * x - (1 + 1) * y * y)).
  assert (Etr : tr + 1 = 4 * (w * w)) by (unfold tr; rewrite Hw; ring).
  destruct (Rltb 0 tr) eqn:B0.
  { apply Rltb_true in B0. rewrite Etr, sqrt_4sq.
    assert (w <> 0) by (intros ->; lra).
    destruct (Rcase_abs w) as [N|P].
    - right. rewrite Rabs_left by lra. unfold v4scale; mproj; rnum; comps; field; lra.
    - left. rewrite Rabs_right by lra. comps; field; lra. }
  apply Rltb_false in B0.
  assert (Wle : 4 * (w * w) <= 1) by lra. clear Etr B0 tr.
  match goal with |- context [andb (Rltb ?a ?b) (Rltb ?c ?b)] =>
    destruct (andb (Rltb a b) (Rltb c b)) eqn:B1 end.
  { apply andb_prop in B1. destruct B1 as [B1 B2]. apply Rltb_true in B1, B2.
    assert (x * x > y * y) by lra. assert (x <> 0) by (intros ->; nra).
    match goal with |- context [sqrt ?e] => replace e with (4 * (x * x)) by ring end.
    rewrite sqrt_4sq.
    destruct (Rcase_abs x) as [N|P].
    - right. rewrite Rabs_left by lra. unfold v4scale; mproj; rnum; comps; field; lra.
    - left. rewrite Rabs_right by lra. comps; field; lra. }
  assert (NX : x * x <= y * y \/ x * x <= z * z).
  { apply Bool.andb_false_iff in B1. destruct B1 as [B1|B1]; apply Rltb_false in B1; [left|right]; lra. }
  clear B1.
  match goal with |- context [Rltb ?c ?b] => destruct (Rltb c b) eqn:B3 end.
  { apply Rltb_true in B3. assert (z * z < y * y) by lra. assert (y <> 0) by (intros ->; nra).
    match goal with |- context [sqrt ?e] => replace e with (4 * (y * y)) by ring end.
    rewrite sqrt_4sq.
    destruct (Rcase_abs y) as [N|P].
    - right. rewrite Rabs_left by lra. unfold v4scale; mproj; rnum; comps; field; lra.
    - left. rewrite Rabs_right by lra. comps; field; lra. }
  apply Rltb_false in B3. assert (y * y <= z * z) by lra.
  assert (z <> 0) by (intros ->; destruct NX; nra).
  match goal with |- context [sqrt ?e] => replace e with (4 * (z * z)) by ring end.
  rewrite sqrt_4sq.
  destruct (Rcase_abs z) as [N|P].
  - right. rewrite Rabs_left by lra. unfold v4scale; mproj; rnum; comps; field; lra.
  - left. rewrite Rabs_right by lra. comps; field; lra.
Qed.

(** ** The matrix built from translation, rotation and scale *)

Lemma mat_mul_scale (m : mat4 R) x y z :
  mat_mul m (mat_scale x y z) =
  mkM (m0 m * x) (m1 m * x) (m2 m * x) (m3 m * x) (m4 m * y) (m5 m * y) (m6 m * y) (m7 m * y)
      (m8 m * z) (m9 m * z) (m10 m * z) (m11 m * z) (m12 m) (m13 m) (m14 m) (m15 m).
Proof. destruct m; unfold mat_mul, mat_scale; mproj; rnum; comps; ring. Qed.

Lemma mat_translate_mul (m : mat4 R) x y z : m3 m = 0 -> m7 m = 0 -> m11 m = 0 -> m15 m = 1 ->
  mat_mul (mat_translate x y z) m =
  mkM (m0 m) (m1 m) (m2 m) 0 (m4 m) (m5 m) (m6 m) 0 (m8 m) (m9 m) (m10 m) 0
      (m12 m + x) (m13 m + y) (m14 m + z) 1.
Proof.
  destruct m; unfold mat_mul, mat_translate; mproj; rnum; intros -> -> -> ->; comps; ring.
Qed.

Lemma mat_trs_entries t r s :
  mat_trs t r s =
  let m := mat_rot r in
  mkM (m0 m * vx s) (m1 m * vx s) (m2 m * vx s) 0
      (m4 m * vy s) (m5 m * vy s) (m6 m * vy s) 0
      (m8 m * vz s) (m9 m * vz s) (m10 m * vz s) 0
      (vx t) (vy t) (vz t) 1.
Proof.
  unfold mat_trs; rewrite mat_mul_scale.
  assert (E : m3 (mat_rot r) = 0 /\ m7 (mat_rot r) = 0 /\ m11 (mat_rot r) = 0 /\ m12 (mat_rot r) = 0
    /\ m13 (mat_rot r) = 0 /\ m14 (mat_rot r) = 0 /\ m15 (mat_rot r) = 1)
    by (unfold mat_rot; mproj; rnum; repeat split; reflexivity).
  destruct E as (E3 & E7 & E11 & E12 & E13 & E14 & E15).
  rewrite mat_translate_mul; mproj; rewrite ?E3, ?E7, ?E11, ?E12, ?E13, ?E14, ?E15; try ring.
  cbv zeta; comps; ring.
Qed.

Lemma rot_columns q : unit_quat q ->
  let m := mat_rot q in
  m0 m * m0 m + m1 m * m1 m + m2 m * m2 m = 1 /\
  m4 m * m4 m + m5 m * m5 m + m6 m * m6 m = 1 /\
  m8 m * m8 m + m9 m * m9 m + m10 m * m10 m = 1.
Proof.
  intro U; destruct q as [x y z w]; unfold unit_quat, mat_rot in *; mproj; rnum; cbv zeta.
  assert (Hw : w * w = 1 - x * x - y * y - z * z) by (rewrite <- U; ring).
  repeat split; ring [Hw].
Qed.

Lemma trs_det t r s : unit_quat r -> mat_det (mat_trs t r s) = vx s * vy s * vz s.
Proof.
  intro U; unfold mat_trs; rewrite !mat_det_mul.
  assert (D1 : mat_det (mat_translate (vx t) (vy t) (vz t)) = 1).
  { unfold mat_det, mat_t11, mat_t12, mat_t13, mat_t14, mat_translate; mproj; rnum; ring. }
  assert (D2 : mat_det (mat_rot r) = 1).
  { destruct r as [x y z w]; unfold unit_quat in U; mproj.
    assert (Hw : w * w = 1 - x * x - y * y - z * z) by (rewrite <- U; ring).
    unfold mat_det, mat_t11, mat_t12, mat_t13, mat_t14, mat_rot; mproj; rnum; ring [Hw]. }
  assert (D3 : mat_det (mat_scale (vx s) (vy s) (vz s)) = vx s * vy s * vz s).
  { unfold mat_det, mat_t11, mat_t12, mat_t13, mat_t14, mat_scale; mproj; rnum; ring. }
  rewrite D1, D2, D3; ring.
Qed.

Lemma col_len a b c s : a * a + b * b + c * c = 1 ->
  sqrt (a * s * (a * s) + b * s * (b * s) + c * s * (c * s)) = Rabs s.
Proof.
  intro E. replace (a * s * (a * s) + b * s * (b * s) + c * s * (c * s))
    with ((a * a + b * b + c * c) * Rsqr s) by (unfold Rsqr; ring).
  rewrite E, Rmult_1_l. apply sqrt_Rsqr_abs.
Qed.

Lemma decomp_scale_trs t r s : unit_quat r ->
  decomp_scale (mat_trs t r s) =
  mkV3 (if Rltb (vx s * vy s * vz s) 0 then - Rabs (vx s) else Rabs (vx s))
       (Rabs (vy s)) (Rabs (vz s)).
Proof.
  intro U. unfold decomp_scale. rewrite (trs_det t r s U), mat_trs_entries.
  destruct (rot_columns r U) as (C1 & C2 & C3). cbv zeta in C1, C2, C3.
  unfold v3len; cbv zeta; mproj; rnum.
  rewrite !col_len by assumption. reflexivity.
Qed.

(** Flipping two axes of a rotation is again a rotation. *)
Lemma flip_axes r ex ey ez : unit_quat r ->
  (ex = 1 \/ ex = -1) -> (ey = 1 \/ ey = -1) -> (ez = 1 \/ ez = -1) -> ex * ey * ez = 1 ->
  exists p, unit_quat p /\ mat_rot p = mat_mul (mat_rot r) (mat_scale ex ey ez).
Proof.
  intros U HX HY HZ E.
  assert (G : forall u : vec4 R, unit_quat u -> mat_rot u = mat_scale ex ey ez ->
    exists p, unit_quat p /\ mat_rot p = mat_mul (mat_rot r) (mat_scale ex ey ez)).
  { intros u Hu Eu. exists (qmul r u); split; [apply qmul_unit; assumption|].
    rewrite mat_rot_mul, Eu by assumption; reflexivity. }
  destruct HX as [-> | ->], HY as [-> | ->], HZ as [-> | ->]; try lra.
  - apply (G (mkV4 0 0 0 1)); [unfold unit_quat; mproj; ring|].
    unfold mat_rot, mat_scale; mproj; rnum; comps; ring.
  - apply (G (mkV4 1 0 0 0)); [unfold unit_quat; mproj; ring|].
    unfold mat_rot, mat_scale; mproj; rnum; comps; ring.
  - apply (G (mkV4 0 1 0 0)); [unfold unit_quat; mproj; ring|].
    unfold mat_rot, mat_scale; mproj; rnum; comps; ring.
  - apply (G (mkV4 0 0 1 0)); [unfold unit_quat; mproj; ring|].
    unfold mat_rot, mat_scale; mproj; rnum; comps; ring.
Qed.

Lemma sign_of s : s <> 0 -> exists e, (e = 1 \/ e = -1) /\ Rabs s = e * s /\ e * e = 1 /\ (e = 1 -> 0 < s) /\ (e = -1 -> s < 0).
Proof.
  intro H. destruct (Rcase_abs s) as [N|P].
  - exists (-1). rewrite Rabs_left by exact N. repeat split; try lra.
  - exists 1. rewrite Rabs_right by exact P. repeat split; lra.
Qed.

(** The scale [Decompose] finds is the original one up to flipping an even number of axes. *)
Lemma decomp_scale_signs t r s : unit_quat r -> vx s <> 0 -> vy s <> 0 -> vz s <> 0 ->
  exists ex ey ez, (ex = 1 \/ ex = -1) /\ (ey = 1 \/ ey = -1) /\ (ez = 1 \/ ez = -1) /\
    ex * ey * ez = 1 /\
    decomp_scale (mat_trs t r s) = mkV3 (ex * vx s) (ey * vy s) (ez * vz s).
Proof.
  intros U NX NY NZ. rewrite (decomp_scale_trs t r s U).
  destruct (sign_of _ NX) as (ex & DX & EX & QX & PX1 & PX2).
  destruct (sign_of _ NY) as (ey & DY & EY & QY & PY1 & PY2).
  destruct (sign_of _ NZ) as (ez & DZ & EZ & QZ & PZ1 & PZ2).
  rewrite EX, EY, EZ.
  remember (vx s) as a; remember (vy s) as b; remember (vz s) as c.
  assert (P : 0 < ex * a * (ey * b) * (ez * c)).
  { rewrite <- EX, <- EY, <- EZ.
    apply Rmult_lt_0_compat; [apply Rmult_lt_0_compat|]; apply Rabs_pos_lt; assumption. }
  destruct (Rltb (a * b * c) 0) eqn:B.
  - apply Rltb_true in B. exists (- ex), ey, ez.
    repeat split; try assumption; try lra.
    + destruct DX as [-> | ->], DY as [-> | ->], DZ as [-> | ->]; try lra; exfalso; nra.
    + comps; ring.
  - apply Rltb_false in B. exists ex, ey, ez.
    repeat split; try assumption.
    destruct DX as [-> | ->], DY as [-> | ->], DZ as [-> | ->]; try lra; exfalso; nra.
Qed.

Theorem decompose_recompose t r s :
  unit_quat r -> vx s <> 0 -> vy s <> 0 -> vz s <> 0 ->
  let '(t', r', s') := mat_decompose (mat_trs t r s) in
  mat_trs t' r' s' = mat_trs t r s /\ unit_quat r' /\ t' = t.
Proof.
  intros U NX NY NZ.
  destruct (decomp_scale_signs t r s U NX NY NZ) as (ex & ey & ez & DX & DY & DZ & E & ES).
  destruct (flip_axes r ex ey ez U DX DY DZ E) as (p & Up & Ep).
  unfold mat_decompose. rewrite ES. remember (mat_trs t r s) as M eqn:EM.
  rewrite mat_trs_entries in EM. cbv zeta in EM. subst M. cbv zeta. mproj.
  pose proof (quat_of_rot_spec p Up) as Q.
  assert (F : rot_to_quat (m0 (mat_rot r) * vx s / (ex * vx s)) (m4 (mat_rot r) * vy s / (ey * vy s)) (m8 (mat_rot r) * vz s / (ez * vz s))
                (m1 (mat_rot r) * vx s / (ex * vx s)) (m5 (mat_rot r) * vy s / (ey * vy s)) (m9 (mat_rot r) * vz s / (ez * vz s))
                (m2 (mat_rot r) * vx s / (ex * vx s)) (m6 (mat_rot r) * vy s / (ey * vy s)) (m10 (mat_rot r) * vz s / (ez * vz s))
              = quat_of_rot (mat_rot p)).
  { unfold quat_of_rot. rewrite Ep, mat_mul_scale. mproj.
    assert (X : forall a e k : R, (e = 1 \/ e = -1) -> k <> 0 -> a * k / (e * k) = a * e).
    { intros a e k [-> | ->] Hk; field; exact Hk. }
    rewrite !X by assumption.
    reflexivity. }
  change (@ndiv R RNum) with Rdiv. rewrite F.
  split; [|split].
  - rewrite mat_trs_entries. cbv zeta. rewrite (same_rotation_mat _ _ Q), Ep, mat_mul_scale.
    mproj.
    assert (QX : ex * ex = 1) by (destruct DX as [-> | ->]; ring).
    assert (QY : ey * ey = 1) by (destruct DY as [-> | ->]; ring).
    assert (QZ : ez * ez = 1) by (destruct DZ as [-> | ->]; ring).
    destruct t; mproj. comps; ring [QX QY QZ].
  - exact (same_rotation_unit _ _ Up Q).
  - destruct t; reflexivity.
Qed.

(** With positive scales the parts themselves come back (the quaternion up to sign). *)
Theorem decompose_positive t r s :
  unit_quat r -> 0 < vx s -> 0 < vy s -> 0 < vz s ->
  let '(t', r', s') := mat_decompose (mat_trs t r s) in
  t' = t /\ s' = s /\ (r' = r \/ r' = v4scale r (-1)).
Proof.
  intros U PX PY PZ. unfold mat_decompose. rewrite decomp_scale_trs by exact U.
  assert (P : 0 < vx s * vy s * vz s) by (apply Rmult_lt_0_compat; [apply Rmult_lt_0_compat|]; assumption).
  destruct (Rltb (vx s * vy s * vz s) 0) eqn:B; [apply Rltb_true in B; lra|].
  rewrite !Rabs_right by lra. rewrite mat_trs_entries. cbv zeta; mproj.
  repeat split; [destruct t; reflexivity | destruct s; reflexivity |].
  pose proof (quat_of_rot_spec r U) as Q.
  unfold quat_of_rot in Q. change (@ndiv R RNum) with Rdiv.
  assert (X : forall a k : R, 0 < k -> a * k / k = a) by (intros a k Hk; field; lra).
  rewrite !X by assumption. exact Q.
Qed.
