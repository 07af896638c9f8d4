(** Euler angles (geom/euler.go) over exact reals. *)
From Coq Require Import Reals Lra Psatz Nsatz.
From Verif.Model Require Import Num NumR Vec Matrix Euler.
From Verif.Spec Require Import GeomSpec.
From Verif.Proofs Require Import MatrixLemmas DecomposeProofs.
Local Open Scope R_scope.

(** ** atan2 *)

Lemma atan2_spec y x c : 0 < c -> y * y + x * x = c * c ->
  sin (atan2 y x) = y / c /\ cos (atan2 y x) = x / c.
Proof.
  intros Hc E. unfold atan2.
  destruct (Reqb y 0) eqn:B0.
  { apply Reqb_true in B0; subst y.
    destruct (Rleb 0 x) eqn:B1.
    - apply Rleb_true in B1. assert (x = c) by nra. subst x. rewrite sin_0, cos_0.
      split; field; lra.
    - apply Rleb_false in B1. assert (x = - c) by nra. subst x. rewrite sin_PI, cos_PI.
      split; field; lra. }
  apply Reqb_false in B0.
  destruct (Reqb x 0) eqn:B1.
  { apply Reqb_true in B1; subst x.
    destruct (Rltb 0 y) eqn:B2.
    - apply Rltb_true in B2. assert (y = c) by nra. subst y. rewrite sin_PI2, cos_PI2.
      split; field; lra.
    - apply Rltb_false in B2. assert (y = - c) by nra. subst y.
      rewrite sin_neg, cos_neg, sin_PI2, cos_PI2. split; field; lra. }
  apply Reqb_false in B1.
  assert (S : sqrt (1 + (y / x)²) = c / Rabs x).
  { assert (0 < Rabs x) by (apply Rabs_pos_lt; exact B1).
    apply sqrt_lem_1.
    - unfold Rsqr. nra.
    - apply Rlt_le, Rdiv_lt_0_compat; assumption.
    - assert (AA : Rabs x * Rabs x = x * x).
      { change (Rsqr (Rabs x) = Rsqr x). symmetry; apply Rsqr_abs. }
      unfold Rsqr. replace (c / Rabs x * (c / Rabs x)) with (c * c / (Rabs x * Rabs x)) by (field; lra).
      rewrite AA, <- E. field; exact B1. }
  cbv zeta.
  destruct (Rltb x 0) eqn:B2.
  - apply Rltb_true in B2. rewrite Rabs_left in S by exact B2.
    assert (SA : sin (atan (y / x)) = - y / c /\ cos (atan (y / x)) = - x / c).
    { rewrite sin_atan, cos_atan, S. split; field; lra. }
    destruct SA as [SA CA].
    destruct (Rleb (atan (y / x)) 0).
    + rewrite sin_plus, cos_plus, sin_PI, cos_PI, SA, CA. split; field; lra.
    + rewrite sin_minus, cos_minus, sin_PI, cos_PI, SA, CA. split; field; lra.
  - apply Rltb_false in B2. rewrite Rabs_right in S by lra.
    rewrite sin_atan, cos_atan, S. split; field; lra.
Qed.

Lemma clamp1_id x : -1 <= x <= 1 -> clamp1 x = x.
Proof.
  intros [A B]. unfold clamp1. rewrite Rmin_left by exact B. apply Rmax_right; exact A.
Qed.

(** ** Axis rotations *)

Definition mat_turn_x (a : R) : mat4 R :=
  mkM 1 0 0 0 0 (cos a) (sin a) 0 0 (- sin a) (cos a) 0 0 0 0 1.
Definition mat_turn_y (a : R) : mat4 R :=
  mkM (cos a) 0 (- sin a) 0 0 1 0 0 (sin a) 0 (cos a) 0 0 0 0 1.
Definition mat_turn_z (a : R) : mat4 R :=
  mkM (cos a) (sin a) 0 0 (- sin a) (cos a) 0 0 0 0 1 0 0 0 0 1.


Lemma sc1 a : sin a * sin a + cos a * cos a = 1.
Proof. exact (sin2_cos2 a). Qed.
Lemma sin_half a : sin a = 2 * sin (a / 2) * cos (a / 2).
Proof. rewrite <- sin_2a; f_equal; field. Qed.
Lemma cos_half a : cos a = 1 - 2 * sin (a / 2) * sin (a / 2).
Proof. rewrite <- cos_2a_sin; f_equal; field. Qed.

Lemma q_turn_x_unit a : unit_quat (q_turn_x a).
Proof. unfold unit_quat, q_turn_x; mproj. rewrite <- (sc1 (a / 2)); ring. Qed.
Lemma q_turn_y_unit a : unit_quat (q_turn_y a).
Proof. unfold unit_quat, q_turn_y; mproj. rewrite <- (sc1 (a / 2)); ring. Qed.
Lemma q_turn_z_unit a : unit_quat (q_turn_z a).
Proof. unfold unit_quat, q_turn_z; mproj. rewrite <- (sc1 (a / 2)); ring. Qed.

Lemma mat_rot_turn_x a : mat_rot (q_turn_x a) = mat_turn_x a.
Proof.
  unfold mat_rot, q_turn_x, mat_turn_x; mproj; rnum. rewrite (sin_half a), (cos_half a); comps; ring.
Qed.
Lemma mat_rot_turn_y a : mat_rot (q_turn_y a) = mat_turn_y a.
Proof.
  unfold mat_rot, q_turn_y, mat_turn_y; mproj; rnum. rewrite (sin_half a), (cos_half a); comps; ring.
Qed.
Lemma mat_rot_turn_z a : mat_rot (q_turn_z a) = mat_turn_z a.
Proof.
  unfold mat_rot, q_turn_z, mat_turn_z; mproj; rnum. rewrite (sin_half a), (cos_half a); comps; ring.
Qed.

(** The quaternion of an order is the product of the axis rotations in that order. *)
Definition q_product (o : rot_order) (v : vec3 R) : vec4 R :=
  match o with
  | XYZ => qmul (q_turn_x (vx v)) (qmul (q_turn_y (vy v)) (q_turn_z (vz v)))
  | YXZ => qmul (q_turn_y (vy v)) (qmul (q_turn_x (vx v)) (q_turn_z (vz v)))
  | ZXY => qmul (q_turn_z (vz v)) (qmul (q_turn_x (vx v)) (q_turn_y (vy v)))
  | ZYX => qmul (q_turn_z (vz v)) (qmul (q_turn_y (vy v)) (q_turn_x (vx v)))
  end.

Lemma euler_to_quat_product o v : euler_to_quat (mkE v o) = q_product o v.
Proof.
  destruct o; unfold euler_to_quat, q_product, qmul, q_turn_x, q_turn_y, q_turn_z;
    cbn [eang eord]; mproj; rnum; cbv zeta; comps; ring.
Qed.

Lemma euler_to_quat_unit e : unit_quat (euler_to_quat e).
Proof.
  destruct e as [v o]; rewrite euler_to_quat_product.
  destruct o; cbn [q_product]; repeat apply qmul_unit;
    first [apply q_turn_x_unit | apply q_turn_y_unit | apply q_turn_z_unit].
Qed.

Definition mat_product (o : rot_order) (v : vec3 R) : mat4 R :=
  match o with
  | XYZ => mat_mul (mat_turn_x (vx v)) (mat_mul (mat_turn_y (vy v)) (mat_turn_z (vz v)))
  | YXZ => mat_mul (mat_turn_y (vy v)) (mat_mul (mat_turn_x (vx v)) (mat_turn_z (vz v)))
  | ZXY => mat_mul (mat_turn_z (vz v)) (mat_mul (mat_turn_x (vx v)) (mat_turn_y (vy v)))
  | ZYX => mat_mul (mat_turn_z (vz v)) (mat_mul (mat_turn_y (vy v)) (mat_turn_x (vx v)))
  end.

Lemma euler_to_matrix o v : mat_rot (euler_to_quat (mkE v o)) = mat_product o v.
Proof.
  rewrite euler_to_quat_product.
  destruct o; cbn [q_product mat_product];
    (rewrite !mat_rot_mul by
      (repeat apply qmul_unit;
       first [apply q_turn_x_unit | apply q_turn_y_unit | apply q_turn_z_unit]));
    rewrite mat_rot_turn_x, mat_rot_turn_y, mat_rot_turn_z; reflexivity.
Qed.

(** Applying the extracted quaternion = turning about the three axes, innermost first. *)
Lemma q_turn_x_apply a v : qapply (q_turn_x a) v = turn_x a v.
Proof.
  rewrite <- mat_rot_apply, mat_rot_turn_x by apply q_turn_x_unit.
  destruct v; unfold mat_apply, mat_turn_x, turn_x; mproj; rnum; comps; ring.
Qed.
Lemma q_turn_y_apply a v : qapply (q_turn_y a) v = turn_y a v.
Proof.
  rewrite <- mat_rot_apply, mat_rot_turn_y by apply q_turn_y_unit.
  destruct v; unfold mat_apply, mat_turn_y, turn_y; mproj; rnum; comps; ring.
Qed.
Lemma q_turn_z_apply a v : qapply (q_turn_z a) v = turn_z a v.
Proof.
  rewrite <- mat_rot_apply, mat_rot_turn_z by apply q_turn_z_unit.
  destruct v; unfold mat_apply, mat_turn_z, turn_z; mproj; rnum; comps; ring.
Qed.

Lemma euler_to_quat_turns o a v :
  qapply (euler_to_quat (mkE a o)) v =
  match o with
  | XYZ => turn_x (vx a) (turn_y (vy a) (turn_z (vz a) v))
  | YXZ => turn_y (vy a) (turn_x (vx a) (turn_z (vz a) v))
  | ZXY => turn_z (vz a) (turn_x (vx a) (turn_y (vy a) v))
  | ZYX => turn_z (vz a) (turn_y (vy a) (turn_x (vx a) v))
  end.
Proof.
  rewrite euler_to_quat_product.
  destruct o; cbn [q_product]; rewrite !qapply_mul, q_turn_x_apply, q_turn_y_apply, q_turn_z_apply;
    reflexivity.
Qed.

(** ** Facts about the nine entries of a rotation matrix *)

Definition rot9 (a11 a12 a13 a21 a22 a23 a31 a32 a33 : R) : Prop :=
  (a11 * a11 + a12 * a12 + a13 * a13 = 1 /\ a21 * a21 + a22 * a22 + a23 * a23 = 1 /\
   a31 * a31 + a32 * a32 + a33 * a33 = 1) /\
  (a11 * a11 + a21 * a21 + a31 * a31 = 1 /\ a12 * a12 + a22 * a22 + a32 * a32 = 1 /\
   a13 * a13 + a23 * a23 + a33 * a33 = 1) /\
  (a11 = a22 * a33 - a23 * a32 /\ a12 = a23 * a31 - a21 * a33 /\ a13 = a21 * a32 - a22 * a31) /\
  (a21 = a13 * a32 - a12 * a33 /\ a22 = a11 * a33 - a13 * a31 /\ a23 = a12 * a31 - a11 * a32) /\
  (a31 = a12 * a23 - a13 * a22 /\ a32 = a13 * a21 - a11 * a23 /\ a33 = a11 * a22 - a12 * a21).

Lemma mat_rot_rot9 q : unit_quat q ->
  let m := mat_rot q in
  rot9 (m0 m) (m4 m) (m8 m) (m1 m) (m5 m) (m9 m) (m2 m) (m6 m) (m10 m).
Proof.
  intro U; destruct q as [x y z w]; unfold unit_quat, mat_rot, rot9 in *; mproj; rnum; cbv zeta.
  assert (Hw : w * w = 1 - x * x - y * y - z * z) by (rewrite <- U; ring).
  repeat split; ring [Hw].
Qed.

Lemma mat_rot_shape q : mat_rot q =
  mkM (m0 (mat_rot q)) (m1 (mat_rot q)) (m2 (mat_rot q)) 0
      (m4 (mat_rot q)) (m5 (mat_rot q)) (m6 (mat_rot q)) 0
      (m8 (mat_rot q)) (m9 (mat_rot q)) (m10 (mat_rot q)) 0 0 0 0 1.
Proof. reflexivity. Qed.

Lemma sq_lt_1 m : Rabs m < 1 - euler_eps -> 0 < 1 - m * m /\ -1 <= m <= 1.
Proof.
  unfold euler_eps; intro H. assert (Rabs m < 1) by lra.
  apply Rabs_def2 in H0. split; [nra | lra].
Qed.

Lemma div_eq a b k : k <> 0 -> a * (k * k) = b -> a = b / (k * k).
Proof. intros Hk <-; field; exact Hk. Qed.

(** The matrix that comes back from the angles of a rotation outside the guard band. *)
Definition mid_entry (o : rot_order) (m : mat4 R) : R :=
  match o with XYZ => m8 m | YXZ => m9 m | ZXY => m6 m | ZYX => m2 m end.

Ltac trig9 :=
  repeat match goal with
  | H : sin ?a = _ |- context [sin ?a] => rewrite H
  | H : cos ?a = _ |- context [cos ?a] => rewrite H
  end.

Lemma cos_asin_pos x c : -1 <= x <= 1 -> 0 < c -> c * c = 1 - x * x -> cos (asin x) = c.
Proof.
  intros Hx Hc E. rewrite cos_asin by exact Hx. apply sqrt_lem_1.
  - unfold Rsqr; nra.
  - lra.
  - unfold Rsqr; lra.
Qed.

Ltac fin9 c Hc Ec F11 F12 F13 F21 F22 F23 F31 F32 F33 :=
  let k := fresh "k" in let Hk := fresh "Hk" in let Ek := fresh "Ek" in
  assert (Hk : / c * c = 1) by (field; lra);
  unfold Rdiv; set (k := / c) in *; clearbody k;
  comps;
  try ring; try (ring [Hk]);
  match type of Ec with _ = ?d =>
    assert (Ek : k * k * d = 1) by (rewrite <- Ec; nsatz)
  end;
  match goal with |- ?e = ?a =>
    clear - Ek F11 F12 F13 F21 F22 F23 F31 F32 F33; nsatz
  end.

(** The nine entries of the matrix rebuilt from the angles, once the sines and cosines are known. *)
Lemma euler_round_trip9 o a11 a12 a13 a21 a22 a23 a31 a32 a33 mid :
  rot9 a11 a12 a13 a21 a22 a23 a31 a32 a33 ->
  let m := mkM a11 a21 a31 0 a12 a22 a32 0 a13 a23 a33 0 0 0 0 1 in
  mid = mid_entry o m -> Rabs mid < 1 - euler_eps ->
  mat_product o (eang (euler_of_matrix m o)) = m.
Proof.
  intros R9 m Em G. subst mid. pose proof (proj2 (Rltb_true _ _) G) as GB.
  destruct (sq_lt_1 _ G) as (P1 & RNG).
  set (c := sqrt (1 - mid_entry o m * mid_entry o m)).
  assert (Hc : 0 < c) by (apply sqrt_lt_R0; exact P1).
  assert (Ec : c * c = 1 - mid_entry o m * mid_entry o m) by (apply sqrt_sqrt; lra).
  clearbody c.
  destruct R9 as ((R1 & R2 & R3) & (C1 & C2 & C3) & (F11 & F12 & F13) & (F21 & F22 & F23) & (F31 & F32 & F33)).
  unfold euler_of_matrix, mat_product. subst m. cbn [eang]. cbv zeta.
  destruct o; cbn [mid_entry] in *; mproj; rewrite GB; rewrite clamp1_id by exact RNG; mproj.
  - destruct (atan2_spec (- a23) a33 c Hc) as [SX CX]; [rewrite Ec; lra|].
    destruct (atan2_spec (- a12) a11 c Hc) as [SZ CZ]; [rewrite Ec; lra|].
    assert (SY : sin (asin a13) = a13) by (apply sin_asin; exact RNG).
    assert (CY : cos (asin a13) = c) by (apply cos_asin_pos; lra).
    unfold mat_mul, mat_turn_x, mat_turn_y, mat_turn_z; mproj; rnum.
    rewrite SX, CX, SY, CY, SZ, CZ.
    fin9 c Hc Ec F11 F12 F13 F21 F22 F23 F31 F32 F33.
  - destruct (atan2_spec a13 a33 c Hc) as [SX CX]; [rewrite Ec; lra|].
    destruct (atan2_spec a21 a22 c Hc) as [SZ CZ]; [rewrite Ec; lra|].
    assert (SY : sin (asin (- a23)) = - a23) by (apply sin_asin; lra).
    assert (CY : cos (asin (- a23)) = c) by (apply cos_asin_pos; lra).
    unfold mat_mul, mat_turn_x, mat_turn_y, mat_turn_z; mproj; rnum.
    rewrite SX, CX, SY, CY, SZ, CZ.
    fin9 c Hc Ec F11 F12 F13 F21 F22 F23 F31 F32 F33.
  - destruct (atan2_spec (- a31) a33 c Hc) as [SX CX]; [rewrite Ec; lra|].
    destruct (atan2_spec (- a12) a22 c Hc) as [SZ CZ]; [rewrite Ec; lra|].
    assert (SY : sin (asin a32) = a32) by (apply sin_asin; lra).
    assert (CY : cos (asin a32) = c) by (apply cos_asin_pos; lra).
    unfold mat_mul, mat_turn_x, mat_turn_y, mat_turn_z; mproj; rnum.
    rewrite SX, CX, SY, CY, SZ, CZ.
    fin9 c Hc Ec F11 F12 F13 F21 F22 F23 F31 F32 F33.
  - destruct (atan2_spec a32 a33 c Hc) as [SX CX]; [rewrite Ec; lra|].
    destruct (atan2_spec a21 a11 c Hc) as [SZ CZ]; [rewrite Ec; lra|].
    assert (SY : sin (asin (- a31)) = - a31) by (apply sin_asin; lra).
    assert (CY : cos (asin (- a31)) = c) by (apply cos_asin_pos; lra).
    unfold mat_mul, mat_turn_x, mat_turn_y, mat_turn_z; mproj; rnum.
    rewrite SX, CX, SY, CY, SZ, CZ.
    fin9 c Hc Ec F11 F12 F13 F21 F22 F23 F31 F32 F33.
Qed.

Lemma euler_of_quat_eta q o : euler_of_quat q o = mkE (eang (euler_of_quat q o)) o.
Proof. reflexivity. Qed.

Lemma euler_round_trip q o : unit_quat q ->
  Rabs (mid_entry o (mat_rot q)) < 1 - euler_eps ->
  mat_rot (euler_to_quat (euler_of_quat q o)) = mat_rot q.
Proof.
  intros U G. rewrite euler_of_quat_eta, euler_to_matrix.
  pose proof (mat_rot_rot9 q U) as R9. cbv zeta in R9.
  exact (euler_round_trip9 o _ _ _ _ _ _ _ _ _ _ R9 eq_refl G).
Qed.

Lemma Rdiv_1 x : x / 1 = x.
Proof. field. Qed.
Lemma sum_sq_0 x y : x * x + y * y = 0 -> x = 0 /\ y = 0.
Proof.
  intro H. pose proof (Rle_0_sqr x) as A. pose proof (Rle_0_sqr y) as B. unfold Rsqr in A, B.
  split; apply Rsqr_0_uniq; unfold Rsqr; lra.
Qed.

(** Exactly at the gimbal pole. *)
Lemma euler_round_trip_pole9 o a11 a12 a13 a21 a22 a23 a31 a32 a33 :
  rot9 a11 a12 a13 a21 a22 a23 a31 a32 a33 ->
  let m := mkM a11 a21 a31 0 a12 a22 a32 0 a13 a23 a33 0 0 0 0 1 in
  (mid_entry o m = 1 \/ mid_entry o m = -1) ->
  mat_product o (eang (euler_of_matrix m o)) = m.
Proof.
  intros R9 m Hm.
  assert (GB : Rltb (Rabs (mid_entry o m)) (1 - euler_eps) = false).
  { apply Rltb_false. unfold euler_eps.
    destruct Hm as [-> | ->]; [rewrite Rabs_right by lra | rewrite Rabs_left by lra]; lra. }
  assert (RNG : -1 <= mid_entry o m <= 1) by lra.
  assert (SQ : mid_entry o m * mid_entry o m = 1) by (destruct Hm as [-> | ->]; ring).
  destruct R9 as ((R1 & R2 & R3) & (C1 & C2 & C3) & (F11 & F12 & F13) & (F21 & F22 & F23) & (F31 & F32 & F33)).
  assert (CA : forall x, x * x = 1 -> -1 <= x <= 1 -> cos (asin x) = 0).
  { intros x E Hx. rewrite cos_asin by exact Hx. unfold Rsqr. rewrite E, Rminus_diag_eq by reflexivity.
    apply sqrt_0. }
  unfold euler_of_matrix, mat_product. subst m. cbn [eang]. cbv zeta.
  destruct o; cbn [mid_entry] in *; mproj; rewrite GB; rewrite clamp1_id by exact RNG; mproj.
  - destruct (sum_sq_0 a11 a12) as [Z1 Z2]; [lra|]. destruct (sum_sq_0 a23 a33) as [Z3 Z4]; [lra|].
    destruct (atan2_spec a32 a22 1 Rlt_0_1) as [SX CX]; [subst; lra|].
    rewrite Rdiv_1 in SX, CX.
    assert (SY : sin (asin a13) = a13) by (apply sin_asin; exact RNG).
    pose proof (CA a13 SQ RNG) as CY.
    unfold mat_mul, mat_turn_x, mat_turn_y, mat_turn_z; mproj; rnum.
    rewrite SX, CX, SY, CY, sin_0, cos_0. subst. comps; lra.
  - destruct (sum_sq_0 a21 a22) as [Z1 Z2]; [lra|]. destruct (sum_sq_0 a13 a33) as [Z3 Z4]; [lra|].
    destruct (atan2_spec (- a31) a11 1 Rlt_0_1) as [SX CX]; [subst; lra|].
    rewrite Rdiv_1 in SX, CX.
    assert (SY : sin (asin (- a23)) = - a23) by (apply sin_asin; lra).
    assert (CY : cos (asin (- a23)) = 0) by (apply CA; lra).
    unfold mat_mul, mat_turn_x, mat_turn_y, mat_turn_z; mproj; rnum.
    rewrite SX, CX, SY, CY, sin_0, cos_0. subst. comps; lra.
  - destruct (sum_sq_0 a31 a33) as [Z1 Z2]; [lra|]. destruct (sum_sq_0 a12 a22) as [Z3 Z4]; [lra|].
    destruct (atan2_spec a21 a11 1 Rlt_0_1) as [SX CX]; [subst; lra|].
    rewrite Rdiv_1 in SX, CX.
    assert (SY : sin (asin a32) = a32) by (apply sin_asin; lra).
    assert (CY : cos (asin a32) = 0) by (apply CA; lra).
    unfold mat_mul, mat_turn_x, mat_turn_y, mat_turn_z; mproj; rnum.
    rewrite SX, CX, SY, CY, sin_0, cos_0. subst. comps; lra.
  - destruct (sum_sq_0 a32 a33) as [Z1 Z2]; [lra|]. destruct (sum_sq_0 a11 a21) as [Z3 Z4]; [lra|].
    destruct (atan2_spec (- a12) a22 1 Rlt_0_1) as [SX CX]; [subst; lra|].
    rewrite Rdiv_1 in SX, CX.
    assert (SY : sin (asin (- a31)) = - a31) by (apply sin_asin; lra).
    assert (CY : cos (asin (- a31)) = 0) by (apply CA; lra).
    unfold mat_mul, mat_turn_x, mat_turn_y, mat_turn_z; mproj; rnum.
    rewrite SX, CX, SY, CY, sin_0, cos_0. subst. comps; lra.
Qed.

Lemma euler_round_trip_pole q o : unit_quat q ->
  Rabs (mid_entry o (mat_rot q)) = 1 ->
  mat_rot (euler_to_quat (euler_of_quat q o)) = mat_rot q.
Proof.
  intros U G. rewrite euler_of_quat_eta, euler_to_matrix.
  pose proof (mat_rot_rot9 q U) as R9. cbv zeta in R9.
  apply (euler_round_trip_pole9 o _ _ _ _ _ _ _ _ _ R9).
  change (mid_entry o (mat_rot q) = 1 \/ mid_entry o (mat_rot q) = -1).
  unfold Rabs in G. destruct (Rcase_abs _); lra.
Qed.

Lemma euler_round_trip_both q o v : unit_quat q ->
  (Rabs (mid_entry o (mat_rot q)) < 1 - euler_eps \/ Rabs (mid_entry o (mat_rot q)) = 1) ->
  mat_rot (euler_to_quat (euler_of_quat q o)) = mat_rot q /\
  qapply (euler_to_quat (euler_of_quat q o)) v = qapply q v.
Proof.
  intros U G.
  assert (E : mat_rot (euler_to_quat (euler_of_quat q o)) = mat_rot q)
    by (destruct G; [apply euler_round_trip | apply euler_round_trip_pole]; assumption).
  split; [exact E|].
  rewrite <- !mat_rot_apply by (exact U || apply euler_to_quat_unit). rewrite E; reflexivity.
Qed.
