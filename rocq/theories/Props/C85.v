(** C85: a motion of bones is exported as it is played. *)
From Coq Require Import String List ZArith Reals Lra Lia Bool.
From Verif.Model Require Import Num NumR Vec MqoDoc GlbAnim.
From Verif.Spec Require Import GeomSpec AnimSpec.
From Verif.Proofs Require Import MatrixLemmas EulerProofs AnimProofs.
Import ListNotations.
Local Open Scope R_scope.

(** The animation has, for every channel of a bone that exists, the rotations and the movements of the channel at its frames, unless they are all nothing;
    in any order of the maps.  Accessors of the document stay as they are. *)
Theorem C85_channels : forall bones bb accs, distinct_bones bones -> exists es x,
  let s := add_bone_channels bones bb (mkAS accs (mkAA [] [])) in plays s es /\ asAccs s = accs ++ x /\ all_exported bones bb es.
Proof. exact bone_channels_ok. Qed.
Print Assumptions C85_channels.

(** What a rotation should do to a model whose bones were turned before: the parent takes the result to where it is now. *)
Definition right_motion (offp off : vec3 R) (ms r : vec4 R) : Prop := forall v, qapply r (to_doc off v) = to_doc offp (qapply ms v).
(** It is right for bones that were turned with their parent; *)
Theorem C85_same_turn_partial : forall bones n p b ms, distinct_bones bones -> In (n, p) bones -> abID p = abParent b -> abOff b = abOff p ->
  right_motion (abOff p) (abOff b) ms (rot_key (abOff b) (q_offset bones b) ms).
Proof.
  intros bones n p b ms (_ & _ & N) Hp Ep Eo v. destruct (by_id_correct bones b N) as [C _]. specialize (C n p Hp Ep). rewrite Eo in C. destruct (Req_EM_T _ _) as [_|X]; [|contradiction X; reflexivity].
  rewrite rot_key_motion, C, qapply_mul. assert (I : qapply (mkV4 0 0 0 1) v = v) by (destruct v; unfold qapply; mproj; rnum; cbv zeta; comps; ring). rewrite I, Eo. reflexivity.
Qed.
Print Assumptions C85_same_turn_partial.
(** and for rotations about the z axis, whatever the turns about z were, if the model was turned about y by a half turn or not at all. *)
Theorem C85_about_z_partial : forall bones n p b ms, distinct_bones bones -> In (n, p) bones -> abID p = abParent b -> vy (abOff b) = vy (abOff p) -> sin (vy (abOff p)) = 0 -> qx ms = 0 -> qy ms = 0 ->
  right_motion (abOff p) (abOff b) ms (rot_key (abOff b) (q_offset bones b) ms).
Proof.
  intros bones n p b ms (_ & _ & N) Hp Ep Ey Hs Hx Hy v. destruct (by_id_correct bones b N) as [C _]. specialize (C n p Hp Ep). rewrite rot_key_motion, C, qapply_mul. clear C. unfold to_doc. rewrite Ey.
  set (a := vx (abOff p)). set (a' := vx (abOff b)). set (y := vy (abOff p)) in *. pose proof (sin2_cos2 y) as S. unfold Rsqr in S. rewrite Hs in S.
  assert (Z : forall w, qapply ms w = mkV3 ((qw ms * qw ms - qz ms * qz ms) * vx w - 2 * qw ms * qz ms * vy w) (2 * qw ms * qz ms * vx w + (qw ms * qw ms - qz ms * qz ms) * vy w) ((qw ms * qw ms + qz ms * qz ms) * vz w)).
  { intros w. destruct ms as [x0 y0 z0 w0], w as [x1 y1 z1]. cbn [qx qy] in Hx, Hy. subst x0 y0. unfold qapply; mproj; rnum; cbv zeta; comps; ring. }
  assert (Q : qapply (if Req_EM_T a' a then mkV4 0 0 0 1 else q_turn_z ((a - a') * cos y)) v = turn_z ((a - a') * cos y) v).
  { destruct (Req_EM_T a' a) as [E|E].
    - rewrite E. replace ((a - a) * cos y) with 0 by ring. unfold turn_z. rewrite sin_0, cos_0. destruct v. unfold qapply; mproj; rnum; cbv zeta; comps; ring.
    - apply q_turn_z_apply. }
  rewrite Q, !Z. assert (Cy : cos y = 1 \/ cos y = -1) by (destruct (Rle_lt_dec 0 (cos y)); [left|right]; nra).
  clear Q. clearbody a a' y. remember (a - a') as e eqn:He. assert (Ha : a = a' + e) by lra. clear He. subst a. unfold turn_z, turn_y, mirror_z; mproj. rewrite !sin_neg, !cos_neg, Hs. rewrite cos_plus, sin_plus. destruct Cy as [-> | ->].
  - rewrite Rmult_1_r. comps; ring.
  - replace (e * -1) with (- e) by ring. rewrite cos_neg, sin_neg. comps; ring.
Qed.
Print Assumptions C85_about_z_partial.

Definition parent : abone := mkAB 1 "body" 0 (mkV3 0 1000 0) (mkV3 0 0 0).
(** Refuted: the arm turned by -autotpose does not follow a motion about another axis: the correction is on the wrong side. *)
Theorem C85_turned_refuted : exists bones n p b ms, distinct_bones bones /\ In (n, p) bones /\ abID p = abParent b /\ ~ right_motion (abOff p) (abOff b) ms (rot_key (abOff b) (q_offset bones b) ms).
Proof.
  set (arm := mkAB 2 "arm" 1 (mkV3 0 0 0) (mkV3 (PI / 2) 0 0)). exists [(0%Z, parent); (1%Z, arm)], 0%Z, parent, arm, (mkV4 1 0 0 0).
  assert (D : distinct_bones [(0%Z, parent); (1%Z, arm)]).
  { split; [|split]; cbn [map fst snd abName abID parent arm]; constructor; try (constructor; [intros []|constructor]); intros [X|[]]; discriminate X. }
  split; [exact D|]. split; [left; reflexivity|]. split; [reflexivity|]. intros H. specialize (H (mkV3 1 0 0)). destruct D as (_ & _ & N). destruct (by_id_correct _ arm N) as [C _]. specialize (C 0%Z parent (or_introl eq_refl) eq_refl).
  rewrite rot_key_motion, C, qapply_mul in H. cbn [abOff arm parent vx vy] in H. destruct (Req_EM_T (PI / 2) 0) as [E|_]; [pose proof PI_RGT_0; lra|].
  rewrite q_turn_z_apply, cos_0 in H. replace ((0 - PI / 2) * 1) with (- (PI / 2)) in H by ring. unfold to_doc, turn_z, turn_y, mirror_z, qapply in H; mproj; rnum. cbv zeta in H. mproj. rewrite Ropp_0, cos_0, sin_0, cos_neg, sin_neg, cos_PI2, sin_PI2 in H. injection H. intros. lra.
Qed.
Print Assumptions C85_turned_refuted.
(** Refuted: a bone that does not move is put at its place in the model, although its node is placed relative to its parent. *)
Theorem C85_place_refuted : exists b, abParent b = abID parent /\ pos_key (abOff b) (abPos b) (mkV3 0 0 0) = mkV3 0 2 0 /\ v3scale (v3sub (abPos b) (abPos parent)) (1 / 1000) = mkV3 0 1 0.
Proof.
  exists (mkAB 2 "head" 1 (mkV3 0 2000 0) (mkV3 0 0 0)). split; [reflexivity|]. rewrite pos_key_moved. cbn [abOff abPos parent]. unfold moved_by, to_doc, turn_z, turn_y, mirror_z, v3add, v3scale, v3sub; mproj; rnum. rewrite Ropp_0, sin_0, cos_0. split; comps; field.
Qed.
Print Assumptions C85_place_refuted.
(** It is right below a parent at the origin. *)
Theorem C85_place_partial : forall off pos, pos_key off pos (mkV3 0 0 0) = v3scale (v3sub pos (mkV3 0 0 0)) (1 / 1000).
Proof. intros off pos. rewrite pos_key_moved. destruct pos. unfold moved_by, to_doc, turn_z, turn_y, mirror_z, v3add, v3scale, v3sub; mproj; rnum. comps; ring. Qed.
Print Assumptions C85_place_partial.

Example C85_example : distinct_bones [(4%Z, parent); (5%Z, mkAB 2 "arm" 1 (mkV3 0 0 0) (mkV3 0 PI 0))] /\ sin (vy (abOff (mkAB 2 "arm" 1 (mkV3 0 0 0) (mkV3 0 PI 0)))) = 0.
Proof.
  split; [|exact sin_PI]. split; [|split]; cbn [map fst snd abName abID parent]; constructor; try (constructor; [intros []|constructor]); intros [X|[]]; discriminate X.
Qed.
