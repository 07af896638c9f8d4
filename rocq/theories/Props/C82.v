(** C82: scaling a document scales everything in it. *)
From Coq Require Import String List ZArith QArith Reals Lra Lia Bool.
From Verif.Model Require Import Num NumR Vec Matrix Euler Mqo MqoDoc MqoTransform Cli.
From Verif.Spec Require Import GeomSpec TransformSpec.
From Verif.Proofs Require Import MatrixLemmas DecomposeProofs EulerProofs RotationProofs TransformProofs.
Import ListNotations.
Local Open Scope R_scope.

(** It works for every document whose objects have their local transforms (as all objects made by the program do). *)
Theorem C82_total : forall m d, (exists d', transform_doc m d = Some d') <-> Forall has_local (mdObjects d).
Proof. exact transform_total. Qed.
Print Assumptions C82_total.
(** Vertices, bones and physics shapes move with the matrix; nothing is lost, added or exchanged.  Any matrix. *)
Theorem C82_points_partial : forall m d d', transform_doc m d = Some d' ->
  length (mdObjects d') = length (mdObjects d) /\
  (forall i o, nth_error (mdObjects d) i = Some o -> exists o', nth_error (mdObjects d') i = Some o' /\ oVerts o' = map (mat_apply m) (oVerts o) /\ same_object o o' /\ has_local o') /\
  Forall2 (moved_bone (mat_apply m)) (mdBones d) (mdBones d') /\ mdMorphs d' = mdMorphs d /\
  match mdPhysics d, mdPhysics d' with
  | None, None => True
  | Some p, Some p' => phJoints p' = phJoints p /\
      Forall2 (fun b b' => pbName b' = pbName b /\ pbBone b' = pbBone b /\
        Forall2 (fun s s' => psType s' = psType s /\ psPos s' = mat_apply m (psPos s) /\ psRot s' = psRot s) (pbShapes b) (pbShapes b')) (phBodies p) (phBodies p')
  | _, _ => False
  end.
Proof.
  intros m d d' E. destruct (transform_doc_objects m d d' E) as (A & B & C & D & F). split; [exact A|]. split; [|split; [|split; [exact C|]]].
  - intros i o Ei. destruct (F i o Ei) as (o' & X & Y). exists o'. split; [exact X|]. destruct (transform_object_spec m o o' Y) as (P & Q & R & _). split; [exact P|]. split; assumption.
  - rewrite B. clear. induction (mdBones d) as [|b l IH]; cbn; constructor; [repeat split|exact IH].
  - rewrite D. destruct (mdPhysics d) as [p|]; [|exact I]. cbn. split; [reflexivity|]. induction (phBodies p) as [|b l IH]; cbn; constructor; [|exact IH]. cbn. split; [reflexivity|]. split; [reflexivity|].
    induction (pbShapes b) as [|s r IHs]; cbn; constructor; [|exact IHs]. unfold transform_shape. destruct (mat_decompose m) as [[? ?] ?]. repeat split.
Qed.
Print Assumptions C82_points_partial.
(** Uniform scaling: the local transform of an object is followed by the scaling, if its scale is positive and its rotation survives being stored (C06). *)
Theorem C82_uniform_local_partial : forall k d d' i o t r s, 0 < k -> transform_doc (mat_scale k k k) d = Some d' ->
  nth_error (mdObjects d) i = Some o -> oTranslation o = Some t -> oRotation o = Some r -> oScale o = Some s -> 0 < vx s -> 0 < vy s -> 0 < vz s ->
  (forall v, qapply (get_rotation (set_rotation (get_rotation r))) v = qapply (get_rotation r) v) ->
  exists o' L L', nth_error (mdObjects d') i = Some o' /\ local_matrix o = Some L /\ local_matrix o' = Some L' /\ L' = mat_mul (mat_scale k k k) L.
Proof.
  intros k d d' i o t r s Hk E Ei Et Er Es X Y Z H. destruct (transform_doc_objects _ d d' E) as (_ & _ & _ & _ & F). destruct (F i o Ei) as (o' & Eo & T).
  destruct (transform_object_spec _ o o' T) as (_ & _ & _ & t0 & r0 & s0 & Q1 & Q2 & Q3 & Q). rewrite Et in Q1. rewrite Er in Q2. rewrite Es in Q3. injection Q1 as <-. injection Q2 as <-. injection Q3 as <-.
  pose proof (uniform_local k t r s Hk X Y Z H) as U. destruct (set_local_transform _) as [[t' r'] s']. subst o'.
  exists (apply_transform (mat_scale k k k) (set_trs o t' r' s')), (get_local_transform t r s), (get_local_transform t' r' s'). split; [exact Eo|]. split; [unfold local_matrix; rewrite Et, Er, Es; reflexivity|]. split; [reflexivity|exact U].
Qed.
Print Assumptions C82_uniform_local_partial.
(** Uniform scaling: physics shapes are scaled. *)
Theorem C82_uniform_shape_partial : forall k s, 0 < k -> 0 <= vx (psSize s) -> 0 <= vy (psSize s) -> 0 <= vz (psSize s) ->
  transform_shape (mat_scale k k k) s = mkPS (psType s) (v3scale (psSize s) k) (v3scale (psPos s) k) (psRot s).
Proof. exact uniform_shape. Qed.
Print Assumptions C82_uniform_shape_partial.

(** Any scaling by axes, mirrored or not: sizes of physics shapes stay sizes and are scaled by axes. *)
Theorem C82_shape_sizes : forall x y z s,
  let s' := transform_shape (mat_scale x y z) s in
  psSize s' = mkV3 (Rabs (vx (psSize s)) * Rabs x) (Rabs (vy (psSize s)) * Rabs y) (Rabs (vz (psSize s)) * Rabs z) /\
  psPos s' = scaled (mkV3 x y z) (psPos s) /\ psType s' = psType s /\ psRot s' = psRot s.
Proof. exact scale_shape. Qed.
Print Assumptions C82_shape_sizes.
(** Any matrix: no size becomes negative. *)
Theorem C82_shape_nonnegative : forall m s, 0 <= vx (psSize (transform_shape m s)) /\ 0 <= vy (psSize (transform_shape m s)) /\ 0 <= vz (psSize (transform_shape m s)).
Proof. intros m s. unfold transform_shape. destruct (mat_decompose m) as [[? ?] ?]. cbn [psSize vx vy vz]. repeat split; apply Rabs_pos. Qed.
Print Assumptions C82_shape_nonnegative.

(** The matrix of the command line: each axis is scaled by -scale (80 for MMD models and 1 for others, if it is 0) times its own factor, and -rot180 adds a
    half turn about the vertical axis.  If there is no matrix, that is the identity. *)
Theorem C82_options : forall eighty rot180 e k kx ky kz p,
  let f := if Reqb k 0 then (if is_mmd e then eighty else 1) else k in
  let q := scaled (mkV3 (f * kx) (f * ky) (f * kz)) p in
  match scale_vec eighty rot180 e k kx ky kz with Some v => mat_apply (mat_scale (vx v) (vy v) (vz v)) p | None => p end = if rot180 then half_turn q else q.
Proof.
  intros eighty rot180 e k kx ky kz p f q. unfold scale_vec. change (neqb k nzero) with (Reqb k 0). change none with 1. change (@nmul R RNum) with Rmult. change (@neqb R RNum) with Reqb. change (@nopp R RNum) with Ropp. fold f.
  set (v := if rot180 then _ else _). assert (V : (if rot180 then half_turn q else q) = scaled v p).
  { unfold v, q, half_turn, scaled. destruct rot180; mproj; comps; ring. }
  rewrite V. destruct (Reqb (vx v) 1 && Reqb (vy v) 1 && Reqb (vz v) 1) eqn:Q.
  - apply andb_true_iff in Q. destruct Q as [Q Q3]. apply andb_true_iff in Q. destruct Q as [Q1 Q2]. apply Reqb_true in Q1. apply Reqb_true in Q2. apply Reqb_true in Q3.
    destruct p as [x y z]. unfold scaled. rewrite Q1, Q2, Q3. mproj. comps; ring.
  - rewrite scale_apply. destruct v; reflexivity.
Qed.
Print Assumptions C82_options.
(** The half turn is the rotation by pi. *)
Theorem C82_half_turn : forall p, half_turn p = turn_y PI p.
Proof. intros [x y z]. unfold half_turn, turn_y; mproj. rewrite sin_PI, cos_PI. comps; ring. Qed.
Print Assumptions C82_half_turn.

Definition ob (d : Z) (t r : vec3 R) : object R := mkObj 1 "o" [] [] true false d false 1 0 0 0 0 0 (Some (mkV3 1 1 1)) (Some r) (Some t) None [] None.
Lemma zero_survives v : qapply (get_rotation (set_rotation (get_rotation (mkV3 0 0 0)))) v = qapply (get_rotation (mkV3 0 0 0)) v.
Proof.
  assert (E : get_rotation (mkV3 0 0 0) = q_turn_y 0).
  { unfold get_rotation, euler_to_quat, q_turn_y, v3scale; mproj; rnum; cbn [eang eord]; mproj. replace (0 * (PI / 180) / 2) with 0 by field. replace (0 / 2) with 0 by field. rewrite sin_0, cos_0. comps; ring. }
  rewrite E, set_get_axis_y, q_turn_y_apply. reflexivity.
Qed.
Lemma local_at t : forall v, mat_apply (get_local_transform t (mkV3 0 0 0) (mkV3 1 1 1)) v = v3add v t.
Proof.
  intros v. assert (E : get_rotation (mkV3 0 0 0) = mkV4 0 0 0 1).
  { unfold get_rotation, euler_to_quat, v3scale; mproj; rnum; cbn [eang eord]; mproj. replace (0 * (PI / 180) / 2) with 0 by field. rewrite sin_0, cos_0. comps; ring. }
  unfold get_local_transform. rewrite E, mat_trs_entries. cbv zeta. destruct v, t. unfold mat_rot, mat_apply, v3add; mproj; rnum; comps; ring.
Qed.
(** Refuted: the transforms of nested objects are scaled again for every level: a child at distance 2 is at 6 after scaling by 2, instead of 4. *)
Theorem C82_nested_refuted : exists root child root' child' L1 L2 L1' L2',
  transform_doc (mat_scale 2 2 2) (mkMDoc [root; child] [] [] None) = Some (mkMDoc [root'; child'] [] [] None) /\ oDepth root = 0%Z /\ oDepth child = 1%Z /\
  local_matrix root = Some L1 /\ local_matrix child = Some L2 /\ local_matrix root' = Some L1' /\ local_matrix child' = Some L2' /\
  mat_apply L1 (mat_apply L2 (mkV3 0 0 0)) = mkV3 2 0 0 /\ mat_apply L1' (mat_apply L2' (mkV3 0 0 0)) = mkV3 6 0 0.
Proof.
  set (root := ob 0 (mkV3 1 0 0) (mkV3 0 0 0)). set (child := ob 1 (mkV3 1 0 0) (mkV3 0 0 0)). set (d := mkMDoc [root; child] [] [] None).
  destruct (proj2 (C82_total (mat_scale 2 2 2) d)) as [d' E]; [repeat constructor; discriminate|].
  destruct (C82_uniform_local_partial 2 d d' 0 root (mkV3 1 0 0) (mkV3 0 0 0) (mkV3 1 1 1)) as (root' & L1 & L1' & A1 & A2 & A3 & A4); try reflexivity; try exact E; try (cbn; lra); [exact zero_survives|].
  destruct (C82_uniform_local_partial 2 d d' 1 child (mkV3 1 0 0) (mkV3 0 0 0) (mkV3 1 1 1)) as (child' & L2 & L2' & B1 & B2 & B3 & B4); try reflexivity; try exact E; try (cbn; lra); [exact zero_survives|].
  destruct (transform_doc_objects _ d d' E) as (Ln & Q1 & Q2 & Q3 & _). exists root, child, root', child', L1, L2, L1', L2'.
  assert (Ed : d' = mkMDoc [root'; child'] [] [] None).
  { destruct d' as [os bs ms ph]. cbn [mdObjects mdBones mdMorphs mdPhysics] in A1, B1, Ln, Q1, Q2, Q3. subst bs ms ph. destruct os as [|x [|y [|? ?]]]; try discriminate Ln. cbn [nth_error] in A1, B1. injection A1 as ->. injection B1 as ->. reflexivity. }
  rewrite <- Ed. split; [exact E|]. split; [reflexivity|]. split; [reflexivity|]. split; [exact A2|]. split; [exact B2|]. split; [exact A3|]. split; [exact B3|].
  injection A2 as <-. injection B2 as <-. assert (Ap : forall L v, affine L -> mat_apply (mat_mul (mat_scale 2 2 2) L) v = v3scale (mat_apply L v) 2).
  { intros L v HL. rewrite mat_apply_mul by (exact HL || apply mat_scale_affine). rewrite scale_apply. unfold scaled, v3scale; mproj; rnum; comps; ring. }
  assert (Af : affine (get_local_transform (mkV3 1 0 0) (mkV3 0 0 0) (mkV3 1 1 1))) by (unfold get_local_transform; rewrite mat_trs_entries; cbv zeta; unfold affine; mproj; repeat split).
  rewrite A4, B4, !Ap by exact Af. rewrite !local_at. unfold v3add, v3scale; mproj; rnum. split; comps; ring.
Qed.
Print Assumptions C82_nested_refuted.
(** Refuted: scaling by 2 turns an object whose rotation does not survive being stored. *)
Theorem C82_rotation_refuted : exists o o' L L', transform_doc (mat_scale 2 2 2) (mkMDoc [o] [] [] None) = Some (mkMDoc [o'] [] [] None) /\ local_matrix o = Some L /\ local_matrix o' = Some L' /\
  mat_apply L (mkV3 1 0 0) = mkV3 0 1 0 /\ mat_apply L' (mkV3 1 0 0) = mkV3 0 0 2.
Proof.
  set (o := ob 0 (mkV3 0 0 0) (mkV3 0 90 90)). destruct set_get_bad as (U & B1 & B2).
  assert (S : exists t' r', set_local_transform (mat_mul (mat_scale 2 2 2) (get_local_transform (mkV3 0 0 0) (mkV3 0 90 90) (mkV3 1 1 1))) = (t', r', mkV3 2 2 2) /\ t' = mkV3 0 0 0 /\ r' = set_rotation bad_rotation).
  { unfold get_local_transform. rewrite bad_angles, scale_trs. replace (v3scale (mkV3 0 0 0) 2) with (mkV3 0 0 0) by (unfold v3scale; mproj; rnum; comps; ring). replace (v3scale (mkV3 1 1 1) 2) with (mkV3 2 2 2) by (unfold v3scale; mproj; rnum; comps; ring).
    unfold set_local_transform. pose proof (decompose_positive (mkV3 0 0 0) bad_rotation (mkV3 2 2 2) U) as D. mproj. specialize (D ltac:(lra) ltac:(lra) ltac:(lra)). destruct (mat_decompose _) as [[t r] s]. destruct D as (-> & -> & D).
    exists (mkV3 0 0 0), (set_rotation r). split; [reflexivity|]. split; [reflexivity|]. destruct D as [->| ->]; [reflexivity|apply set_rotation_sign]. }
  destruct S as (t' & r' & S & -> & ->). exists o, (apply_transform (mat_scale 2 2 2) (set_trs o (mkV3 0 0 0) (set_rotation bad_rotation) (mkV3 2 2 2))), (get_local_transform (mkV3 0 0 0) (mkV3 0 90 90) (mkV3 1 1 1)), (get_local_transform (mkV3 0 0 0) (set_rotation bad_rotation) (mkV3 2 2 2)).
  split; [unfold transform_doc; cbn [mdObjects all_some]; unfold transform_object, o, ob; cbn [oTranslation oRotation oScale]; rewrite S; reflexivity|]. split; [reflexivity|]. split; [reflexivity|].
  unfold get_local_transform. rewrite bad_angles. rewrite !mat_trs_apply by (exact U || apply euler_to_quat_unit). mproj.
  replace (mkV3 (2 * 1) (2 * 0) (2 * 0)) with (mkV3 2 0 0) by (comps; ring). replace (mkV3 (1 * 1) (1 * 0) (1 * 0)) with (mkV3 1 0 0) by (comps; ring).
  split.
  - rewrite B1. unfold v3add; mproj; rnum; comps; ring.
  - assert (Q : qapply (get_rotation (set_rotation bad_rotation)) (mkV3 2 0 0) = mkV3 0 0 2).
    { replace (mkV3 2 0 0) with (v3scale (mkV3 1 0 0) 2) by (unfold v3scale; mproj; rnum; comps; ring).
      assert (L : forall q v k, qapply q (v3scale v k) = v3scale (qapply q v) k) by (intros q v k; unfold qapply, v3scale; mproj; rnum; cbv zeta; mproj; comps; ring).
      rewrite L, B2. unfold v3scale; mproj; rnum; comps; ring. }
    rewrite Q. unfold v3add; mproj; rnum; comps; ring.
Qed.
Print Assumptions C82_rotation_refuted.
(** Refuted: joints between bodies stay where they are. *)
Theorem C82_joint_refuted : exists d d' j, transform_doc (mat_scale 2 2 2) d = Some d' /\ pjPos j = mkV3 1 0 0 /\
  mdPhysics d = Some (mkPh [] [j]) /\ mdPhysics d' = Some (mkPh [] [j]).
Proof. exists (mkMDoc [] [] [] (Some (mkPh [] [mkPJ "j" 0 1 (mkV3 1 0 0) (mkV3 0 0 0) (mkV3 0 0 0) (mkV3 0 0 0)]))). eexists. exists (mkPJ "j" 0 1 (mkV3 1 0 0) (mkV3 0 0 0) (mkV3 0 0 0) (mkV3 0 0 0)). repeat split. Qed.
Print Assumptions C82_joint_refuted.
(** Refuted: the half turn does not turn the axes of physics shapes. *)
Theorem C82_shape_refuted : exists s, let m := mat_scale (-1) 1 (-1) in let a := mat_apply m (shape_axis s (mkV3 0 1 0)) in let a' := shape_axis (transform_shape m s) (mkV3 0 1 0) in
  a <> a' /\ a <> v3scale a' (-1).
Proof.
  exists (mkPS "CAPSULE" (mkV3 1 2 1) (mkV3 0 0 0) (mkV3 (PI / 4) 0 0)). cbv zeta. rewrite scale_apply. unfold shape_axis.
  assert (P : psRot (transform_shape (mat_scale (-1) 1 (-1)) (mkPS "CAPSULE" (mkV3 1 2 1) (mkV3 0 0 0) (mkV3 (PI / 4) 0 0))) = mkV3 (PI / 4) 0 0) by (unfold transform_shape; destruct (mat_decompose _) as [[? ?] ?]; reflexivity).
  rewrite P. cbn [psRot]. rewrite !euler_to_quat_turns. mproj. unfold turn_x, turn_y, turn_z, scaled, v3scale; mproj; rnum. rewrite sin_0, cos_0, sin_PI4, cos_PI4.
  assert (Q : 0 < 1 / sqrt 2) by (apply Rdiv_lt_0_compat; [lra|apply sqrt_lt_R0; lra]). set (c := 1 / sqrt 2) in *. split; intros E; injection E; intros; nra.
Qed.
Print Assumptions C82_shape_refuted.
(** Refuted: mirroring an axis turns faces inside out: the stored normals no longer agree with the order of the vertices. *)
Definition tri : object Q := mkObj 1 "t" [mkV3 0 0 0; mkV3 1 0 0; mkV3 0 1 0]%Q [mkFace 0 [0; 1; 2]%Z 0 [] [Some (mkV3 0 0 1)%Q; Some (mkV3 0 0 1)%Q; Some (mkV3 0 0 1)%Q]] true false 0 false 1 0%Q 0 0 0 0%Q None None None None [] None.
Definition facing (o : object Q) : option (list (option Q)) :=
  match oVerts o, oFaces o with
  | [a; b; c], [f] => Some (map (option_map (fun n => Qred (v3dot n (v3cross (v3sub b a) (v3sub c a))))) (fNormals f))
  | _, _ => None
  end.
Theorem C82_mirror_refuted : facing tri = Some [Some 1%Q; Some 1%Q; Some 1%Q] /\ facing (apply_transform (mat_scale (-1) 1 1)%Q tri) = Some [Some (-1)%Q; Some (-1)%Q; Some (-1)%Q].
Proof. split; vm_compute; reflexivity. Qed.
Print Assumptions C82_mirror_refuted.

(** The hypotheses are met by a turned object with a box, scaled by 80. *)
Example C82_example : Forall has_local [ob 0 (mkV3 1 2 3) (mkV3 0 45 0)] /\ 0 < 80 /\ 0 < vx (mkV3 1 1 1) /\
  forall v, qapply (get_rotation (set_rotation (get_rotation (mkV3 0 45 0)))) v = qapply (get_rotation (mkV3 0 45 0)) v.
Proof.
  split; [repeat constructor; discriminate|]. split; [lra|]. split; [cbn; lra|]. intros v. assert (E : get_rotation (mkV3 0 45 0) = q_turn_y (45 * (PI / 180))).
  { unfold get_rotation, euler_to_quat, q_turn_y, v3scale; mproj; rnum; cbn [eang eord]; mproj. replace (0 * (PI / 180) / 2) with 0 by field. rewrite sin_0, cos_0. comps; ring. }
  rewrite E, set_get_axis_y, q_turn_y_apply. reflexivity.
Qed.
