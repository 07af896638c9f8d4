(** C138: the physics of a PMX model that is saved as PMX again. *)
From Coq Require Import String List ZArith Bool Lia Reals Lra.
From Verif.Model Require Import Num NumR Vec Matrix Mqo MqoDoc Mmd2Mqo Mqo2Mmd MmdPhysics.
From Verif.Model Require MqoTransform.
From Verif Require Import Spec.MmdConvSpec Spec.Mqo2MmdSpec Spec.PmxBonesSpec Spec.PmxPhysicsSpec Proofs.PmxBones Proofs.PmxPhysics.
From Verif Require Proofs.TransformProofs Spec.TransformSpec Props.C137.
Import ListNotations.
Local Open Scope Z_scope.

(** Full statement: the second model has the rigid bodies and joints of the first. Proved without joints, English names and modes, and with the sizes that come of the mirror:
    body by body the same name, group, mass, shape and so on, at the same place of the same bone. *)
Theorem C138_bodies_partial : forall (T : Type) (N : Num T) known (thr : T) (bs : list (pbone T)) out, from_mmd_bones known thr bs = Some out ->
  forall (move grow : vec3 T -> vec3 T) (bones : list (bone T)) (scale : T), Forall2 (moved_bone move) out bones ->
  forall (rs : list (rigid T)) (js : list (pjoint T)) (qs : list (qbody T)), Forall2 (moved_body move grow) (fst (from_physics rs js)) qs ->
  Forall2 (fun r r' => like r r' /\ rgPos r' = scaled scale (move (flip_z (rgPos r))) /\ rgSize r' = scaled scale (grow (flip_z (rgSize r))) /\
    (0 <= rgBone r < Z.of_nat (length bs) -> rgBone r' = rgBone r)) rs (fst (to_physics scale bones qs (snd (from_physics rs js)))).
Proof. exact (fun T N => @pmx_pmx_physics T N). Qed.
Print Assumptions C138_bodies_partial.
(** A body of the document becomes one rigid body for every shape, with names of their own. *)
Theorem C138_shapes : forall (T : Type) (N : Num T) (scale : T) (bones : list (bone T)) (b : qbody T),
  let rs := fst (to_physics scale bones [b] []) in Forall2 (of_shape scale b) (qbShapes b) rs /\ NoDup (map (@rgName T) rs).
Proof.
  intros T N scale bones b. cbv zeta. unfold to_physics. cbn [fst flat_map]. rewrite app_nil_r. split; [apply shapes_from|apply shape_names].
Qed.
Print Assumptions C138_shapes.
(** The joints of a model with bodies are in the document, at the mirrored places, between the same bodies (the document counts bodies from 1). *)
Theorem C138_joints_read : forall (T : Type) (N : Num T) (rs : list (rigid T)) (js : list (pjoint T)), rs <> [] ->
  Forall2 (fun r b => qbName b = rgName r /\ qbBone b = rgBone r + 1 /\ (qbKinematic b = true <-> rgMode r = 0) /\ map (fun s => (shPos s, shSize s, shRot s)) (qbShapes b) = [(flip_z (rgPos r), flip_z (rgSize r), rgRot r)]) rs (fst (from_physics rs js)) /\
  Forall2 (fun j q => qjName q = pjName j /\ qjBody1 q - 1 = pjBody1 j /\ qjBody2 q - 1 = pjBody2 j /\ qjPos q = flip_z (pjPos j) /\ qjRot q = pjRot j /\ qjLinear q = pjLinear j /\ qjAngular q = pjAngular j) js (snd (from_physics rs js)).
Proof.
  intros T N rs js H. assert (E : from_physics rs js = (map from_rigid rs, map from_joint js)) by (destruct rs; [congruence|reflexivity]). rewrite E. cbn [fst snd]. split.
  - clear. induction rs as [|r rs IH]; constructor; [|exact IH]. cbn [from_rigid qbName qbBone qbKinematic qbShapes map shPos shSize shRot]. rewrite Z.eqb_eq. repeat split; auto.
  - clear. induction js as [|j js IH]; constructor; [|exact IH]. cbn [from_joint qjName qjBody1 qjBody2 qjPos qjRot qjLinear qjAngular]. repeat split; lia.
Qed.
Print Assumptions C138_joints_read.
(** What the transformation by [k] makes of a shape, in the model of C82. *)
Definition grown (k : R) (v : vec3 R) : vec3 R := mkV3 (Rabs (vx v) * Rabs k)%R (Rabs (vy v) * Rabs k)%R (Rabs (vz v) * Rabs k)%R.
Theorem C138_transformed : forall (k : R) (s : MqoTransform.pshape), let s' := MqoTransform.transform_shape (mat_scale k k k) s in
  MqoTransform.psSize s' = grown k (MqoTransform.psSize s) /\ MqoTransform.psPos s' = mat_apply (mat_scale k k k) (MqoTransform.psPos s).
Proof.
  intros k s. cbv zeta. destruct (TransformProofs.scale_shape k k k s) as (A & B & _). split; [exact A|]. rewrite B. symmetry. apply TransformProofs.scale_apply.
Qed.
Print Assumptions C138_transformed.
(** Enlarged by the inverse of the scale of PMX models, a size has the width and the height it had, and its depth negated. *)
Theorem C138_size_partial : forall (k scale : R) (s : vec3 R), (k * scale = 1)%R -> (0 < k)%R -> (0 <= vx s)%R -> (0 <= vy s)%R -> (0 <= vz s)%R ->
  scaled scale (grown k (flip_z s)) = mkV3 (vx s) (vy s) (- vz s)%R.
Proof.
  intros k scale [x y z] KS K X Y Z. cbn [vx vy vz] in *. unfold scaled, grown, flip_z. cbn [vx vy vz nmul nopp none RNum].
  rewrite (Rabs_right x), (Rabs_right y), (Rabs_right k) by lra. replace (z * - (1))%R with (- z)%R by ring. rewrite Rabs_Ropp, (Rabs_right z) by lra.
  assert (E : forall a a' b b' c c' : R, a = a' -> b = b' -> c = c' -> mkV3 a b c = mkV3 a' b' c') by (intros; congruence). apply E.
  - transitivity (x * (k * scale))%R; [ring|rewrite KS; ring].
  - transitivity (y * (k * scale))%R; [ring|rewrite KS; ring].
  - transitivity (- z * (k * scale))%R; [ring|rewrite KS; ring].
Qed.
Print Assumptions C138_size_partial.

(** A hand that swings and an arm that follows its bone. *)
Definition C138_rigids : list (rigid Z) :=
  [mkRigid "arm" "Arm" 1 3 7 2 (mkV3 1 2 0) (mkV3 3 4 5) (mkV3 0 1 0) 10 11 12 13 14 0;
   mkRigid "hand" "Hand" 3 4 8 1 (mkV3 1 2 3) (mkV3 6 4 5) (mkV3 1 1 0) 20 21 22 23 24 1;
   mkRigid "hat" "Hat" (-1) 4 8 0 (mkV3 1 0 0) (mkV3 0 9 9) (mkV3 0 0 0) 20 21 22 23 24 2].
Definition C138_joints : list (pjoint Z) := [mkPJoint "wrist" "Wrist" 0 0 1 (mkV3 5 4 5) (mkV3 0 0 0) (mkV3 0 0 0) (mkV3 1 1 1)].
Definition C138_grow (v : vec3 Z) : vec3 Z := mkV3 (Z.abs (vx v * 2)) (Z.abs (vy v * 2)) (Z.abs (vz v * 2)).
Definition C138_moved (bs : list (qbody Z)) : list (qbody Z) := map (fun b => mkQBody (qbName b) (map (fun s => mkShape (shType s) (C138_grow (shSize s)) (C137.C137_move (shPos s)) (shRot s)) (qbShapes b))
  (qbMass b) (qbKinematic b) (qbGroup b) (qbMask b) (qbRest b) (qbFric b) (qbLinear b) (qbAngular b) (qbBone b) (qbObj b)) bs.
Lemma C138_moved_ok bs : Forall2 (moved_body C137.C137_move C138_grow) bs (C138_moved bs).
Proof.
  unfold C138_moved. induction bs as [|b bs IH]; constructor; [|exact IH]. split; [|reflexivity]. cbn [qbShapes]. induction (qbShapes b) as [|s l IH']; constructor; [repeat split|exact IH'].
Qed.
Definition C138_run (bs : list (pbone Z)) (rs : list (rigid Z)) (js : list (pjoint Z)) : option (list (rigid Z) * list (pjoint Z)) :=
  option_map (fun out => let (q, j) := from_physics rs js in to_physics 3 (C137.C137_moved out) (C138_moved q) j) (from_mmd_bones ["arm"%string] 5 bs).
Example C138_example : option_map fst (C138_run C137.C137_model C138_rigids C138_joints) = Some
  [mkRigid "arm" "" 1 3 7 2 (mkV3 6 12 0) (mkV3 18 24 30) (mkV3 0 1 0) 10 11 12 13 14 1;
   mkRigid "hand" "" 3 4 8 1 (mkV3 6 12 (-18)) (mkV3 36 24 30) (mkV3 1 1 0) 20 21 22 23 24 0;
   mkRigid "hat" "" 0 4 8 0 (mkV3 6 0 0) (mkV3 0 54 54) (mkV3 0 0 0) 20 21 22 23 24 0].
Proof. vm_compute. reflexivity. Qed.
Example C138_shapes_example : map (fun r => (rgName r, rgShape r))
  (fst (to_physics 3 [] [mkQBody "b" [mkShape "BOX" (mkV3 1 1 1) (mkV3 0 0 0) (mkV3 0 0 0); mkShape "CAPSULE" (mkV3 1 1 1) (mkV3 0 0 0) (mkV3 0 0 0)] 1 true 0 0 0 0 0 0 0 0] [])) =
  [("b"%string, 1); ("b_1"%string, 2)].
Proof. vm_compute. reflexivity. Qed.

Example C138_joints_example : map (fun q => (qjName q, qjBody1 q, qjBody2 q, qjPos q)) (snd (from_physics C138_rigids C138_joints)) = [("wrist"%string, 1, 2, mkV3 5 4 (-5))].
Proof. vm_compute. reflexivity. Qed.

(** Every body of every model changes its mode: bodies that followed their bones fall, and bodies that fell follow. *)
Theorem C138_mode_refuted : forall (T : Type) (N : Num T) (move grow : vec3 T -> vec3 T) (bones : list (bone T)) (scale : T)
  (rs : list (rigid T)) (js : list (pjoint T)) (qs : list (qbody T)), Forall2 (moved_body move grow) (fst (from_physics rs js)) qs ->
  Forall2 (fun r r' => rgMode r' <> rgMode r) rs (fst (to_physics scale bones qs (snd (from_physics rs js)))).
Proof. exact (fun T N move grow bones scale => @pmx_pmx_modes T N move grow bones scale). Qed.
Print Assumptions C138_mode_refuted.
(** Boxes get a negative depth. *)
Theorem C138_size_refuted : forall (k scale : R) (s : vec3 R), (k * scale = 1)%R -> (0 < k)%R -> (0 < vz s)%R -> (vz (scaled scale (grown k (flip_z s))) < 0)%R.
Proof.
  intros k scale [x y z] KS K Z. cbn [vz] in *. unfold scaled, grown, flip_z. cbn [vx vy vz nmul nopp none RNum]. rewrite (Rabs_right k) by lra. replace (z * - (1))%R with (- z)%R by ring. rewrite Rabs_Ropp, (Rabs_right z) by lra.
  replace (z * k * scale * - (1))%R with (- z * (k * scale))%R by ring. rewrite KS. lra.
Qed.
Print Assumptions C138_size_refuted.
(** Joints are lost. *)
Definition C138_joints_full : Prop := forall bs rs js rs' js', C138_run bs rs js = Some (rs', js') -> length js' = length js.
Theorem C138_joints_refuted : ~ C138_joints_full.
Proof.
  intros H. destruct (C138_run C137.C137_model C138_rigids C138_joints) as [[rs' js']|] eqn:E; [|vm_compute in E; discriminate E]. specialize (H _ _ _ _ _ E). vm_compute in E. injection E as <- <-. discriminate H.
Qed.
Print Assumptions C138_joints_refuted.
(** A body without bone is tied to the first bone. *)
Definition C138_free_full : Prop := forall bs rs js rs' js', C138_run bs rs js = Some (rs', js') -> Forall2 (fun r r' => rgBone r = -1 -> rgBone r' = -1) rs rs'.
Theorem C138_free_refuted : ~ C138_free_full.
Proof.
  intros H. destruct (C138_run C137.C137_model C138_rigids C138_joints) as [[rs' js']|] eqn:E; [|vm_compute in E; discriminate E]. specialize (H _ _ _ _ _ E). vm_compute in E. injection E as <- <-.
  inversion H as [|? ? ? ? _ H1]; subst. inversion H1 as [|? ? ? ? _ H2]; subst. inversion H2 as [|? ? ? ? G _]; subst. specialize (G eq_refl). discriminate G.
Qed.
Print Assumptions C138_free_refuted.
