(** Proofs for C89: colliders. *)
From Coq Require Import String List ZArith Reals Lra Lia Bool.
From Verif.Model Require Import Num NumR Vec Matrix Euler Mqo MqoDoc MqoTransform Unity UnityShape Unity2Mqo.
From Verif.Spec Require Import GeomSpec UnitySpec SceneSpec ColliderSpec.
From Verif.Proofs Require Import MatrixLemmas DecomposeProofs EulerProofs TransformProofs UnityProofs SceneProofs SceneMore.
Import ListNotations.
Local Open Scope string_scope.
Local Open Scope list_scope.
Local Open Scope R_scope.

Lemma qapply_v3add q (v w : vec3 R) : qapply q (v3add v w) = v3add (qapply q v) (qapply q w).
Proof. mdestr; unfold qapply, v3add; mproj; rnum; comps; ring. Qed.
Lemma qapply_v3scale q (v : vec3 R) k : qapply q (v3scale v k) = v3scale (qapply q v) k.
Proof. mdestr; unfold qapply, v3scale; mproj; rnum; comps; ring. Qed.
Lemma affine_ext (a b : mat4 R) : affine a -> affine b -> (forall p, mat_apply a p = mat_apply b p) -> a = b.
Proof.
  intros (A1 & A2 & A3 & A4) (B1 & B2 & B3 & B4) H. pose proof (H (mkV3 0 0 0)) as H0. pose proof (H (mkV3 1 0 0)) as Hx. pose proof (H (mkV3 0 1 0)) as Hy. pose proof (H (mkV3 0 0 1)) as Hz.
  destruct a, b. unfold mat_apply in *; mproj; rnum. injection H0 as ? ? ?. injection Hx as ? ? ?. injection Hy as ? ? ?. injection Hz as ? ? ?. mproj. comps; lra.
Qed.
Lemma unit_turn q v : unit_quat q -> unity_turn q v = qapply q v.
Proof.
  intros U. rewrite <- mat_rot_apply by exact U. destruct q as [x y z w], v as [a b c]. unfold unity_turn, mat_apply, mat_rot, v3add, v3scale, v3cross; mproj; rnum; comps; ring.
Qed.
Lemma turn_mirrored t v : unit_quat (tRot t) -> mirror (unity_turn (tRot t) v) = qapply (mirrored_turn t) (mirror v).
Proof. intros U. rewrite unit_turn by exact U. destruct t as [p [x y z w] s f], v as [a b c]. unfold mirror, mirrored_turn, qapply. cbn [tRot]. mproj; rnum. comps; ring. Qed.
Definition path_quat (path : list (transform R)) : vec4 R := fold_right (fun t q => qmul (mirrored_turn t) q) (mkV4 0 0 0 1) path.
Lemma path_quat_unit path : Forall even path -> unit_quat (path_quat path).
Proof. intros H. induction H as [|t path [U _] H IH]; cbn [path_quat fold_right]; [unfold unit_quat; mproj; ring|]. apply qmul_unit; [apply mirrored_unit; exact U|exact IH]. Qed.
Lemma path_quat_turned path v : Forall even path -> qapply (path_quat path) v = turned path v.
Proof.
  intros H. induction H as [|t path [U _] H IH]; unfold turned in *; cbn [path_quat fold_right].
  - rewrite mirror_twice. destruct v. unfold qapply; mproj; rnum; comps; ring.
  - fold (path_quat path). rewrite qapply_mul, IH, turn_mirrored by exact U. reflexivity.
Qed.
Lemma path_scale_pos path : Forall even path -> 0 < path_scale path.
Proof. intros H. induction H as [|t path (_ & _ & K) H IH]; cbn [path_scale fold_right]; [lra|]. apply Rmult_lt_0_compat; assumption. Qed.
Lemma place_even path : Forall even path -> exists p, forall v, mirror (place path (mirror v)) = v3add p (v3scale (turned path v) (path_scale path)).
Proof.
  intros H. induction H as [|t path (U & E & K) H (p & IH)].
  - exists (mkV3 0 0 0). intros v. unfold place, turned, path_scale; cbn [fold_right]. rewrite mirror_twice. destruct v. unfold v3add, v3scale; mproj; rnum; comps; ring.
  - exists (v3add (mirror (tPos t)) (qapply (mirrored_turn t) (v3scale p (vx (tScale t))))). intros v. unfold place. cbn [fold_right]. fold (place path (mirror v)).
    rewrite <- get_matrix_mirror, get_matrix_trs, mat_trs_apply by (apply mirrored_unit; exact U).
    rewrite E at 2 3. mproj. assert (S : forall w : vec3 R, mkV3 (vx (tScale t) * vx w) (vx (tScale t) * vy w) (vx (tScale t) * vz w) = v3scale w (vx (tScale t))) by (intros [a b c]; unfold v3scale; mproj; rnum; comps; ring).
    rewrite S, IH. rewrite <- (path_quat_turned (t :: path)) by (constructor; [split; auto|exact H]). rewrite <- path_quat_turned by exact H. cbn [path_quat fold_right]. fold (path_quat path). rewrite qapply_mul. set (w := qapply (path_quat path) v). cbn [path_scale fold_right]. fold (path_scale path). 
    rewrite !qapply_v3scale, qapply_v3add, !qapply_v3scale. set (a := qapply _ p). set (b := qapply _ w). destruct a, b, (mirror (tPos t)). unfold v3add, v3scale; mproj; rnum; comps; ring.
Qed.
Lemma matrix_even scale path m : affine m -> follows scale path m -> Forall even path ->
  exists p, m = mat_trs p (path_quat path) (mkV3 (scale * path_scale path) (scale * path_scale path) (scale * path_scale path)).
Proof.
  intros A F H. destruct (place_even path H) as (p & E). exists (v3scale p scale). apply affine_ext; [exact A|apply trs_affine|]. intros v. rewrite F, mat_trs_apply by (apply path_quat_unit; exact H). unfold doc_place. rewrite E, <- path_quat_turned by exact H. mproj.
  replace (mkV3 (scale * path_scale path * vx v) (scale * path_scale path * vy v) (scale * path_scale path * vz v)) with (v3scale v (scale * path_scale path)) by (destruct v; unfold v3scale; mproj; rnum; comps; ring).
  rewrite qapply_v3scale. set (w := qapply _ v). destruct w, p. unfold v3add, v3scale; mproj; rnum; comps; ring.
Qed.
(** Size and axes. *)
Lemma decompose_even scale path m : 0 < scale -> affine m -> follows scale path m -> Forall even path ->
  exists t q k, mat_decompose m = (t, q, mkV3 k k k) /\ k = scale * path_scale path /\ (upright path -> forall v, qapply (euler_to_quat (mkE (eang (euler_of_quat q ZXY)) ZXY)) v = turned path v).
Proof.
  intros S A F H. destruct (matrix_even scale path m A F H) as (p & ->). set (k := scale * path_scale path). assert (K : 0 < k) by (apply Rmult_lt_0_compat; [exact S|apply path_scale_pos; exact H]).
  pose proof (path_quat_unit path H) as U. pose proof (decompose_positive p (path_quat path) (mkV3 k k k) U) as D. mproj. specialize (D K K K). destruct (mat_decompose _) as [[t q] s]. destruct D as (-> & -> & D).
  exists p, q, k. split; [reflexivity|]. split; [reflexivity|]. intros G v. change (mkE (eang (euler_of_quat q ZXY)) ZXY) with (euler_of_quat q ZXY).
  assert (M : mat_rot q = mat_rot (path_quat path)) by (apply same_rotation_mat; exact D). assert (U' : unit_quat q) by (eapply same_rotation_unit; [exact U|exact D]).
  destruct (euler_round_trip_both q ZXY v U') as [_ E].
  - rewrite M. unfold upright in G. rewrite <- path_quat_turned in G by exact H. rewrite <- (mat_rot_apply (path_quat path)) in G by exact U. unfold mid_entry. replace (m6 (mat_rot (path_quat path))) with (vz (mat_apply (mat_rot (path_quat path)) (mkV3 0 1 0))); [exact G|].
    set (r := mat_rot (path_quat path)). pose proof (mat_rot_affine (path_quat path)) as (_ & _ & _ & _). assert (T : m14 r = 0) by reflexivity. unfold mat_apply; mproj; rnum. rewrite T. ring.
  - rewrite E, <- path_quat_turned by exact H. destruct D as [->| ->]; [reflexivity|]. destruct (path_quat path), v. unfold qapply, v4scale; mproj; rnum; comps; ring.
Qed.

Lemma shape_at_ok scale path m kind c size s k0 : affine m -> follows scale path m -> psType s = kind -> psPos s = mat_apply m c ->
  (forall t q k, mat_decompose m = (t, q, mkV3 k k k) -> psSize s = v3scale size (k0 * k) /\ psRot s = eang (euler_of_quat q ZXY)) -> k0 = 1 -> shape_at scale path kind c size s.
Proof.
  intros A F K P D ->. split; [exact K|]. split; [rewrite P; apply F|]. intros [S E]. destruct (decompose_even scale path m S A F E) as (t & q & k & Ed & Ek & Et). destruct (D t q k Ed) as [Z Q]. split.
  - rewrite Z, Ek, Rmult_1_l. reflexivity.
  - intros G v. unfold axis_zxy. rewrite Q. apply Et. exact G.
Qed.
Lemma convert_body_ok scale path o m x : affine m -> follows scale path m ->
  (~ has_collider o -> convert_body scale o m x = []) /\ (has_collider o -> exists b, convert_body scale o m x = [b] /\ body_of scale path o x b).
Proof.
  intros A F. unfold convert_body.
  assert (C : exists bx sp ca me, collider_shapes scale o m = bx ++ sp ++ ca ++ me /\ Forall2 (box_shape scale path) (goBoxes o) bx /\ Forall2 (sphere_shape scale path) (goSpheres o) sp /\ Forall2 (capsule_shape scale path) (goCapsules o) ca /\ Forall2 (mesh_shape scale path) (mesh_list o) me).
  { unfold collider_shapes. destruct (mat_decompose m) as [[t rot] s] eqn:Ed. cbv zeta. eexists _, _, _, _. split; [reflexivity|]. split; [|split; [|split]].
    - induction (goBoxes o) as [|b l IH]; cbn [map]; constructor; [|exact IH]. eapply shape_at_ok; [exact A|exact F|reflexivity|reflexivity| |reflexivity]. intros t' q k E. rewrite Ed in E. injection E as -> -> ->. cbn [psSize psRot]. split; [|reflexivity]. destruct (snd b). unfold v3scale; mproj; rnum; comps; field.
    - induction (goSpheres o) as [|b l IH]; cbn [map]; constructor; [|exact IH]. eapply shape_at_ok; [exact A|exact F|reflexivity|reflexivity| |reflexivity]. intros t' q k E. rewrite Ed in E. injection E as -> -> ->. cbn [psSize psRot]. split; [|reflexivity]. unfold v3scale; mproj; rnum; comps; field.
    - induction (goCapsules o) as [|[[[c r] h] d] l IH]; cbn [map]; constructor; [|exact IH]. eapply shape_at_ok; [exact A|exact F|reflexivity|reflexivity| |reflexivity]. intros t' q k E. rewrite Ed in E. injection E as -> -> ->. cbn [psSize psRot]. split; [|reflexivity]. unfold v3scale; mproj; rnum; comps; field.
    - unfold mesh_list. induction (goMeshes o) as [|r l IH]; cbn [flat_map]; [constructor|]. apply Forall2_app; [|exact IH]. unfold unit_mesh_shape. destruct (mesh_name r) as [name|]; [|constructor].
      destruct (String.eqb_spec name "Cube") as [->|N1]; [constructor; [|constructor]|destruct (String.eqb_spec name "Sphere") as [->|N2]; (constructor; [|constructor])]; (split; [|split]); intros; try discriminate; try contradiction; try (split; [reflexivity|apply F]); reflexivity. }
  destruct C as (bx & sp & ca & me & -> & C1 & C2 & C3 & C4).
  assert (Em : has_collider o <-> bx ++ sp ++ ca ++ me <> []).
  { unfold has_collider. destruct C1, C2, C3, C4; cbn [app]; (split; [intros HH; try discriminate|intros HH]); intuition congruence. }
  destruct (bx ++ sp ++ ca ++ me) as [|s0 ss] eqn:Es.
  - split; [reflexivity|]. intros H. exfalso. apply Em in H. contradiction.
  - split; [intros H; exfalso; apply H, Em; discriminate|]. intros _. destruct (goBody o) as [[mass kin]|] eqn:Eb; (eexists; split; [reflexivity|]); (split; [reflexivity|]); (split; [reflexivity|]); (split; [|split; [|exists bx, sp, ca, me; rewrite Es; cbn [ubShapes]; auto]]).
    + intros m' k' E. rewrite Eb in E. injection E as <- <-. split; [reflexivity|]. cbn [ubKinematic]. destruct (Z.eqb_spec kin 0); cbn; split; try discriminate; try congruence; intros; auto.
    + rewrite Eb. discriminate.
    + rewrite Eb. discriminate.
    + intros _. split; reflexivity.
Qed.
Lemma has_collider_dec o : has_collider o \/ ~ has_collider o.
Proof. unfold has_collider. destruct (goBoxes o), (goSpheres o), (goCapsules o), (mesh_list o); try (left; intuition congruence). right. intuition congruence. Qed.
Theorem convert_bodies scale load import sc fuel roots st : convert scale true load import fuel sc roots = Some st ->
  exists vs oss, walks sc [] true (map Some roots) vs /\ uObjs st = concat oss /\ blocks scale load import sc (uMats st) 0 vs oss /\ body_list scale sc vs oss (uBodies st).
Proof.
  intros H. destruct (convert_ok _ _ _ _ _ _ _ _ H) as (vs & oss & bss & W & O & B & Bl & Bo & _). exists vs, oss. split; [exact W|]. split; [exact O|]. split; [exact Bl|]. rewrite B. clear - Bo.
  induction Bo as [|v vs o os oss bss E1 E2 Bo IH|v vs o x os oss m bss E1 E2 A F Bo IH]; cbn [concat].
  - constructor.
  - eapply bl_none; [exact E1|left; exact E2|exact IH].
  - unfold make_bodies. destruct (convert_body_ok scale (vPath v) o m x A F) as [N S]. destruct (has_collider_dec o) as [Y|Y].
    + destruct (S Y) as (b & -> & Bb). cbn [app]. eapply bl_some; eassumption.
    + rewrite (N Y). cbn [app]. eapply bl_none; [exact E1|right; exact Y|exact IH].
Qed.
(** Without physics there are none. *)
Theorem convert_no_bodies scale load import sc fuel roots st : convert scale false load import fuel sc roots = Some st -> uBodies st = [].
Proof.
  intros H. destruct (convert_ok _ _ _ _ _ _ _ _ H) as (vs & oss & bss & W & O & B & Bl & Bo & _). rewrite B. clear - Bo. induction Bo as [|v vs o os oss bss E1 E2 Bo IH|v vs o x os oss m bss E1 E2 A F Bo IH]; cbn [concat]; [reflexivity|exact IH|exact IH].
Qed.
