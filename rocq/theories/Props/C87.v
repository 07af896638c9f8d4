(** C87: a Unity scene becomes the tree of its objects. *)
From Coq Require Import String List ZArith Reals Lra Lia Bool.
From Verif.Model Require Import Num NumR Vec Matrix Euler Mqo MqoDoc MqoTransform Unity UnityShape Unity2Mqo.
From Verif.Spec Require Import GeomSpec UnitySpec SceneSpec.
From Verif.Proofs Require Import MatrixLemmas UnityProofs EulerProofs RotationProofs SceneProofs SceneMore.
Import ListNotations.
Local Open Scope string_scope.
Local Open Scope list_scope.
Local Open Scope R_scope.

(** The objects of the document are those of the scene, depth first, each with its depth, its number, its local transform and its visibility, and with its mesh at the mirrored and
    scaled place that Unity gives it; imported meshes follow their object. *)
Theorem C87_scene : forall scale load import on sc fuel roots st, convert scale on load import fuel sc roots = Some st ->
  exists vs oss, walks sc [] true (map Some roots) vs /\ uObjs st = concat oss /\ blocks scale load import sc (uMats st) 0 vs oss.
Proof. intros scale load import on sc fuel roots st H. destruct (convert_ok scale load import on sc fuel roots st H) as (vs & oss & _ & A & B & _ & C & _). eauto. Qed.
Print Assumptions C87_scene.

(** Ids are positions, so they are all different (imported objects are numbered like that by fbx2mqo.go 112, 156). *)
Theorem C87_ids : forall scale load import on sc fuel roots st, imports_numbered import -> convert scale on load import fuel sc roots = Some st ->
  map (@oUID R) (uObjs st) = map Z.of_nat (seq 1 (length (uObjs st))).
Proof.
  intros scale load import on sc fuel roots st I H. destruct (convert_ok scale load import on sc fuel roots st H) as (vs & oss & _ & _ & E & _ & B & _). rewrite E. exact (blocks_ids _ _ _ _ _ _ _ _ I B).
Qed.
Print Assumptions C87_ids.

(** It ends, if nothing is its own descendant. *)
Theorem C87_total : forall scale load import on sc rank fuel roots, forest sc rank -> (forall i, In i roots -> (i < length sc)%nat /\ (rank i < fuel)%nat) -> exists st, convert scale on load import fuel sc roots = Some st.
Proof. exact convert_total. Qed.
Print Assumptions C87_total.

(** The local transforms of the document, composed from the root, lead to the same places; for rotations that [SetRotation] keeps. *)
Theorem C87_local_partial : forall scale path p, Forall keeps path -> mat_apply (local_chain scale path) (v3scale p scale) = doc_place scale path p.
Proof. exact local_chain_ok. Qed.
Print Assumptions C87_local_partial.
(** Refuted without that: the local axes of a turned object are others than those of its mesh. *)
Theorem C87_local_refuted : exists t p, unit_quat (tRot t) /\ mat_apply (local_chain 1 [t]) (v3scale p 1) <> doc_place 1 [t] p.
Proof.
  exists (mkTr (mkV3 0 0 0) (mkV4 (- (1 / 2)) (- (1 / 2)) (1 / 2) (1 / 2)) (mkV3 1 1 1) None), (mkV3 1 0 0). split; [unfold unit_quat; cbn [tRot]; mproj; field|].
  destruct set_get_bad as (U & B1 & B2). assert (E : mirrored_turn (mkTr (mkV3 0 0 0) (mkV4 (- (1 / 2)) (- (1 / 2)) (1 / 2) (1 / 2)) (mkV3 1 1 1) None) = bad_rotation) by (unfold mirrored_turn, bad_rotation; cbn [tRot]; mproj; comps; field).
  cbn [local_chain fold_right]. rewrite E. cbn [tPos tScale]. rewrite mat_apply_mul by apply affine_id. unfold get_local_transform. rewrite mat_trs_apply by apply euler_to_quat_unit.
  assert (I : mat_apply mat_id (v3scale (mkV3 1 0 0) 1) = mkV3 1 0 0) by (unfold mat_apply, mat_id, v3scale; mproj; rnum; comps; ring). rewrite I. mproj. replace (1 * 1) with 1 by ring. replace (1 * 0) with 0 by ring. rewrite B2.
  unfold doc_place, place. cbn [fold_right]. rewrite <- get_matrix_mirror, get_matrix_trs, E, mirror_twice. cbn [tPos tScale]. rewrite mat_trs_apply by exact U. mproj. replace (1 * 1) with 1 by ring. replace (1 * 0) with 0 by ring. rewrite B1.
  unfold v3add, v3scale, mirror; mproj; rnum. intros H. injection H. intros. lra.
Qed.
Print Assumptions C87_local_refuted.

(** Refuted: objects that are hidden in the imported file (morph targets, fbx2mqo.go 158) are shown. *)
Definition with_import (import : uref -> list nat -> Z -> mat4 R -> nat -> nat -> option (list (object R) * list (material R))) :=
  convert 1000 false (fun _ => None) import 1 [mkGO "girl" 1 (Some (mkTr (mkV3 0 0 0) (mkV4 0 0 0 1) (mkV3 1 1 1) None, [])) (Some (Some (mkRef 4300000 "f" 3))) (Some (1%Z, [])) None [] [] [] [] None] [0%nat].
Theorem C87_hidden_refuted : exists import y z st, (forall r ks d m n k, import r ks d m n k = Some ([y; z], [])) /\ oVisible z = false /\ with_import import = Some st /\ map (@oName R) (uObjs st) = ["girl(FBX)"; "body"; "smile"] /\ map (@oVisible R) (uObjs st) = [true; true; true].
Proof.
  exists (fun _ _ _ _ _ _ => Some ([new_obj "body"; set_head (new_obj "smile") 0 0 false], [])), (new_obj "body"), (set_head (new_obj "smile") 0 0 false). eexists. split; [intros; reflexivity|]. split; [reflexivity|]. split; [reflexivity|]. split; reflexivity.
Qed.
Print Assumptions C87_hidden_refuted.

(** A room with a box on it; the lamp is switched off, and so is the bulb in it; a child is missing. *)
Definition tr (x y z : R) : transform R := mkTr (mkV3 x y z) (mkV4 0 0 0 1) (mkV3 1 1 1) None.
Definition room : list gobj :=
  [mkGO "room" 1 (Some (tr 0 0 0, [Some 1; None; Some 2]%nat)) None None None [] [] [] [] None;
   mkGO "box" 1 (Some (tr 0 1 3, [])) (Some (Some (mkRef 10202 "0000000000000000e000000000000000" 0))) (Some (1%Z, [mkRef 2100000 "g1" 2])) None [] [] [] [] None;
   mkGO "lamp" 0 (Some (tr 1 0 0, [Some 3%nat])) None None None [] [] [] [] None;
   mkGO "bulb" 1 None None None None [] [] [] [] None].
Example C87_example : option_map (fun st => (map (@oName R) (uObjs st), map (@oDepth R) (uObjs st), map (@oUID R) (uObjs st), map (@oVisible R) (uObjs st))) (convert 1000 false (fun _ => None) no_import 4 room [0%nat]) =
  Some (["room"; "box(Cube)"; "lamp"; "bulb"], [0; 1; 1; 2]%Z, [1; 2; 3; 4]%Z, [true; true; false; false]).
Proof. lazy. reflexivity. Qed.
Example C87_example_forest : forest room (fun i => 3 - i)%nat /\ keeps (mkTr (mkV3 1 2 3) (mkV4 0 0 1 0) (mkV3 1 1 1) None).
Proof.
  split.
  - intros [|[|[|[|i]]]] o t cs j E Et H; cbn in E; try discriminate; try (destruct i; discriminate E); injection E as <-; cbn in Et; try discriminate; injection Et as <- <-; cbn in H; repeat destruct H as [H|H]; try discriminate; try contradiction; injection H as <-; cbn; lia.
  - split; [unfold unit_quat; cbn [tRot]; mproj; ring|]. intros v. assert (E : mirrored_turn (mkTr (mkV3 1 2 3) (mkV4 0 0 1 0) (mkV3 1 1 1) None) = q_turn_z PI) by (unfold mirrored_turn, q_turn_z; cbn [tRot]; mproj; rewrite sin_PI2, cos_PI2; comps; ring).
    rewrite E, set_get_axis_z, q_turn_z_apply. reflexivity.
Qed.
