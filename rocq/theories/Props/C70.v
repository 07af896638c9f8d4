(** C70: materials survive glTF to MQO to glTF. *)
From Coq Require Import String List ZArith Bool Lia QArith.
From Verif.Model Require Import Num Vec Matrix Mqo MqoDoc Mmd2Mqo Gltf Mqo2Gltf Gltf2Mqo.
From Verif Require Import Spec.GltfSpec Spec.Gltf2MqoSpec Proofs.Gltf2MqoProofs.
Import ListNotations.
Local Open Scope Z_scope.

Definition back {T : Type} {N : Num T} (has_pbr : gmat T -> bool) half opaque99 rough tex_alpha (m : gmat T) : gmat T :=
  convert_material false opaque99 rough tex_alpha (import_material has_pbr half m).

(** Alpha modes are lost: the importer stores a gltf.AlphaMode where the exporter looks for an int. *)
Theorem C70_alpha_lost_partial : forall (T : Type) (N : Num T) has_pbr half opaque99 rough tex_alpha (m : gmat T),
  gtAlpha (back has_pbr half opaque99 rough tex_alpha m) = GOpaque.
Proof. intros. unfold back, convert_material, import_material. destruct (has_pbr m); reflexivity. Qed.
Print Assumptions C70_alpha_lost_partial.
Theorem C70_alpha_refuted : exists m : gmat Q, gtAlpha m = GBlend /\ forall half opaque99 rough tex_alpha, gtAlpha (back (fun _ => true) half opaque99 rough tex_alpha m) = GOpaque.
Proof. exists (mkGMat "glass" (mkV4 1 1 1 (1 # 4))%Q 0%Q 0%Q (mkV3 0 0 0)%Q false GBlend false). split; [reflexivity|]. intros. apply C70_alpha_lost_partial. Qed.
Print Assumptions C70_alpha_refuted.

(** Unlit is lost, and comes out of nothing for the roughest non-metal. *)
Theorem C70_unlit_partial : forall (T : Type) (N : Num T) has_pbr half opaque99 rough tex_alpha (m : gmat T), has_pbr m = true ->
  gtUnlit (back has_pbr half opaque99 rough tex_alpha m) = (neqb (gtMetal m) nzero && neqb (gtRough m) none)%bool.
Proof. intros. unfold back, convert_material, import_material. rewrite H. cbn. rewrite orb_false_r. reflexivity. Qed.
Print Assumptions C70_unlit_partial.
Theorem C70_unlit_refuted : exists m1 m2 : gmat Q, gtUnlit m1 = true /\ gtUnlit m2 = false /\ forall half opaque99 rough tex_alpha,
  gtUnlit (back (fun _ => true) half opaque99 rough tex_alpha m1) = false /\ gtUnlit (back (fun _ => true) half opaque99 rough tex_alpha m2) = true.
Proof.
  exists (mkGMat "toon" (mkV4 1 1 1 1)%Q 0%Q (9 # 10)%Q (mkV3 0 0 0)%Q false GOpaque true), (mkGMat "chalk" (mkV4 1 1 1 1)%Q 0%Q 1%Q (mkV3 0 0 0)%Q false GOpaque false).
  repeat split; rewrite C70_unlit_partial; reflexivity.
Qed.
Print Assumptions C70_unlit_refuted.

(** A material without PBR factors (white, metallic 1, rough 1) becomes transparent black. *)
Theorem C70_default_refuted : exists (m : gmat Q) (has_pbr : gmat Q -> bool), has_pbr m = false /\ gtColor m = mkV4 1%Q 1%Q 1%Q 1%Q /\ gtMetal m = 1%Q /\
  forall half opaque99 rough tex_alpha, gtColor (back has_pbr half opaque99 rough tex_alpha m) = mkV4 0%Q 0%Q 0%Q 0%Q /\ gtMetal (back has_pbr half opaque99 rough tex_alpha m) = 0%Q.
Proof. exists (mkGMat "default" (mkV4 1 1 1 1)%Q 1%Q 1%Q (mkV3 0 0 0)%Q false GOpaque false), (fun _ => false). repeat split. Qed.
Print Assumptions C70_default_refuted.

(** The rest survives. *)
Theorem C70_rest_partial : forall (T : Type) (N : Num T) has_pbr half opaque99 rough tex_alpha (m : gmat T), has_pbr m = true ->
  let m' := back has_pbr half opaque99 rough tex_alpha m in
  gtName m' = gtName m /\ gtColor m' = gtColor m /\ gtMetal m' = gtMetal m /\ gtRough m' = gtRough m /\ gtDouble m' = gtDouble m /\
  (nltb none (vx (gtEmissive m)) = false -> nltb none (vy (gtEmissive m)) = false -> nltb none (vz (gtEmissive m)) = false -> gtEmissive m' = gtEmissive m).
Proof. exact (fun T N => @material_back T N). Qed.
Print Assumptions C70_rest_partial.

Example C70_example :
  let m := mkGMat "glass" (mkV4 1 1 1 (1 # 4))%Q (1 # 2)%Q (1 # 3)%Q (mkV3 (1 # 5) 0 1)%Q true (GMask (3 # 4)%Q) true in
  back (fun _ => true) (1 # 2)%Q (99 # 100)%Q (2 # 5)%Q (fun _ => true) m =
  mkGMat "glass" (mkV4 1 1 1 (1 # 4))%Q (1 # 2)%Q (1 # 3)%Q (mkV3 (1 # 5) 0 1)%Q true GOpaque false.
Proof. vm_compute. reflexivity. Qed.
