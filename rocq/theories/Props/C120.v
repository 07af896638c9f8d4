(** C120: a conversion keeps the size of a model in the units of its formats. *)
From Coq Require Import String Ascii List ZArith Reals Bool Lra.
From Verif.Model Require Import Num NumR Vec Matrix Cli Mmd2Mqo Mqo2Mmd Mqo2Gltf Units GlbAnim.
From Verif.Spec Require Import UnitSpec.
From Verif.Proofs Require Import MatrixLemmas UnitProofs.
Import ListNotations.
Local Open Scope R_scope.
Local Open Scope string_scope.

(** Without options for the scale, from MQO and MMD into every format: all lengths in millimetres stay, and nothing is turned inside out.  The full statement is for all inputs;
    see [C120_gltf_refuted] and [C120_fbx_refuted]. *)
Theorem C120_size_partial : forall coord rot180 i o ui uo u, In i (mqo_formats ++ mmd_formats) -> In o (mqo_formats ++ [".pmx"] ++ gltf_formats) -> unit_of u i ui -> unit_of u o uo ->
  exists f, (forall v, whole_point coord rot180 0 1 1 1 i o v = Some (f v)) /\ sized 1 ui uo (hand i) (hand o) f.
Proof. exact size_default. Qed.
Print Assumptions C120_size_partial.

(** With -scale [k] all lengths are [k] times as large, from MQO into every format and between glTF formats.  The full statement is for all inputs; see [C120_scale_refuted] and [C120_fbx_scale_refuted]. *)
Theorem C120_scale_partial : forall coord rot180 k i o ui uo u, k <> 0 ->
  (In i mqo_formats /\ In o (mqo_formats ++ [".pmx"] ++ gltf_formats)) \/ (In i gltf_formats /\ In o gltf_formats) -> unit_of u i ui -> unit_of u o uo ->
  exists f, (forall v, whole_point coord rot180 k 1 1 1 i o v = Some (f v)) /\ sized k ui uo (hand i) (hand o) f.
Proof. exact size_scaled. Qed.
Print Assumptions C120_scale_partial.

(** glTF into MQO and MMD: a thousandth of the size, always. *)
Theorem C120_gltf_refuted : forall coord rot180 i o ui uo u, In i gltf_formats -> In o (mqo_formats ++ [".pmx"]) -> unit_of u i ui -> unit_of u o uo ->
  exists f, (forall v, whole_point coord rot180 0 1 1 1 i o v = Some (f v)) /\ sized (1 / 1000) ui uo (hand i) (hand o) f.
Proof. exact size_gltf. Qed.
Print Assumptions C120_gltf_refuted.

(** FBX: the unit of the document is not looked at; a document in centimetres ([u] = 1) becomes a tenth of its size, one in metres a thousandth. *)
Theorem C120_fbx_refuted : forall coord rot180 u o uo, (forall v, mat_apply coord v = v) -> u > 0 -> In o (mqo_formats ++ [".pmx"] ++ gltf_formats) -> unit_of u o uo ->
  exists f, (forall v, whole_point coord rot180 0 1 1 1 ".fbx" o v = Some (f v)) /\ sized (1 / (10 * u)) (10 * u) uo (hand ".fbx") (hand o) f.
Proof. exact size_fbx. Qed.
Print Assumptions C120_fbx_refuted.

(** MMD: with -scale [k] the model is [k]/80 times as large; -scale 1 is not the size without the option, and -scale 2 makes the model smaller. *)
Theorem C120_scale_refuted : forall coord rot180 k i o ui uo u, k <> 0 -> In i mmd_formats -> In o (mqo_formats ++ [".pmx"] ++ gltf_formats) -> unit_of u i ui -> unit_of u o uo ->
  exists f, (forall v, whole_point coord rot180 k 1 1 1 i o v = Some (f v)) /\ sized (k / 80) ui uo (hand i) (hand o) f.
Proof. exact size_mmd_scaled. Qed.
Print Assumptions C120_scale_refuted.

(** FBX to FBX: no option changes anything. *)
Theorem C120_fbx_scale_refuted : forall coord rot180 k sx sy sz v, whole_point coord rot180 k sx sy sz ".fbx" ".fbx" v = Some v.
Proof. reflexivity. Qed.
Print Assumptions C120_fbx_scale_refuted.

(** A size of a thousandth is not the size: two points of a glTF model one metre apart are one millimetre apart in the MQO document. *)
Theorem C120_metre_refuted : exists a b a' b', dist2 a b = 1 /\ (forall coord, whole_point coord false 0 1 1 1 ".glb" ".mqo" a = Some a' /\ whole_point coord false 0 1 1 1 ".glb" ".mqo" b = Some b') /\
  unit_of 1 ".glb" 1000 /\ unit_of 1 ".mqo" 1 /\ 1 * 1 * dist2 a' b' = 1 /\ 1000 * 1000 * dist2 a b = 1000000.
Proof.
  exists (mkV3 0 0 0), (mkV3 1 0 0), (mkV3 0 0 0), (mkV3 1 0 0). split; [unfold dist2; cbn [vx vy vz]; ring|]. split.
  - intros coord. split; rewrite whole_diag by (cbn; auto 10); cbn [app]; rewrite factor_default; unfold save_f, save_z, load_z, sgn; cbn [is_mqo is_gltf is_mmd existsb String.eqb Ascii.eqb Bool.eqb orb andb];
      unfold diag; cbn [vx vy vz]; f_equal; apply f_equal3; ring.
  - split; [apply UGltf; cbn; auto|]. split; [apply UMqo; cbn; auto|]. split; unfold dist2; cbn [vx vy vz]; ring.
Qed.
Print Assumptions C120_metre_refuted.

(** Motions are always moved as with -scale 80: with another scale a bone moves further than the model is large. *)
Theorem C120_motion_refuted : exists k a b a' b' s, b = v3add a s /\ (forall coord, whole_point coord false k 1 1 1 ".pmx" ".glb" a = Some a' /\ whole_point coord false k 1 1 1 ".pmx" ".glb" b = Some b') /\
  forall pos, v3sub (pos_key (mkV3 0 0 0) pos s) (pos_key (mkV3 0 0 0) pos (mkV3 0 0 0)) = v3scale (v3sub b' a') 2 /\ v3sub b' a' <> mkV3 0 0 0.
Proof.
  exists 40, (mkV3 0 0 0), (mkV3 0 1 0), (mkV3 0 0 0), (mkV3 0 (1 / 25) 0), (mkV3 0 1 0). split; [unfold v3add; cbn [vx vy vz]; rnum; apply f_equal3; ring|]. split.
  - intros coord. split; rewrite whole_diag by (cbn; auto 10); cbn [app]; rewrite factor_given by lra; unfold save_f, save_z, load_z, sgn; cbn [is_mqo is_gltf is_mmd existsb String.eqb Ascii.eqb Bool.eqb orb andb];
      unfold diag; cbn [vx vy vz]; f_equal; apply f_equal3; field.
  - intros pos. unfold pos_key, v3sub, v3scale, anim_scale; cbn [vx vy vz]; rnum. rewrite sin_0, cos_0. split; [apply f_equal3; field|]. intros E. injection E as _ E _. lra.
Qed.
Print Assumptions C120_motion_refuted.

(** The model of the examples: a person of 20 MMD units is 1.6 metres tall. *)
Example C120_size_example : In ".pmx" (mqo_formats ++ mmd_formats) /\ In ".vrm" (mqo_formats ++ [".pmx"] ++ gltf_formats) /\ unit_of 1 ".pmx" 80 /\ unit_of 1 ".vrm" 1000 /\
  forall coord, whole_point coord false 0 1 1 1 ".pmx" ".vrm" (mkV3 5 20 10) = Some (mkV3 (-4 / 10) (16 / 10) (8 / 10)).
Proof.
  split; [cbn; auto|]. split; [cbn; auto 10|]. split; [apply UMmd; cbn; auto|]. split; [apply UGltf; cbn; auto|]. intros coord.
  rewrite whole_diag by (cbn; auto 10). rewrite factor_default. unfold save_f, save_z, load_z, sgn; cbn [is_mqo is_gltf is_mmd existsb String.eqb Ascii.eqb Bool.eqb orb andb].
  unfold diag; cbn [vx vy vz]. f_equal. apply f_equal3; field.
Qed.
Example C120_scale_example : forall coord, whole_point coord false 3 1 1 1 ".mqo" ".pmx" (mkV3 80 160 40) = Some (mkV3 3 6 (-3 / 2)) /\ whole_point coord false 3 1 1 1 ".glb" ".gltf" (mkV3 1 2 3) = Some (mkV3 3 6 9).
Proof.
  intros coord. split; rewrite whole_diag by (cbn; auto 10); rewrite factor_given by lra; unfold save_f, save_z, load_z, sgn; cbn [is_mqo is_gltf is_mmd existsb String.eqb Ascii.eqb Bool.eqb orb andb];
    unfold diag; cbn [vx vy vz]; f_equal; apply f_equal3; field.
Qed.
Example C120_fbx_example : (forall v : vec3 R, mat_apply (mat_scale 1 1 1) v = v) /\ 1 > 0 /\ In ".glb" (mqo_formats ++ [".pmx"] ++ gltf_formats) /\ unit_of 1 ".glb" 1000.
Proof. split; [intros v; rewrite TransformProofs.scale_apply; unfold TransformSpec.scaled; destruct v as [a b c]; cbn [vx vy vz]; apply f_equal3; ring|]. split; [lra|]. split; [cbn; auto 10|apply UGltf; cbn; auto]. Qed.
