(** C20: joints survive a save with the default header: refuted.
    [writeJoint] stores the two body indices with the bone index width
    (mmd/pmx_writer.go:371-372), [readJoint] reads them with the rigid body width
    (mmd/pmx_parser.go:321-322); [NewDocument] sets 2 and 1 (mmd/mmd.go:34). *)
From Coq Require Import List ZArith Bool.
From Verif.Model Require Import Num Vec Codec Pmx.
From Verif.Spec Require Import PmxSpec.
From Verif.Proofs Require Import CodecLemmas PmxProofs.
Import ListNotations.
Open Scope Z_scope.

Definition ex_body (name : Z) : rigid_body :=
  mkRB [name] [] 0 0 0 0 vec3_0 vec3_0 vec3_0 0 0 0 0 0 0.
Definition ex_joint : joint :=
  mkJoint [106] [] 0 0 1 (mkV3 f32_one 0 0) vec3_0 vec3_0 vec3_0 vec3_0 vec3_0 vec3_0 vec3_0.
Definition ex_joint_doc : document :=
  mkDoc new_header [] [] [] [] [] [] [] [] [] [] [ex_body 97; ex_body 98] [ex_joint].

(** A document with the header of [NewDocument], two bodies and a joint between them, in
    range in every respect, loads back with a different joint. *)
Theorem C20_joints_refuted : exists d, forall utf16 fsub1,
  d_header d = new_header /\ doc_ok fsub1 d = true /\
  exists bs d' rest, write_pmx d = Some bs /\ parse utf16 fsub1 bs = ROk d' rest /\
    length (d_joints d') = 1%nat /\ d_bodies d' = d_bodies d /\
    map j_body2 (d_joints d) = [1] /\ map j_body2 (d_joints d') = [0] /\
    map (fun j => vx (j_position j)) (d_joints d) = [f32_one] /\
    map (fun j => vx (j_position j)) (d_joints d') <> [f32_one].
Proof.
  exists ex_joint_doc. intros utf16 fsub1. split; [reflexivity|]. split; [vm_compute; reflexivity|].
  eexists; eexists; eexists. split; [vm_compute; reflexivity|].
  split; [vm_compute; reflexivity|]. repeat split; try reflexivity. vm_compute. congruence.
Qed.
Print Assumptions C20_joints_refuted.

(** With equal widths joints are kept (special case of C19). *)
Theorem C20_joints_equal_widths : forall utf16 fsub1 d,
  doc_ok fsub1 d = true ->
  wd (d_header d) AttrBoneIndexSz = wd (d_header d) AttrRBIndexSz ->
  exists bs d' rest, write_pmx d = Some bs /\ parse utf16 fsub1 bs = ROk d' rest /\
    d_joints d' = d_joints d.
Proof.
  intros utf16 fsub1 d Hd Hw.
  destruct (pmx_round_trip utf16 fsub1 d Hd (or_intror Hw)) as [bs [E1 E2]].
  exists bs, (as_written d), [0; 0; 0; 0]. auto.
Qed.
Print Assumptions C20_joints_equal_widths.

Example C20_equal_widths_example :
  let d := mkDoc (mkHeader pmx_magic 1073741824 [1; 0; 2; 1; 1; 1; 1; 1])
             [] [] [] [] [] [] [] [] [] [] [ex_body 97; ex_body 98] [ex_joint] in
  doc_ok (fun w => w) d = true /\ wd (d_header d) AttrBoneIndexSz = wd (d_header d) AttrRBIndexSz.
Proof. split; vm_compute; reflexivity. Qed.
