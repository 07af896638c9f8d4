(** C57: truncated PMD files are reported: refuted. *)
From Coq Require Import List ZArith Bool.
From Verif.Model Require Import Num Vec Codec Pmx Pmd.
From Verif.Spec Require Import PmxSpec VmdSpec PmdSpec.
From Verif.Proofs Require Import PmdProofs.
From Verif.Props Require Import C55.
Import ListNotations.
Open Scope Z_scope.

(** No input that starts with "Pmd" makes the loader return an error. *)
Theorem C57_never_reported : forall sjis fdiv100 fsub1 fofu8 flt1 bs utf16,
  parse_mmd sjis fdiv100 fsub1 fofu8 flt1 utf16 (pmd_magic ++ bs) <> RErr.
Proof. exact pmd_never_err. Qed.
Print Assumptions C57_never_reported.

(** A model cut off in its vertices loads as one with the same number of vertices, the lost ones
    zero, and without faces. *)
Theorem C57_truncation_refuted : exists w k, pmd_fits w /\ pmd_indexed w /\ (k < length (pmd_bytes w))%nat /\
  forall sjis fdiv100 fsub1 fofu8 flt1 utf16, exists d,
    parse_mmd sjis fdiv100 fsub1 fofu8 flt1 utf16 (firstn k (pmd_bytes w)) = ROk d [] /\
    length (d_vertexes d) = length (p_vertices w) /\ d_faces d = [] /\ p_faces w <> [].
Proof.
  exists model, 300%nat. split; [apply C55_example_hyp|]. split; [apply C55_example_hyp|]. split; [vm_compute; repeat constructor|].
  intros. eexists. split; [vm_compute; reflexivity|]. split; [reflexivity|]. split; [reflexivity|discriminate].
Qed.
Print Assumptions C57_truncation_refuted.
