(** C54: truncated VMD motions are reported: refuted for cuts inside the last value. *)
From Coq Require Import List ZArith Bool.
From Verif.Model Require Import Num Vec Codec Vmd.
From Verif.Spec Require Import VmdSpec.
From Verif.Proofs Require Import VmdProofs.
From Verif.Props Require Import C25.
Import ListNotations.
Open Scope Z_scope.

(** Every cut is reported except those inside the last four bytes of a file that ends with a
    morph key (without morphs: every cut). *)
Theorem C54_truncation_partial : forall sjis w k, sjis [] = [] -> sjis (w_magic w) = vmd_magic -> wire_ok w ->
  (k + (if w_morphs w then 0 else 4) < length (vmd_bytes w))%nat ->
  reported (parse_vmd sjis (firstn k (vmd_bytes w))).
Proof. exact truncation_reported. Qed.
Print Assumptions C54_truncation_partial.

(** Only [readInt] records an error: the value of the last morph key is lost silently. *)
Theorem C54_truncation_refuted : exists w k, forall sjis, sjis (w_magic w) = vmd_magic -> 
  wire_ok w /\ (k < length (vmd_bytes w))%nat /\ ~ reported (parse_vmd sjis (firstn k (vmd_bytes w))) /\
  exists a, parse_vmd sjis (firstn k (vmd_bytes w)) = ROk (a, false) [] /\ a <> read_wire sjis w.
Proof.
  exists motion, 300%nat. intros sjis H. split; [exact C25_example_hyp|]. split; [vm_compute; repeat constructor|].
  assert (E : exists a, parse_vmd sjis (firstn 300 (vmd_bytes motion)) = ROk (a, false) [] /\ a <> read_wire sjis motion).
  { assert (R : readString sjis 30 (firstn 300 (vmd_bytes motion)) = ROk (sjis vmd_magic) (skipn 30 (firstn 300 (vmd_bytes motion))))
      by (vm_compute; reflexivity).
    unfold parse_vmd, bind at 1. rewrite R. cbn [motion w_magic] in H. rewrite H.
    eexists. split; [vm_compute; reflexivity|]. intros [=]. }
  destruct E as (a & E & N). rewrite E. split; [discriminate|]. now exists a.
Qed.
Print Assumptions C54_truncation_refuted.

(** A cut in the middle of the bone keys. *)
Example C54_example : reported (parse_vmd (fun b => b) (firstn 120 (vmd_bytes motion))).
Proof. apply C54_truncation_partial; [reflexivity | reflexivity | exact C25_example_hyp | vm_compute; repeat constructor]. Qed.
