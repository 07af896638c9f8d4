(** C22: truncated model files are reported: refuted. *)
From Coq Require Import List ZArith Bool.
From Verif.Model Require Import Num Vec Codec Pmx.
From Verif.Spec Require Import PmxSpec.
From Verif.Proofs Require Import CodecLemmas PmxProofs.
Import ListNotations.
Open Scope Z_scope.

Definition cut_doc : document :=
  mkDoc new_header [] [] [] [] [] [] [[116]]
    [ mkMaterial [109] [] (mkV4 1 1 1 1) vec3_0 0 vec3_0 0 (mkV4 0 0 0 0) 0 0 0 0 0 0 [] 6 ]
    [] [] [] [].
Definition cut_bytes : bytes := match write_pmx cut_doc with Some b => b | None => [] end.

(** The saved file of a valid document, cut off in the middle of its material section, loads
    without error as a document with a different material. *)
Theorem C22_truncation_refuted : exists d bs n, forall utf16 fsub1,
  doc_ok fsub1 d = true /\ write_pmx d = Some bs /\ (n < length bs)%nat /\
  exists d' rest, parse utf16 fsub1 (firstn n bs) = ROk d' rest /\
    d_materials d' <> d_materials d /\ length (d_materials d') = length (d_materials d).
Proof.
  exists cut_doc, cut_bytes, 60%nat. intros utf16 fsub1.
  split; [vm_compute; reflexivity|]. split; [vm_compute; reflexivity|].
  split; [vm_compute; repeat constructor|].
  eexists; eexists. split; [vm_compute; reflexivity|]. split; [vm_compute; congruence|reflexivity].
Qed.
Print Assumptions C22_truncation_refuted.

(** In fact [Parse] returns an error value for no input that starts with the PMX magic. *)
Theorem C22_never_reported : forall utf16 fsub1 bs, parse utf16 fsub1 (pmx_magic ++ bs) <> RErr.
Proof. exact never_err. Qed.
Print Assumptions C22_never_reported.

(** ...while other input is rejected. *)
Example C22_bad_magic : parse (fun b => b) (fun w => w) [80; 77; 88; 33; 1; 2; 3] = RErr.
Proof. reflexivity. Qed.
