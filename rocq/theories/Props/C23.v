(** C23: indices too large for the file are not silently changed: refuted.
    The writer truncates to the width in the header (mmd/pmx_writer.go:53-70) and the header
    of [NewDocument] has fixed widths (mmd/mmd.go:34). *)
From Coq Require Import List ZArith Bool.
From Verif.Model Require Import Num Vec Codec Pmx.
From Verif.Spec Require Import PmxSpec.
From Verif.Proofs Require Import CodecLemmas PmxProofs.
Import ListNotations.
Open Scope Z_scope.

(** Every vertex index is stored modulo 65536 under the default header: the face of a model
    with more than 65536 vertices comes back pointing elsewhere. *)
Theorem C23_face_index_wraps : forall h a b c,
  nth_error (h_info h) AttrVertIndexSz = Some 2 ->
  reads_back (readFace h) (writeFace h (mkFace a b c))
    (mkFace (a mod 65536) (b mod 65536) (c mod 65536)).
Proof. exact face_wraps. Qed.
Print Assumptions C23_face_index_wraps.

Example C23_default_header_two_bytes : nth_error (h_info new_header) AttrVertIndexSz = Some 2.
Proof. reflexivity. Qed.

(** A complete document: 129 textures and a material using the last one; saving succeeds and
    loading returns texture -128. *)
Definition many_textures : document :=
  mkDoc new_header [] [] [] [] [] [] (repeat [] 129)
    [ mkMaterial [109] [] (mkV4 1 1 1 1) vec3_0 0 vec3_0 0 (mkV4 0 0 0 0) 0 128 (-1) 0 0 (-1) [] 0 ]
    [] [] [] [].
Theorem C23_texture_index_refuted : exists d, forall utf16 fsub1,
  map m_texture (d_materials d) = [128] /\ length (d_textures d) = 129%nat /\
  exists bs d' rest, write_pmx d = Some bs /\ parse utf16 fsub1 bs = ROk d' rest /\
    length (d_textures d') = 129%nat /\ map m_texture (d_materials d') = [-128].
Proof.
  exists many_textures. intros utf16 fsub1. split; [reflexivity|]. split; [reflexivity|].
  eexists; eexists; eexists. split; [vm_compute; reflexivity|].
  split; [vm_compute; reflexivity|]. split; vm_compute; reflexivity.
Qed.
Print Assumptions C23_texture_index_refuted.
