(** C24: VMD animation channels contain every sample once, in time order. *)
From Coq Require Import List ZArith Bool Permutation Sorted.
From Verif.Model Require Import Num Vec Codec Vmd.
From Verif.Spec Require Import VmdSpec.
From Verif.Proofs Require Import CodecLemmas VmdProofs.
Import ListNotations.
Open Scope Z_scope.

(** Whatever order [sort.Slice] gives to samples with equal frames. *)
Theorem C24_bone_channels : forall l l', sorted_by bs_frame l l' -> Forall (fun s => frame32 (bs_frame s)) l ->
  grouping bs_target (fun s => (bs_frame s, (bs_rot s, bs_pos s))) bc_target bc_frames
    (fun c => combine (bc_frames c) (combine (bc_rots c) (bc_poss c))) l (bone_channels l') /\
  forall c, In c (bone_channels l') -> length (bc_rots c) = length (bc_frames c) /\ length (bc_poss c) = length (bc_frames c).
Proof. exact bone_channels_group. Qed.
Print Assumptions C24_bone_channels.

Theorem C24_morph_channels : forall l l', sorted_by ms_frame l l' -> Forall (fun s => frame32 (ms_frame s)) l ->
  grouping ms_target (fun s => (ms_frame s, ms_value s)) mc_target mc_frames
    (fun c => combine (mc_frames c) (mc_weights c)) l (morph_channels l') /\
  forall c, In c (morph_channels l') -> length (mc_weights c) = length (mc_frames c).
Proof. exact morph_channels_group. Qed.
Print Assumptions C24_morph_channels.

(** The condition on the frames holds of every parsed animation. *)
Theorem C24_parsed_frames : forall sjis bs a e rest, Forall byte bs -> parse_vmd sjis bs = ROk (a, e) rest ->
  Forall (fun s => frame32 (bs_frame s)) (an_bone a) /\ Forall (fun s => frame32 (ms_frame s)) (an_morph a).
Proof. exact parse_vmd_frames. Qed.
Print Assumptions C24_parsed_frames.

(** Two targets, four samples, two of them at the same time. *)
Definition s1 := mkMS [97] 30 1. Definition s2 := mkMS [98] 0 2.
Definition s3 := mkMS [97] 10 3. Definition s4 := mkMS [97] 10 4.
Example C24_example_hyp : sorted_by ms_frame [s1; s2; s3; s4] [s2; s4; s3; s1] /\
  Forall (fun s => frame32 (ms_frame s)) [s1; s2; s3; s4].
Proof.
  split; [split|].
  - change [s2; s4; s3; s1] with (rev [s1; s3; s4; s2]). rewrite <- Permutation_rev. constructor.
    rewrite perm_swap. constructor. apply perm_swap.
  - repeat constructor; cbv; discriminate.
  - repeat constructor; cbv; congruence.
Qed.
Example C24_example : morph_channels [s2; s4; s3; s1] = [mkMC [98] [0] [2]; mkMC [97] [10; 10; 30] [4; 3; 1]].
Proof. reflexivity. Qed.
