(** C86: a motion of morphs is exported as it is played. *)
From Coq Require Import String List ZArith Reals Lra Lia Bool.
From Verif.Model Require Import Num NumR Vec MqoDoc GlbAnim.
From Verif.Spec Require Import GeomSpec AnimSpec.
From Verif.Proofs Require Import MatrixLemmas AnimProofs AnimMorph.
Import ListNotations.
Local Open Scope R_scope.

(** Every mesh with morphs in the motion gets one channel: its keys are the frames of the morphs in seconds; for every key the bytes of all targets of the mesh, 0 for those
    that are not in the motion.  Partial: names of targets are unique in the document, and the morphs of one mesh have the same keys. *)
Theorem C86_channels_partial : forall nodes morphs s es, unique_targets nodes -> NoDup (map mcTarget morphs) -> same_keys nodes morphs -> Forall (fun m => length (mcWeights m) = length (mcFrames m)) morphs -> plays s es ->
  exists s' ess x, add_morph_channels nodes morphs s = Some s' /\ plays s' (es ++ concat ess) /\ asAccs s' = asAccs s ++ x /\ Forall2 (node_exported nodes morphs) (seq 0 (length nodes)) ess.
Proof. exact morph_channels_ok. Qed.
Print Assumptions C86_channels_partial.

Definition face_nodes : list (option (list string)) := [None; Some ["blink"; "smile"]%string].
Definition start : astate := mkAS [] (mkAA [] []).
Lemma zero_byte : to_u8 (0 * 255) = 0%Z.
Proof. replace (0 * 255) with (IZR 0) by ring. apply to_u8_IZR. lia. Qed.
Lemma one_byte : to_u8 (1 * 255) = 255%Z.
Proof. replace (1 * 255) with (IZR 255) by ring. apply to_u8_IZR. lia. Qed.

(** Refuted: of two morphs of a mesh with as many keys, the second is played at the times of the first: the smile of frame 60 is seen after a second, not after two. *)
Theorem C86_times_refuted : exists morphs s t, map mcTarget morphs = ["blink"; "smile"]%string /\ nth_error morphs 1 = Some (mkMCh "smile"%string [0; 60]%Z [0; 1]) /\
  add_morph_channels face_nodes morphs start = Some s /\ plays s [(1%Z, PWeights, seconds [0; 30]%Z, ABytes t)] /\ has_target face_nodes "smile"%string 1 1 2 /\ nth_error t (1 * 2 + 1) = Some 255%Z.
Proof.
  exists [mkMCh "blink"%string [0; 30]%Z [0; 1]; mkMCh "smile"%string [0; 60]%Z [0; 1]]. eexists _, _. split; [reflexivity|]. split; [reflexivity|]. split; [reflexivity|]. split; [reflexivity|].
  split; [exists ["blink"; "smile"]%string; repeat split|]. cbn [nth_error firstn skipn app repeat Nat.mul Nat.add length]. rewrite one_byte. reflexivity.
Qed.
Print Assumptions C86_times_refuted.
(** Refuted: of two morphs of a mesh with other numbers of keys, one is lost. *)
Theorem C86_lost_refuted : exists morphs s t, map mcTarget morphs = ["blink"; "smile"]%string /\ nth_error morphs 1 = Some (mkMCh "smile"%string [0]%Z [1]) /\
  add_morph_channels face_nodes morphs start = Some s /\ plays s [(1%Z, PWeights, seconds [0; 30]%Z, ABytes t)] /\ has_target face_nodes "smile"%string 1 1 2 /\ forall f, (f < 2)%nat -> nth_error t (f * 2 + 1) = Some 0%Z.
Proof.
  exists [mkMCh "blink"%string [0; 30]%Z [0; 1]; mkMCh "smile"%string [0]%Z [1]]. eexists _, _. split; [reflexivity|]. split; [reflexivity|]. split; [reflexivity|]. split; [reflexivity|].
  split; [exists ["blink"; "smile"]%string; repeat split|]. intros [|[|f]] Hf; [reflexivity|reflexivity|lia].
Qed.
Print Assumptions C86_lost_refuted.
(** Refuted: of two meshes with a target of the same name (the face and the brows, say) only the last one moves. *)
Theorem C86_meshes_refuted : exists nodes morphs s e, map mcTarget morphs = ["smile"]%string /\ has_target nodes "smile"%string 0 0 1 /\ has_target nodes "smile"%string 1 0 1 /\ add_morph_channels nodes morphs start = Some s /\ plays s [e] /\ fst (fst (fst e)) = 1%Z.
Proof.
  exists [Some ["smile"%string]; Some ["smile"%string]], [mkMCh "smile"%string [0]%Z [1]]. eexists _, _. split; [reflexivity|]. split; [exists ["smile"]%string; repeat split|]. split; [exists ["smile"]%string; repeat split|]. split; [reflexivity|]. split; reflexivity.
Qed.
Print Assumptions C86_meshes_refuted.
(** Refuted: a weight over 1 (allowed in motions) wraps around to almost nothing. *)
Theorem C86_over_refuted : exists morphs v s t, 1 < v /\ morphs = [mkMCh "blink"%string [0]%Z [v]] /\ add_morph_channels face_nodes morphs start = Some s /\ plays s [(1%Z, PWeights, seconds [0]%Z, ABytes t)] /\ nth_error t 0 = Some 1%Z.
Proof.
  exists [mkMCh "blink"%string [0]%Z [257 / 255]], (257 / 255). eexists _, _. split; [lra|]. split; [reflexivity|]. split; [reflexivity|]. split; [reflexivity|].
  cbn [nth_error firstn skipn app repeat Nat.mul Nat.add length]. replace (257 / 255 * 255) with (IZR 257) by field. rewrite to_u8_IZR by lia. reflexivity.
Qed.
Print Assumptions C86_over_refuted.

Lemma face_unique : unique_targets face_nodes.
Proof.
  assert (H : forall name n ti s, has_target face_nodes name n ti s -> n = 1%nat /\ nth_error ["blink"; "smile"]%string ti = Some name).
  { intros name [|[|[|n]]] ti s (l & A & B & _); cbn in A; try discriminate A. injection A as <-. auto. }
  intros name n ti s n' ti' s' A B. apply H in A as [-> A], B as [-> B]. split; [reflexivity|]. destruct ti as [|[|[|ti]]], ti' as [|[|[|ti']]]; cbn in A, B; congruence.
Qed.
(** A motion that fits. *)
Example C86_example : let morphs := [mkMCh "blink"%string [0; 30]%Z [0; 1]; mkMCh "smile"%string [0; 30]%Z [1; 0]] in
  unique_targets face_nodes /\ NoDup (map mcTarget morphs) /\ same_keys face_nodes morphs /\ exists s t, add_morph_channels face_nodes morphs start = Some s /\ plays s [(1%Z, PWeights, seconds [0; 30]%Z, ABytes t)] /\ t = [0; 255; 255; 0]%Z.
Proof.
  split; [exact face_unique|]. split; [constructor; [intros [X|[]]; discriminate X|constructor; [intros []|constructor]]|]. split; [intros m m' n ti s ti' s' [<-|[<-|[]]] [<-|[<-|[]]] _ _; reflexivity|].
  eexists _, _. split; [reflexivity|]. split; [reflexivity|]. cbn [firstn skipn app repeat Nat.mul Nat.add length]. rewrite ?one_byte, ?zero_byte. reflexivity.
Qed.
