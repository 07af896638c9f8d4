(** C72: widening joint indices keeps them. *)
From Coq Require Import List ZArith Bool Lia.
From Verif.Model Require Import Num Vec Matrix GltfUtil.
From Verif.Spec Require Import GltfUtilSpec.
From Verif.Proofs Require Import GltfUtilJoint.
Import ListNotations.
Local Open Scope list_scope.
Local Open Scope Z_scope.

(** If the converted buffer views hold nothing else and their accessors start with them, every joint index is the same number as before,
    now as a uint16. *)
Theorem C72_values_partial : forall attrs d d', views_ok d -> own_views attrs d -> fix_joint_type attrs d = Some d' ->
  forall a acc v bv, In a attrs -> nth_error (jdAccs d) a = Some acc -> jaType acc = 2 -> jaView acc = Some v -> nth_error (jdViews d) v = Some bv ->
  (exists acc', nth_error (jdAccs d') a = Some acc' /\ jaType acc' = 4) /\
  forall k c, in_view bv k c -> exists x, joint_at d a k c = Some x /\ joint_at d' a k c = Some x.
Proof. exact fix_keeps. Qed.
Print Assumptions C72_values_partial.

(** Accessors of other views are not touched. *)
Theorem C72_others : forall attrs d d', views_ok d -> fix_joint_type attrs d = Some d' ->
  forall a acc v, nth_error (jdAccs d) a = Some acc -> jaView acc = Some v -> ~ byte_view attrs d v ->
  nth_error (jdAccs d') a = Some acc /\ forall k c x, joint_at d a k c = Some x -> joint_at d' a k c = Some x.
Proof. exact fix_others. Qed.
Print Assumptions C72_others.

Theorem C72_total : forall attrs d, views_ok d -> Forall (fun a => (a < length (jdAccs d))%nat) attrs -> exists d', fix_joint_type attrs d = Some d'.
Proof. exact fix_total. Qed.
Print Assumptions C72_total.

(** Refuted: the offset of an accessor in its view is not doubled. *)
Theorem C72_offset_refuted : exists d d', views_ok d /\ fix_joint_type [0%nat; 1%nat] d = Some d' /\ joint_at d 1 0 0 = Some 5 /\ joint_at d' 1 0 0 = Some 3.
Proof.
  exists (mkJD [mkJA (Some 0%nat) 0 2; mkJA (Some 0%nat) 4 2] [mkBV 0 0 8 0] [[1; 2; 3; 4; 5; 6; 7; 8]]). eexists. split; [|split; [vm_compute; reflexivity|split; reflexivity]].
  split; repeat constructor. eexists. repeat split; cbn; lia.
Qed.
Print Assumptions C72_offset_refuted.
(** Refuted: another attribute interleaved in the same view is destroyed (a uint16 here). *)
Theorem C72_shared_refuted : exists d d', views_ok d /\ fix_joint_type [0%nat] d = Some d' /\ joint_at d 1 0 0 = Some 1541 /\ joint_at d' 1 0 0 = Some 3.
Proof.
  exists (mkJD [mkJA (Some 0%nat) 0 2; mkJA (Some 0%nat) 4 4] [mkBV 0 0 12 12] [[1; 2; 3; 4; 5; 6; 7; 8; 9; 10; 11; 12]]). eexists. split; [|split; [vm_compute; reflexivity|split; reflexivity]].
  split; repeat constructor; try discriminate. eexists. repeat split; cbn; lia.
Qed.
Print Assumptions C72_shared_refuted.

(** Two accessors share the first view, the third has its own, the fourth holds shorts. *)
Definition joints : jdoc := mkJD [mkJA (Some 0%nat) 0 2; mkJA (Some 0%nat) 0 2; mkJA (Some 1%nat) 0 2; mkJA (Some 2%nat) 2 4] [mkBV 0 0 8 0; mkBV 0 8 8 4; mkBV 0 4 12 8]
  [[1; 2; 3; 4; 5; 6; 7; 255; 9; 10; 11; 12; 13; 14; 15; 16]].
Example C72_example : views_ok joints /\ own_views [0%nat; 1%nat; 2%nat; 3%nat] joints /\
  exists d', fix_joint_type [0%nat; 1%nat; 2%nat; 3%nat] joints = Some d' /\ joint_at d' 0 1 3 = Some 255 /\ joint_at d' 1 1 3 = Some 255 /\ joint_at d' 2 1 0 = Some 13 /\ joint_at d' 3 0 0 = Some 65287.
Proof.
  split; [|split; [|eexists; split; [vm_compute; reflexivity|repeat split]]].
  - split; [repeat constructor; lia|]. unfold joints. cbn [jdViews]. do 3 (apply Forall_cons; [exists [1; 2; 3; 4; 5; 6; 7; 255; 9; 10; 11; 12; 13; 14; 15; 16]; cbn; split; [reflexivity|lia]|]). apply Forall_nil.
  - intros a acc v Ha Hv (b & bcc & Hin & Hb & Tb & Vb).
    assert (v = 0%nat \/ v = 1%nat). { destruct b as [|[|[|[|b]]]]; cbn in Hb; try (destruct b; discriminate); injection Hb as <-; cbn in Tb, Vb; try discriminate; injection Vb as <-; auto. }
    destruct a as [|[|[|[|a]]]]; cbn in Ha; try (destruct a; discriminate); injection Ha as <-; cbn in *; intuition congruence.
Qed.
