(** C15: the bones BoneTransform visits.  Full claim: exactly the base and its descendants, in
    every listing order.  Completeness is false when a child is listed before its parent. *)
From Coq Require Import String List ZArith Lia.
From Verif.Model Require Import Num Vec Matrix Mqo MqoDoc.
From Verif.Spec Require Import BoneSpec.
From Verif.Proofs Require Import BoneProofs.
Import ListNotations.

(** Never a bone twice, never a bone that is not the base or below it; the base always. *)
Theorem C15_sound (T : Type) (bones : list (bone T)) base :
  NoDup (select_bones bones base) /\ In base (select_bones bones base) /\
  forall j, In j (select_bones bones base) -> descends bones base j.
Proof. exact (select_sound bones base). Qed.
Print Assumptions C15_sound.

(** All of them, if ids are unique and parents (other than the base) come before children. *)
Theorem C15_complete_partial (T : Type) (bones : list (bone T)) base :
  NoDup (map (@bID T) bones) ->
  (forall i p, child_of bones i p -> p < i \/ p = base) ->
  forall j, descends bones base j -> In j (select_bones bones base).
Proof. exact (select_complete bones base). Qed.
Print Assumptions C15_complete_partial.

Definition b (id parent : Z) : bone Z := mkBone id "b" parent (mkV3 0 0 0)%Z [].
Theorem C15_complete_refuted : exists (bones : list (bone Z)) base j,
  NoDup (map (@bID Z) bones) /\ descends bones base j /\ ~ In j (select_bones bones base).
Proof.
  exists [b 3 2; b 2 1; b 1 0], 2, 0. split; [repeat constructor; cbn; lia|]. split.
  - apply (desc_step _ _ 0 1); [exists (b 3 2), (b 2 1); cbn; repeat split; lia|].
    apply (desc_step _ _ 1 2); [exists (b 2 1), (b 1 0); cbn; repeat split; lia|]. apply desc_self.
  - vm_compute. intros [H|[H|[]]]; discriminate.
Qed.
Print Assumptions C15_complete_refuted.
Example C15_run : select_bones [b 1 0; b 2 1; b 3 1; b 4 3; b 5 2] 2 = [2; 3].
Proof. reflexivity. Qed.
Example C15_hyp : NoDup (map (@bID Z) [b 1 0; b 2 1; b 3 1; b 4 3]) /\
  forall i p, child_of [b 1 0; b 2 1; b 3 1; b 4 3] i p -> p < i \/ p = 2.
Proof.
  split; [repeat constructor; cbn; lia|]. intros i p [x [y [Ei [Ep [L E]]]]]. left.
  do 4 (destruct i as [|i]; [injection Ei as <-; do 4 (destruct p as [|p]; [injection Ep as <-; cbn in *; lia|]); destruct p; discriminate|]).
  destruct i; discriminate.
Qed.
