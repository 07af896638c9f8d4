(** C66: the bone tree survives MQO to PMX and PMX to MQO. *)
From Coq Require Import String List ZArith Bool Lia.
From Verif.Model Require Import Num Vec Matrix Mqo MqoDoc Mmd2Mqo Mqo2Mmd.
From Verif Require Import Spec.MmdConvSpec Spec.Mqo2MmdSpec Proofs.Mqo2MmdBones.
Import ListNotations.
Local Open Scope Z_scope.

(** If every parent exists, bones keep name, position and parent, also on the way back. *)
Theorem C66_to_pmx_partial : forall (T : Type) (N : Num T) (scale : T) (bones : list (bone T)), parents_exist bones ->
  Forall2 (fun b pb => pbName pb = bName b /\ pbPos pb = scaled scale (bPos b) /\ parent_position bones b (pbParent pb)) bones (to_mmd_bones scale bones).
Proof. exact (fun T N => @to_mmd_bones_tree T N). Qed.
Print Assumptions C66_to_pmx_partial.
Theorem C66_round_trip_partial : forall (T : Type) (N : Num T) (scale : T) known thr (bones : list (bone T)), parents_exist bones ->
  exists bs, from_mmd_bones known thr (to_mmd_bones scale bones) = Some bs /\ length bs = length bones /\
    forall i b, nth_error bones i = Some b -> exists b', nth_error bs i = Some b' /\ bID b' = Z.of_nat i + 1 /\ bName b' = bName b /\
      bPos b' = flip_z (scaled scale (bPos b)) /\ parent_position bones b (bParent b' - 1).
Proof. exact (fun T N => @bones_round_trip T N). Qed.
Print Assumptions C66_round_trip_partial.
(** A PMX bone forest without inherited rotation stays one. *)
Theorem C66_forest_partial : forall (T : Type) (N : Num T) known thr (bs : list (pbone T)),
  Forall (fun b => pbInherit b = None) bs -> forest (map pbParent bs) ->
  exists out, from_mmd_bones known thr bs = Some out /\ forest (map (fun b => bParent b - 1) out).
Proof. exact (fun T N => @from_mmd_forest T N). Qed.
Print Assumptions C66_forest_partial.

(** A root listed after its child. *)
Definition bn (id p x : Z) : bone Z := mkBone id "b" p (mkV3 x 0 1) [].
Example C66_example : parents_exist [bn 7 3 1; bn 3 0 2; bn 5 7 4] /\
  map pbParent (to_mmd_bones 2 [bn 7 3 1; bn 3 0 2; bn 5 7 4]) = [1; -1; 0] /\ forest [1; -1; 0].
Proof.
  split; [repeat apply Forall_cons; try apply Forall_nil; cbn; intros H; first [lia|auto]|]. split; [vm_compute; reflexivity|]. exists (fun i => if (i =? 1)%Z then 0 else if (i =? 0)%Z then 1 else 2)%nat.
  intros [|[|[|[|i]]]] p E H; cbn in E; try discriminate E; injection E as <-; cbn; lia.
Qed.

(** A bone whose parent does not exist becomes a child of the first bone, here of itself. *)
Definition C66_missing_full : Prop := forall (bones : list (bone Z)),
  Forall2 (fun b pb => In (bParent b) (map (@bID Z) bones) \/ pbParent pb = -1) bones (to_mmd_bones 2 bones).
Theorem C66_missing_parent_refuted : ~ C66_missing_full.
Proof.
  intros H. specialize (H [bn 1 9 0]). inversion H as [|? ? ? ? [E|E] _]; subst; cbn in E; [destruct E as [E|[]]|]; discriminate E.
Qed.
Print Assumptions C66_missing_parent_refuted.

(** Inherited rotation can turn a forest into a cycle, and a negative inherit parent panics. *)
Definition C66_inherit_full : Prop := forall known (bs : list (pbone Z)), forest (map pbParent bs) ->
  exists out, from_mmd_bones known 0 bs = Some out /\ forest (map (fun b => bParent b - 1) out).
Theorem C66_cycle_refuted : ~ C66_inherit_full.
Proof.
  intros H. destruct (H ["arm"%string] [mkPB "root" (mkV3 0 0 0) (-1) (-1) (Some (1, 1)); mkPB "arm" (mkV3 0 0 0) 0 (-1) None]) as (out & E & (rank & R)).
  - exists (fun i => Z.to_nat i). intros [|[|[|i]]] p E H0; cbn in E; try discriminate E; injection E as <-; cbn; lia.
  - vm_compute in E. injection E as <-. pose proof (R 0%nat 1 eq_refl ltac:(lia)). pose proof (R 1%nat 0 eq_refl ltac:(lia)). cbn in *. lia.
Qed.
Print Assumptions C66_cycle_refuted.
Theorem C66_negative_inherit_refuted : exists (bs : list (pbone Z)), forest (map pbParent bs) /\ from_mmd_bones ["arm"%string] 0 bs = None.
Proof.
  exists [mkPB "arm" (mkV3 0 0 0) (-1) (-1) (Some (-1, 1))]. split; [|reflexivity].
  exists (fun _ => 0%nat). intros [|[|i]] p E H0; cbn in E; try discriminate E. injection E as <-. lia.
Qed.
Print Assumptions C66_negative_inherit_refuted.
