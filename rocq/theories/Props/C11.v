(** C11: world transforms.  Full claim: [world_by mul one (fun d' d => d' < d)], i.e. the parent
    is the nearest preceding object of *smaller* depth.  It is false: the popping test is the
    wrong way round.  Transforms are elements of an arbitrary type with a product. *)
From Coq Require Import List ZArith Lia.
From Verif.Model Require Import Num Vec Matrix Mqo MqoDoc.
From Verif.Spec Require Import DocSpec.
From Verif.Proofs Require Import MqoDocProofs.
Import ListNotations.
Local Open Scope Z_scope.

(** A root and its child; the child's world transform lacks the root's.  Transforms here are
    translations along a line. *)
Theorem C11_world_transforms_refuted : exists objs : list (Z * Z),
  ~ world_by Z.add 0 (fun d' d => d' < d) objs (world_transforms 0 Z.add objs).
Proof.
  exists [(0, 10); (1, 5)]. vm_compute world_transforms. intros [_ H].
  destruct (H 1%nat 1 5 5 eq_refl eq_refl) as [[j [wj [[Lj _] [Ej Ew]]]] | [Nb _]].
  - assert (j = 0)%nat by lia. subst j. cbn in Ej. injection Ej as <-. lia.
  - apply (Nb 0%nat 0 10); [lia | reflexivity | lia].
Qed.
Print Assumptions C11_world_transforms_refuted.

(** What it computes: the parent is the nearest preceding object of *greater* depth. *)
Theorem C11_actual_parent (M : Type) (one : M) (mul : M -> M -> M) (objs : list (Z * M)) :
  world_by mul one (fun d' d => d < d') objs (world_transforms one mul objs).
Proof. exact (world_transforms_spec one mul objs). Qed.
Print Assumptions C11_actual_parent.

(** Correct for documents without nesting. *)
Theorem C11_flat_partial (M : Type) (one : M) (mul : M -> M -> M) (objs : list (Z * M)) D :
  (forall d l, In (d, l) objs -> d = D) ->
  world_by mul one (fun d' d => d' < d) objs (world_transforms one mul objs).
Proof. exact (world_transforms_flat one mul objs D). Qed.
Print Assumptions C11_flat_partial.
Example C11_flat_run : world_transforms 0 Z.add [(0, 10); (0, 5); (0, 3)] = [10; 5; 3].
Proof. reflexivity. Qed.
Example C11_nested_run : world_transforms 0 Z.add [(0, 10); (1, 5); (2, 3); (0, 1)] = [10; 5; 3; 4].
Proof. reflexivity. Qed.
