(** C48: spring bone groups never overlap. *)
From Coq Require Import String List ZArith Bool Lia Permutation.
From Verif.Model Require Import Num Vec VrmConfig.
From Verif.Spec Require Import VrmSpec.
From Verif.Proofs Require Import VrmBones VrmSprings.
Import ListNotations.
Local Open Scope string_scope.
Local Open Scope list_scope.

(** If neither the document nor the configuration starts with bones, whatever [path.Match] and the order of maps do: no node is below two
    spring bone roots; no root is a mesh; every root was asked for; and every node asked for is there, or shares a node with a root. *)
Theorem C48_apart_partial : forall pmatch order fuel nodes groups out, (forall l x, In x (order l) <-> In x l) -> Forall (fun g => fst g = []) groups -> apply_springs pmatch order fuel nodes groups [] = Some out ->
  no_overlap nodes (concat out) /\ Forall (fun r => has_mesh nodes r = false) (concat out) /\
  (forall g x, In g out -> In x g -> exists ps p, In ps groups /\ In p (snd ps) /\ asked_for pmatch nodes p x) /\
  forall ps p i, In ps groups -> In p (snd ps) -> asked_for pmatch nodes p i -> has_mesh nodes i = false -> touched nodes (concat out) i.
Proof. exact springs_asked. Qed.
Print Assumptions C48_apart_partial.

(** On a forest the recursion ends. *)
Theorem C48_total : forall pmatch order nodes, (forall l, incl (order l) l) -> finite_nodes nodes ->
  exists f, forall fuel groups old, (f <= fuel)%nat -> exists out, apply_springs pmatch order fuel nodes groups old = Some out.
Proof. exact springs_total. Qed.
Print Assumptions C48_total.

Definition C48_nodes : list vnode := [mkVN "hair" None [1; 2]; mkVN "hair1" None [3]; mkVN "hair2" None []; mkVN "tip" None []; mkVN "body" (Some 0) [0]]%nat.
Example C48_example : apply_springs (fun p n => String.eqb p "hair*" && String.prefix "hair" n)%bool (@rev nat) 9 C48_nodes [([], ["tip"; "body"]%string); ([], ["hair*"; "none"]%string)] [] =
  Some [[3]; [2]]%nat.
Proof. reflexivity. Qed.
Example C48_example_finite : finite_nodes C48_nodes.
Proof.
  exists (fun i => match i with 4 => 3 | 0 => 2 | 1 => 1 | _ => 0 end)%nat. intros i n c Hn Hc. do 5 (destruct i as [|i]; [cbn in Hn; injection Hn as <-; cbn in Hc; intuition (subst; cbn; lia)|]). destruct i; discriminate.
Qed.

Lemma C48_overlap : ~ no_overlap C48_nodes [0; 1]%nat.
Proof. intros H. apply (H 0 1 0 1 1)%nat; [discriminate|reflexivity|reflexivity| |apply below_self]. eapply below_child; [apply below_self|reflexivity|left; reflexivity]. Qed.
(** Refuted: the groups of the document, and the [bones] that a group of the configuration may list, are not looked at. *)
Theorem C48_existing_refuted : (exists nodes groups old out, apply_springs (fun _ _ => false) (fun l => l) 9 nodes groups old = Some out /\ no_overlap nodes (concat old) /\ Forall (fun g => fst g = []) groups /\ ~ no_overlap nodes (concat out)) /\
  exists nodes groups out, apply_springs (fun _ _ => false) (fun l => l) 9 nodes groups [] = Some out /\ ~ no_overlap nodes (concat out).
Proof.
  split.
  - exists C48_nodes, [([], ["hair1"%string])], [[0%nat]], [[0]; [1]]%nat. split; [reflexivity|]. split; [|split; [repeat constructor|exact C48_overlap]].
    intros j k a b x Ne Ha Hb. destruct j as [|[|j]], k as [|[|k]]; try discriminate. contradiction.
  - exists C48_nodes, [([0%nat], ["hair1"%string])], [[0; 1]]%nat. split; [reflexivity|exact C48_overlap].
Qed.
Print Assumptions C48_existing_refuted.
(** Refuted: with a pattern that matches a node and one below it, the roots depend on the order in which Go visits a map, which is random. *)
Theorem C48_order_refuted : exists pmatch order1 order2 nodes groups out1 out2, (forall l, Permutation (order1 l) l) /\ (forall l, Permutation (order2 l) l) /\
  apply_springs pmatch order1 9 nodes groups [] = Some out1 /\ apply_springs pmatch order2 9 nodes groups [] = Some out2 /\ ~ Permutation (concat out1) (concat out2).
Proof.
  exists (fun _ n => String.prefix "hair" n), (fun l => l), (@rev nat), C48_nodes, [([], ["hair*"%string])], [[0%nat]], [[2; 1]]%nat.
  split; [intros l; apply Permutation_refl|]. split; [intros l; symmetry; apply Permutation_rev|]. split; [reflexivity|]. split; [reflexivity|]. intros P. apply Permutation_length in P. discriminate.
Qed.
Print Assumptions C48_order_refuted.
