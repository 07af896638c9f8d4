(** C74: spring bones are detected from the physics bodies. *)
From Coq Require Import String List ZArith Bool Lia.
From Verif.Model Require Import Num Vec VrmConfig.
From Verif.Spec Require Import VrmSpec.
From Verif.Proofs Require Import VrmBones VrmSprings.
Import ListNotations.
Local Open Scope string_scope.
Local Open Scope list_scope.

(** Only beginnings of swinging chains are detected, and of the nodes with a parent all of them. *)
Theorem C74_only_roots : forall fuel nodes out, detect_springs fuel nodes = Some out -> (forall p q i, pparent nodes p i -> pparent nodes q i -> p = q) ->
  forall i, In i out -> spring_root nodes i.
Proof. exact detect_roots. Qed.
Print Assumptions C74_only_roots.
Theorem C74_exact_partial : forall fuel nodes out, detect_springs fuel nodes = Some out -> (forall p q i, pparent nodes p i -> pparent nodes q i -> p = q) ->
  forall i, (exists p, pparent nodes p i) -> (In i out <-> spring_root nodes i).
Proof. exact detect_exact. Qed.
Print Assumptions C74_exact_partial.

(** And if the names of the nodes are distinct and without wildcards, and the roots are not meshes, every detected node becomes a root of
    the spring bone group. *)
Theorem C74_applied : forall pmatch order fuel fuel' ps vs roots group gs, same_nodes ps vs -> NoDup (map vnName vs) -> Forall (fun v => plain (vnName v)) vs ->
  (forall p q i, pparent ps p i -> pparent ps q i -> p = q) -> detect_springs fuel ps = Some roots -> detect_group fuel ps = Some group ->
  Forall (fun i => has_mesh vs i = false) roots -> apply_springs pmatch order fuel' vs group [] = Some gs -> concat gs = roots.
Proof. exact detect_applied. Qed.
Print Assumptions C74_applied.

(** A head with static body; hair of two links and a tip; a ribbon whose second link is not loose. *)
Definition C74_nodes : list pnode := [mkPN "head" (Some true) [1; 4]; mkPN "hair1" (Some false) [2]; mkPN "hair2" (Some false) [3]; mkPN "hairtip" None []; mkPN "ribbon1" (Some false) [5; 6]; mkPN "ribbon2" (Some true) []; mkPN "ribbon3" (Some false) []]%nat.
Definition C74_vnodes : list vnode := map (fun p => mkVN (pnName p) None (pnChildren p)) C74_nodes.
Example C74_example : detect_springs 9 C74_nodes = Some [1; 6]%nat.
Proof. reflexivity. Qed.
Example C74_example_parents : forall p q i, pparent C74_nodes p i -> pparent C74_nodes q i -> p = q.
Proof.
  intros p q i (n & Hn & Hi) (m & Hm & Hj). do 7 (destruct p as [|p]; [cbn in Hn; injection Hn as <-; cbn in Hi; try contradiction;
    do 7 (destruct q as [|q]; [cbn in Hm; injection Hm as <-; cbn in Hj; try contradiction; intuition lia|]); destruct q; discriminate|]). destruct p; discriminate.
Qed.
Example C74_example_applied : same_nodes C74_nodes C74_vnodes /\ detect_group 9 C74_nodes = Some [([], ["hair1"; "ribbon3"]%string)] /\
  apply_springs (fun _ _ => false) (fun l => l) 9 C74_vnodes [([], ["hair1"; "ribbon3"]%string)] [] = Some [[1; 6]]%nat.
Proof. repeat split. repeat constructor. Qed.

(** Refuted: the parent of a node without parent is taken to be node 0, so a swinging chain that begins at the top is not found if node 0
    swings as well. *)
Theorem C74_top_refuted : exists nodes, detect_springs 9 nodes = Some [] /\ spring_root nodes 0 /\ spring_root nodes 1.
Proof.
  exists [mkPN "a" (Some false) []; mkPN "b" (Some false) []]. split; [reflexivity|].
  assert (A : forall i, (i < 2)%nat -> spring_root [mkPN "a" (Some false) []; mkPN "b" (Some false) []] i).
  { assert (P : forall p i, ~ pparent [mkPN "a" (Some false) []; mkPN "b" (Some false) []] p i).
    { intros p i (n & Hn & Hi). do 2 (destruct p as [|p]; [cbn in Hn; injection Hn as <-; destruct Hi|]). destruct p; discriminate. }
    intros i Hi. assert (D : dynamic [mkPN "a" (Some false) []; mkPN "b" (Some false) []] i) by (destruct i as [|[|i]]; [eexists; split; reflexivity|eexists; split; reflexivity|lia]). split; [exact D|]. split; [|intros p H; contradiction (P p i H)].
    intros x Hx. inversion Hx as [|j n c B Hn Hc]; subst; [left; exact D|]. exfalso. apply (P j x). exists n. auto. }
  split; apply A; lia.
Qed.
Print Assumptions C74_top_refuted.
(** Refuted without distinct names: only the last of two chains of the same name swings. *)
Theorem C74_names_refuted : exists ps vs group gs, same_nodes ps vs /\ detect_springs 9 ps = Some [1; 2]%nat /\ detect_group 9 ps = Some group /\ apply_springs (fun _ _ => false) (fun l => l) 9 vs group [] = Some gs /\ concat gs = [2]%nat.
Proof.
  exists [mkPN "head" (Some true) [1; 2]; mkPN "hair" (Some false) []; mkPN "hair" (Some false) []]%nat, [mkVN "head" None [1; 2]; mkVN "hair" None []; mkVN "hair" None []]%nat, [([], ["hair"; "hair"]%string)], [[2%nat]].
  repeat split. repeat constructor.
Qed.
Print Assumptions C74_names_refuted.
