(** C71: skeletons are imported from glTF. *)
From Coq Require Import String List ZArith Bool Lia.
From Verif.Model Require Import Num Vec Matrix Mqo MqoDoc Mmd2Mqo Gltf Mqo2Gltf Gltf2Mqo.
From Verif Require Import Spec.GltfSpec Spec.Gltf2MqoSpec Proofs.GltfDoc Proofs.Gltf2MqoProofs Props.C36 Props.C41 Props.C43.
Import ListNotations.
Local Open Scope Z_scope.

(** Below the root of a skeleton: one bone for every node, depth first, numbered one after the other, with the name of the
    node; parents are bones of parent nodes, and positions add up. *)
Theorem C71_bones : forall (T : Type) (N : Num T) (nodes : list (gnode T)) fuel root bs bs', import_bones fuel nodes root 0 bs = Some bs' ->
  exists l new, subtree nodes root l /\ bs' = bs ++ new /\ skeleton_bones nodes (Z.of_nat (length bs)) l 0 None new.
Proof. exact (fun T N => @root_bones T N). Qed.
Print Assumptions C71_bones.

(** Every finite skeleton is imported. *)
Theorem C71_total : forall (T : Type) (N : Num T) (nodes : list (gnode T)) root l, subtree nodes root l ->
  exists f, forall fuel bs, (f <= fuel)%nat -> exists bs', import_bones fuel nodes root 0 bs = Some bs'.
Proof. exact (fun T N => @root_total T N). Qed.
Print Assumptions C71_total.

(** The bones of a document are those of its skeletons, each root once however many skins share it. *)
Theorem C71_skins : forall (T : Type) (N : Num T) (zero : T) has_pbr half fuel (g : gdoc T) d bones, from_gltf zero has_pbr half fuel g = Some (d, bones) ->
  exists roots, NoDup roots /\ (forall k, In k roots <-> exists s, In s (gdSkins g) /\ gsSkeleton s = Some k) /\ skeletons (gdNodes g) roots bones.
Proof. exact (fun T N => @from_bones T N). Qed.
Print Assumptions C71_skins.

Definition tnode name t cs : gnode Z := mkNode name t cs None None.
Definition ex_skeleton : list (gnode Z) :=
  [tnode "armature" (mkV3 0 10 0) [1%nat]; tnode "hips" (mkV3 1 2 3) [2%nat; 4%nat]; tnode "spine" (mkV3 0 1 0) [3%nat]; tnode "head" (mkV3 0 1 1) []; tnode "leg" (mkV3 0 (-1) 0) []].
Example C71_example : (exists l, subtree ex_skeleton 1 l) /\
  option_map (map (fun b => (bID b, bName b, bParent b, bPos b))) (import_bones 5 ex_skeleton 1 0 []) =
  Some [(1, "hips"%string, 0, mkV3 1 2 3); (2, "spine"%string, 1, mkV3 1 3 3); (3, "head"%string, 2, mkV3 1 4 4); (4, "leg"%string, 1, mkV3 1 1 3)].
Proof.
  split; [|vm_compute; reflexivity].
  assert (H3 : subtree ex_skeleton 3 [3%nat]) by (apply (st_node ex_skeleton 3 (tnode "head" (mkV3 0 1 1) []) []); [reflexivity|constructor]).
  assert (H4 : subtree ex_skeleton 4 [4%nat]) by (apply (st_node ex_skeleton 4 (tnode "leg" (mkV3 0 (-1) 0) []) []); [reflexivity|constructor]).
  assert (H2 : subtree ex_skeleton 2 [2%nat; 3%nat]) by (apply (st_node ex_skeleton 2 (tnode "spine" (mkV3 0 1 0) [3%nat]) [[3%nat]]); [reflexivity|repeat constructor; exact H3]).
  eexists. apply (st_node ex_skeleton 1 (tnode "hips" (mkV3 1 2 3) [2%nat; 4%nat]) [[2%nat; 3%nat]; [4%nat]]); [reflexivity|]. constructor; [exact H2|]. constructor; [exact H4|constructor].
Qed.

Example C71_example_shared : forall root, root = mkSkin [1%nat] [mat_id] (Some 1%nat) ->
  option_map (fun r => map (@bName Z) (snd r)) (from_gltf 0 (fun _ => true) 0 5 (mkGDoc ex_skeleton [0%nat] [] [root; mkSkin [0%nat] [mat_id] None; root] [])) =
  Some ["hips"%string; "spine"%string; "head"%string; "leg"%string].
Proof. intros root ->. vm_compute. reflexivity. Qed.

(** The position of a node in the scene: the translations of all its ancestors count. *)
Inductive placed {T : Type} {N : Num T} (nodes : list (gnode T)) : nat -> vec3 T -> Prop :=
| pl_root i n : nth_error nodes i = Some n -> (forall j p, nth_error nodes j = Some p -> ~ In i (gnChildren p)) -> placed nodes i (gnTrans n)
| pl_child i n j p q : nth_error nodes i = Some n -> nth_error nodes j = Some p -> In i (gnChildren p) -> placed nodes j q -> placed nodes i (v3add (gnTrans n) q).

(** The nodes above the root of the skeleton are ignored, so that the bones are not where the mesh is. *)
Theorem C71_position_refuted : exists (g : gdoc Z) d b q, from_gltf 0 (fun _ => true) 0 5 g = Some (d, [b]) /\
  placed (gdNodes g) 1 q /\ nth_error (gdNodes g) 1 = Some (tnode "hips" (mkV3 1 2 3) []) /\ bName b = "hips"%string /\ bPos b <> q.
Proof.
  exists (mkGDoc [tnode "armature" (mkV3 0 10 0) [1%nat]; tnode "hips" (mkV3 1 2 3) []] [0%nat] [] [mkSkin [1%nat] [mat_id] (Some 1%nat)] []).
  eexists _, _, (v3add (mkV3 1 2 3) (mkV3 0 10 0)). split; [vm_compute; reflexivity|]. split; [|split; [reflexivity|split; [reflexivity|vm_compute; discriminate]]].
  apply (pl_child _ 1%nat (tnode "hips" (mkV3 1 2 3) []) 0%nat (tnode "armature" (mkV3 0 10 0) [1%nat]) (mkV3 0 10 0)); [reflexivity|reflexivity|left; reflexivity|].
  apply (pl_root _ 0%nat (tnode "armature" (mkV3 0 10 0) [1%nat])); [reflexivity|]. intros [|[|[|j]]] p Hp; try discriminate Hp; injection Hp as <-; cbn; intuition discriminate.
Qed.
Print Assumptions C71_position_refuted.

(** Skins without a skeleton root, which glTF allows, give no bones: in particular all bones of a
    document are lost when it is exported and imported again. *)
Theorem C71_lost_refuted : exists (d : document Z) bones g d', bones <> [] /\
  to_gltf 2 1 1 false false 0 0 (fun _ => false) d bones ex_sets = Some g /\ gdSkins g <> [] /\ from_gltf 0 (fun _ => true) 0 5 g = Some (d', []).
Proof. exists ex_doc, C41.ex_bones. eexists _, _. split; [discriminate|]. split; [vm_compute; reflexivity|]. split; [discriminate|vm_compute; reflexivity]. Qed.
Print Assumptions C71_lost_refuted.

(** Two skins whose roots are nested: the inner bones are there twice. *)
Theorem C71_nested_refuted : exists (g : gdoc Z) d bones, from_gltf 0 (fun _ => true) 0 5 g = Some (d, bones) /\
  ~ NoDup (map (@bName Z) bones) /\ NoDup (map (@gnName Z) (gdNodes g)).
Proof.
  exists (mkGDoc ex_skeleton [0%nat] [] [mkSkin [1%nat] [mat_id] (Some 1%nat); mkSkin [2%nat] [mat_id] (Some 2%nat)] []).
  eexists _, _. split; [vm_compute; reflexivity|]. split; [|repeat constructor; cbn; intuition discriminate].
  cbn. intros H. inversion H as [|? ? _ H2]; subst. inversion H2 as [|? ? H3 _]; subst. apply H3. cbn. auto.
Qed.
Print Assumptions C71_nested_refuted.
