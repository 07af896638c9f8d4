(** C73: humanoid bones are different bone nodes, and the first person bone is the head. *)
From Coq Require Import String List ZArith Bool Lia.
From Verif.Model Require Import Num Vec VrmConfig.
From Verif.Spec Require Import VrmSpec.
From Verif.Proofs Require Import VrmBones.
Import ListNotations.
Local Open Scope string_scope.
Local Open Scope list_scope.

(** A bone that is decided by a mapping is on an existing node that is not a mesh. *)
Theorem C73_bone_nodes_partial : forall nodes maps b id d m, In (mkHB b id d) (fst (humanoid nodes maps)) -> decides nodes maps b m -> exists n, nth_error nodes id = Some n /\ vnMesh n = None.
Proof.
  intros nodes maps b id d m H D. apply humanoid_exact in H as [(m' & _ & _ & (a & x & c & _ & (((n & Hn & _) & _) & NM) & _) & _)|(U & _)]; [eauto|].
  destruct D as (pre & post & -> & Hb & NU & _). contradiction NU. apply U; [apply in_or_app; right; left; reflexivity|exact Hb].
Qed.
Print Assumptions C73_bone_nodes_partial.

(** The first person bone is the node of the mapping that decides the head. *)
Theorem C73_first_person_partial : forall nodes maps m id, decides nodes maps "head" m -> chosen nodes (names_of m) id -> snd (humanoid nodes maps) = Some (Z.of_nat id).
Proof.
  intros nodes maps m id D C. apply (first_person nodes maps m D); [|exact C]. destruct C as (a & x & b & E & _). intros X. rewrite X in E. destruct a; discriminate.
Qed.
Print Assumptions C73_first_person_partial.

Definition C73_nodes : list vnode := [mkVN "hips" (Some 0%nat) []; mkVN "Kopf" None []; mkVN "head" None []].
Example C73_example : humanoid C73_nodes [mkBM "head" false false "" ["Kopf"]; mkBM "neck" false false "" ["hals"; "head"]]%string = ([mkHB "head" 1 true; mkHB "neck" 2 true; mkHB "hips" 0 true]%string, Some 1%Z).
Proof. reflexivity. Qed.

(** Refuted: a required bone without a mapping is put on a node of its name even if that is a mesh. *)
Theorem C73_mesh_refuted : exists nodes maps b id d n, In (mkHB b id d) (fst (humanoid nodes maps)) /\ nth_error nodes id = Some n /\ vnMesh n <> None.
Proof. exists C73_nodes, [], "hips"%string, 0%nat, true, (mkVN "hips" (Some 0%nat) []). split; [left; reflexivity|]. split; [reflexivity|discriminate]. Qed.
Print Assumptions C73_mesh_refuted.
(** Refuted: two bones may be put on the same node. *)
Theorem C73_shared_refuted : exists nodes maps b c id, b <> c /\ In (mkHB b id true) (fst (humanoid nodes maps)) /\ In (mkHB c id true) (fst (humanoid nodes maps)).
Proof.
  exists C73_nodes, [mkBM "chest" false false "" ["Kopf"]; mkBM "neck" false false "" ["Hals"; "Kopf"]]%string, "chest"%string, "neck"%string, 1%nat.
  split; [discriminate|]. split; [left; reflexivity|right; left; reflexivity].
Qed.
Print Assumptions C73_shared_refuted.
(** Refuted: a head that is ignored gives the first person bone -1; a head found by its own name gives none. *)
Theorem C73_first_person_refuted :
  (exists nodes maps, snd (humanoid nodes maps) = Some (-1)%Z) /\
  exists nodes maps id, In (mkHB "head" id true) (fst (humanoid nodes maps)) /\ snd (humanoid nodes maps) = None.
Proof.
  split; [exists C73_nodes, [mkBM "head" false false "" []]%string; reflexivity|]. exists C73_nodes, [], 2%nat. split; [right; left; reflexivity|reflexivity].
Qed.
Print Assumptions C73_first_person_refuted.
