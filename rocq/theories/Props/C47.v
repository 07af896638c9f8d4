(** C47: VRM humanoid bones are assigned at most once. *)
From Coq Require Import String List ZArith Bool Lia.
From Verif.Model Require Import Num Vec VrmConfig.
From Verif.Spec Require Import VrmSpec.
From Verif.Proofs Require Import VrmBones.
Import ListNotations.
Local Open Scope string_scope.
Local Open Scope list_scope.

(** Every humanoid bone is written at most once. *)
Theorem C47_once : forall nodes maps, NoDup (map hbName (fst (humanoid nodes maps))).
Proof. exact humanoid_once. Qed.
Print Assumptions C47_once.

(** Which bones are written: the first mapping of the bone that is decided chooses the node; if all are undecided and the bone is required,
    the last node of its own name. *)
Theorem C47_exact : forall nodes maps b id d, In (mkHB b id d) (fst (humanoid nodes maps)) <->
  (exists m, decides nodes maps b m /\ names_of m <> [] /\ chosen nodes (names_of m) id /\ d = (bmDefault m || negb (bmLimits m))%bool) \/
  ((forall m, In m maps -> bmBone m = b -> undecided nodes m) /\ In b required_bones /\ last_named nodes b id /\ d = true).
Proof. exact humanoid_exact. Qed.
Print Assumptions C47_exact.

(** A bone that a mapping without node names ignores is never assigned. *)
Theorem C47_ignored : forall nodes maps b m, decides nodes maps b m -> names_of m = [] -> ~ In b (map hbName (fst (humanoid nodes maps))).
Proof. exact ignored_never. Qed.
Print Assumptions C47_ignored.

(** User mappings have priority over those of the preset, which are appended. *)
Theorem C47_user_first : forall nodes user preset b m, decides nodes user b m ->
  forall id d, In (mkHB b id d) (fst (humanoid nodes (user ++ preset))) <-> In (mkHB b id d) (fst (humanoid nodes user)).
Proof. exact user_first. Qed.
Print Assumptions C47_user_first.

(** [CheckRequiredBones] returns exactly the missing required bones. *)
Theorem C47_check : forall bones, NoDup (check_required bones) /\ forall b, In b (check_required bones) <-> In b required_bones /\ ~ In b (map hbName bones).
Proof. exact check_exact. Qed.
Print Assumptions C47_check.

Definition C47_nodes : list vnode := [mkVN "root" None [1%nat]; mkVN "hip" None [2%nat; 3%nat]; mkVN "hip" (Some 0%nat) []; mkVN "Waist" None []; mkVN "neck" None []; mkVN "head" None []; mkVN "spine" None []].
Definition C47_user : list bmap := [mkBM "hips" false true "" ["hip"; "Waist"]; mkBM "neck" false false "" []].
Definition C47_preset : list bmap := [mkBM "hips" false false "" ["root"]; mkBM "neck" false false "" ["neck"]; mkBM "head" false false "skull" []; mkBM "spine" true true "root" ["nothing"]].
(** The mesh node is skipped, the preset loses, the neck is ignored, the head is found by its own name. *)
Example C47_example : humanoid C47_nodes (C47_user ++ C47_preset) = ([mkHB "hips" 3 false; mkHB "spine" 0 true; mkHB "head" 5 true], None).
Proof. reflexivity. Qed.
Example C47_example_decides : decides C47_nodes (C47_user ++ C47_preset) "neck" (mkBM "neck" false false "" []) /\ decides C47_nodes C47_user "hips" (mkBM "hips" false true "" ["hip"; "Waist"]).
Proof.
  split.
  - exists [mkBM "hips" false true "" ["hip"; "Waist"]]%string, C47_preset. split; [reflexivity|]; split; [reflexivity|]; split; [intros (H & _); apply H; reflexivity|]. intros m' [<-|[]] E. discriminate.
  - exists [], [mkBM "neck" false false "" []]%string. split; [reflexivity|]; split; [reflexivity|]; split; [|intros m' []]. intros (_ & H). apply (H "Waist"%string 3%nat); [right; left; reflexivity|].
    split; [split; [exists (mkVN "Waist" None []); split; reflexivity|]|intros n E; injection E as <-; reflexivity].
    intros j m Hj Hm. do 7 (destruct j as [|j]; [cbn in Hj; injection Hj as <-; cbn in Hm; try discriminate; lia|]). destruct j; discriminate.
Qed.
Example C47_example_check : check_required [mkHB "hips" 3 false; mkHB "spine" 0 true; mkHB "head" 5 true] =
  ["chest"; "neck"; "leftUpperArm"; "leftLowerArm"; "leftHand"; "rightUpperArm"; "rightLowerArm"; "rightHand"; "leftUpperLeg"; "leftLowerLeg"; "leftFoot"; "rightUpperLeg"; "rightLowerLeg"; "rightFoot"]%string.
Proof. reflexivity. Qed.
