(** C121: a document put together in memory is the document that is loaded from its file. *)
From Coq Require Import List ZArith Bool Lia.
From Verif.Model Require Import FbxBuild.
From Verif.Spec Require Import FbxBuildSpec.
From Verif.Proofs Require Import FbxBuildProofs.
Import ListNotations.

(** Objects by id and what objects hold, in its order, are the same, if objects are added before they are connected.  The full statement also has [same_parents] and [same_materials], and every order. *)
Theorem C121_reloaded_partial : forall s, orderly 1 [] s -> let d := run s new_doc in same_objects d (reload d) /\ same_refs d (reload d).
Proof. exact reload_same. Qed.
Print Assumptions C121_reloaded_partial.

(** Every added object, and the scene, is found under its own id. *)
Theorem C121_ids : forall s, orderly 1 [] s -> let d := run s new_doc in forall p, In p (0%nat :: bdRows d) -> lookup Z.eqb (bdTable d) (id_of (bdIds d) p) = Some p.
Proof. exact own_ids. Qed.
Print Assumptions C121_ids.

(** The loaded document has the materials that were added, and as parent of a model the last model that it was connected to. *)
Theorem C121_materials : forall s, orderly 1 [] s -> let d := run s new_doc in forall p, In p (bdMats (reload d)) <-> In p (bdRows d) /\ kind_of (bdKinds d) p = KMaterial.
Proof. exact reload_materials. Qed.
Print Assumptions C121_materials.
Theorem C121_parent : forall s, orderly 1 [] s -> let d := run s new_doc in forall c p, parent_of (reload d) c = Some p <->
  exists a b, bdRefs d = a ++ (p, c) :: b /\ kind_of (bdKinds d) p = KModel /\ kind_of (bdKinds d) c = KModel /\ forall q, In (q, c) b -> kind_of (bdKinds d) q <> KModel.
Proof. exact reload_parent. Qed.
Print Assumptions C121_parent.

(** The document in memory never has any: whatever is added and connected, it has the materials and parents of before. *)
Theorem C121_memory_refuted : forall s d, bdMats (run s d) = bdMats d /\ bdParents (run s d) = bdParents d.
Proof. exact never_listed. Qed.
Print Assumptions C121_memory_refuted.

(** A model with a material in a group in the scene. *)
Definition building : list step := [SMake KModel; SMake KModel; SMake KMaterial; SMake KOther; SAdd 1; SAdd 2; SAdd 3; SAdd 4; SConnect 0 1; SConnect 1 2; SConnect 2 4; SConnect 2 3].
Lemma building_orderly : orderly 1 [] building.
Proof. unfold building. repeat first [apply OMake | apply OEnd | apply OAdd; [lia|] | apply OConnect; [cbn; tauto|cbn; tauto|]]. Qed.
Theorem C121_lists_refuted : exists s, orderly 1 [] s /\ let d := run s new_doc in ~ same_parents d (reload d) /\ ~ same_materials d (reload d).
Proof.
  exists building. split; [exact building_orderly|]. split; [intros H; specialize (H 2%nat); vm_compute in H; discriminate|]. intros H. vm_compute in H. discriminate.
Qed.
Print Assumptions C121_lists_refuted.

(** An object that is connected before it is added: in the file the scene is a child of itself, and the object hangs nowhere. *)
Theorem C121_order_refuted : exists s, let d := run s new_doc in refs_of d 0 = [1%nat] /\ In 1%nat (bdRows d) /\ refs_of (reload d) 0 = [0%nat] /\ parent_of (reload d) 0 = Some 0%nat /\ parent_of (reload d) 1 = None.
Proof. exists [SMake KModel; SConnect 0 1; SAdd 1]. vm_compute. repeat split. left. reflexivity. Qed.
Print Assumptions C121_order_refuted.

(** A model that is moved after its matrix was asked for: the matrix is the old one, until the file is loaded or UpdateMatrix is called. *)
Theorem C121_moved_refuted : forall (P M : Type) (matrix : P -> M) (m : cmodel) p, cmCached m = None -> matrix p <> matrix (cmProps m) ->
  let m' := set_props (snd (get_matrix matrix m)) p in fst (get_matrix matrix m') <> matrix p /\ fst (get_matrix matrix (reload_model m')) = matrix p /\ fst (get_matrix matrix (update_matrix matrix m')) = matrix p.
Proof. intros P M matrix m p C N. unfold get_matrix, set_props. rewrite C. cbn. split; [|split; reflexivity]. intros E. apply N. symmetry. exact E. Qed.
Print Assumptions C121_moved_refuted.

(** Objects of another document keep their ids if these are free, and get new ones otherwise.  The node of the object is the same in both documents, so the other document is changed as well:
    here the child of its scene has a new id, which is also the id of its grandchild, and hangs nowhere any more when the file is loaded. *)
Theorem C121_shared_refuted : exists s s', orderly 1 [] s /\ let d := run s new_doc in orderly 3 [] s' /\ let other := run s' (beside d) in
  refs_of (reload d) 0 = [1%nat] /\ (forall p, In p (0%nat :: bdRows other) -> lookup Z.eqb (bdTable other) (id_of (bdIds other) p) = Some p) /\
  refs_of (after d other) 0 = [1%nat] /\ refs_of (reload (after d other)) 0 = [] /\ id_of (bdIds other) 1 = id_of (bdIds other) 2.
Proof.
  exists [SMake KModel; SMake KModel; SAdd 1; SAdd 2; SConnect 0 1; SConnect 1 2], [SMake KModel; SAdd 3; SAdd 1].
  split; [repeat first [apply OMake | apply OEnd | apply OAdd; [lia|] | apply OConnect; [cbn; tauto|cbn; tauto|]]|]. cbv zeta.
  split; [repeat first [apply OMake | apply OEnd | apply OAdd; [lia|] | apply OConnect; [cbn; tauto|cbn; tauto|]]|]. split; [reflexivity|]. split; [|vm_compute; repeat split].
  intros p H. vm_compute in H. destruct H as [<-|[<-|[<-|[]]]]; reflexivity.
Qed.
Print Assumptions C121_shared_refuted.
Example C121_taken : let s := [STake KModel 7; STake KOther 7; STake KMaterial 0; SAdd 1; SAdd 2; SAdd 3; SConnect 0 1; SConnect 1 2]%Z in orderly 1 [] s /\
  let d := run s new_doc in map (id_of (bdIds d)) [1; 2; 3]%nat = [7; 1; 2]%Z /\ bdConns d = [(7, 0); (1, 7)]%Z.
Proof. split; [repeat first [apply OTake | apply OEnd | apply OAdd; [lia|] | apply OConnect; [cbn; tauto|cbn; tauto|]]|vm_compute; split; reflexivity]. Qed.
Example C121_example : orderly 1 [] building /\ let d := run building new_doc in map (id_of (bdIds d)) [0; 1; 2; 3; 4]%nat = [0; 1; 2; 3; 4]%Z /\ bdConns d = [(1, 0); (2, 1); (4, 2); (3, 2)]%Z /\
  refs_of d 2 = [4; 3]%nat /\ parent_of (reload d) 2 = Some 1%nat /\ parent_of (reload d) 1 = Some 0%nat /\ bdMats (reload d) = [3%nat].
Proof. split; [exact building_orderly|]. vm_compute. repeat split. Qed.
Example C121_moved_example : cmCached (mkCM 1%Z (@None Z)) = None /\ Z.mul 2 3 <> Z.mul 2 1.
Proof. split; [reflexivity|discriminate]. Qed.
