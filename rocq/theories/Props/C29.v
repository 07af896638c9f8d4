(** C29: FBX object ids stay unique while adding objects. *)
From Coq Require Import List ZArith Bool Lia.
From Verif Require Import Model.Codec Model.Fbx Model.FbxDoc Spec.FbxDocSpec Proofs.FbxDocProofs.
Import ListNotations.
Open Scope Z_scope.

(** Any sequence of additions of objects with their own nodes succeeds; afterwards every added
    object is found under its id, only the object that had id 0 before has id 0, and whatever
    was found under some id before still is. *)
Theorem C29_unique_ids : forall d l, filed d -> d_objs d <> None ->
  (forall o, In o l -> d_attrs d (d_node d o) <> [] \/ found d o) ->
  exists d', add_objects d l = Some d' /\ filed d' /\
    (forall o, In o l -> found d' o /\ (obj_id d' o = 0 -> lookup 0 (d_table d) = Some o)) /\
    (forall k e, lookup k (d_table d) = Some e -> lookup k (d_table d') = Some e /\ obj_id d' e = k).
Proof. exact (fun d l => add_objects_spec l d). Qed.
Print Assumptions C29_unique_ids.

(** Adding an object that is found already changes nothing, so adding it twice is adding it
    once. *)
Theorem C29_twice : forall d o d', filed d -> d_objs d <> None ->
  add_object d o = Some d' -> add_object d' o = Some d'.
Proof. exact (fun d o d' F H E => add_again d' o (proj2 (add_found d o d' F E H))). Qed.
Print Assumptions C29_twice.

(** Documents read from any tree meet the hypothesis. *)
Theorem C29_documents : forall root, filed (build_doc root) /\ filed (build_doc_6100 root).
Proof. exact (fun root => conj (build_filed root) (build_6100_filed root)). Qed.
Print Assumptions C29_documents.

(** The claim without the condition on nodes. *)
Definition C29_full : Prop := forall d l d',
  (forall k o, lookup k (d_table d) = Some o -> obj_id d o = k) ->
  add_objects d l = Some d' -> forall o, In o l -> found d' o.

(** A geometry inside a version 6100 model shares the node of the model; adding it and the
    model gives the model the id, and the geometry is not found. *)
Definition model6100 : node := Node [77] [AStr [65]] [].
Definition shared_doc : doc :=
  let d := build_doc_6100 (Node root_name [] [Node objects_name [] [model6100]]) in
  mkDoc (d_table d) (d_next d) (fun o => if Nat.eqb o 7 then 1%nat else o) (d_attrs d) (d_objs d).
Theorem C29_shared_refuted : ~ C29_full.
Proof.
  intros H. assert (E : exists d', add_objects shared_doc [7%nat; 1%nat] = Some d' /\ ~ found d' 7%nat).
  { eexists. split; [vm_compute; reflexivity|]. vm_compute. discriminate. }
  destruct E as (d' & E & N). apply N. apply (H shared_doc [7%nat; 1%nat] d'); [|exact E|left; reflexivity].
  intros k o L. change (lookup k [(1, 1%nat); (0, 0%nat)] = Some o) in L. cbn [lookup] in L.
  destruct (Z.eqb_spec k 1) as [->|N1]; [injection L as <-; reflexivity|].
  destruct (Z.eqb_spec k 0) as [->|N0]; [injection L as <-; reflexivity|discriminate].
Qed.
Print Assumptions C29_shared_refuted.

(** Three objects are added to a file with ids 5 and 1: one without an id, one with a taken id
    and one with a free one. *)
Definition doc29 : doc :=
  let d := build_doc (Node root_name [] [Node objects_name [] [Node [77] [AI64 5] []; Node [77] [AI64 1] []]]) in
  mkDoc (d_table d) (d_next d) (d_node d)
    (fun n => match n with 10%nat => [AInt 0] | 11%nat => [AI64 5; AStr [66]] | 12%nat => [AI64 9] | _ => d_attrs d n end)
    (d_objs d).
Example C29_example : exists d', add_objects doc29 [10; 11; 10; 12; 11]%nat = Some d' /\
  map (obj_id d') [1; 2; 10; 11; 12]%nat = [5; 1; 2; 3; 9] /\
  map (fun k => lookup k (d_table d')) [5; 1; 2; 3; 9] = map Some [1; 2; 10; 11; 12]%nat /\
  d_objs d' = Some [1; 2; 10; 11; 12]%nat.
Proof. eexists. split; [vm_compute; reflexivity|]. vm_compute. auto. Qed.
