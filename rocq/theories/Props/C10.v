(** C10: object ids after FixObjectID.  Full claim: nonzero, kept, pairwise different.  The
    last part is false: a generated id can collide with an explicit one. *)
From Coq Require Import String List ZArith Lia.
From Verif.Model Require Import Num Vec Matrix Mqo MqoDoc.
From Verif.Spec Require Import DocSpec.
From Verif.Proofs Require Import MqoDocProofs.
Import ListNotations.

(** Objects with an id keep everything; the others get position + 1 and keep the rest. *)
Theorem C10_kept_or_numbered (T : Type) (d : document T) k o :
  nth_error (dObjects d) k = Some o ->
  nth_error (dObjects (fix_object_id d)) k =
  Some (if (oUID o =? 0)%Z then set_uid o (Z.of_nat k + 1) else o).
Proof. exact (fix_object_id_nth d k o). Qed.
Print Assumptions C10_kept_or_numbered.

Theorem C10_nonzero (T : Type) (d : document T) :
  length (dObjects (fix_object_id d)) = length (dObjects d) /\
  dMaterials (fix_object_id d) = dMaterials d /\
  forall o, In o (dObjects (fix_object_id d)) -> oUID o <> 0%Z.
Proof. exact (fix_object_id_nonzero d). Qed.
Print Assumptions C10_nonzero.

Definition with_id (u : Z) : object Z :=
  mkObj u "o" [] [] true false 0 false 1 0%Z 0 0 0 0%Z None None None None [] None.
Theorem C10_unique_refuted : exists d : document Z,
  ~ NoDup (map oUID (dObjects (fix_object_id d))) /\
  exists i o, nth_error (dObjects (fix_object_id d)) i = Some o /\
    index_of_uid (dObjects (fix_object_id d)) (oUID o) <> Some i.
Proof.
  exists (mkDocument [] [with_id 2; with_id 0]). split.
  - cbn. intro H. inversion H as [|? ? NI _]; subst. apply NI. left; reflexivity.
  - exists 1, (with_id 2). split; [reflexivity|]. discriminate.
Qed.
Print Assumptions C10_unique_refuted.

(** Unique if explicit ids are distinct and none equals position + 1 of an unnumbered object. *)
Theorem C10_unique_partial (T : Type) (d : document T) :
  (forall i j oi oj, nth_error (dObjects d) i = Some oi -> nth_error (dObjects d) j = Some oj ->
     oUID oi <> 0%Z ->
     (i <> j -> oUID oj <> 0%Z -> oUID oi <> oUID oj) /\
     (oUID oj = 0%Z -> oUID oi <> (Z.of_nat j + 1)%Z)) ->
  NoDup (map oUID (dObjects (fix_object_id d))) /\
  forall i o, nth_error (dObjects (fix_object_id d)) i = Some o ->
    get_object_by_id (fix_object_id d) (oUID o) = Some o.
Proof. exact (fix_object_id_lookup d). Qed.
Print Assumptions C10_unique_partial.
(** The condition cannot be dropped: it is also necessary. *)
Theorem C10_unique_condition (T : Type) (d : document T) :
  NoDup (map oUID (dObjects (fix_object_id d))) ->
  forall i j oi oj, nth_error (dObjects d) i = Some oi -> nth_error (dObjects d) j = Some oj ->
     oUID oi <> 0%Z ->
     (i <> j -> oUID oj <> 0%Z -> oUID oi <> oUID oj) /\
     (oUID oj = 0%Z -> oUID oi <> (Z.of_nat j + 1)%Z).
Proof. exact (fix_object_id_needed d). Qed.
Print Assumptions C10_unique_condition.
Example C10_run : map oUID (dObjects (fix_object_id (mkDocument [] (map with_id [7; 0; 1; 0]%Z)))) = [7; 2; 1; 4]%Z.
Proof. reflexivity. Qed.
