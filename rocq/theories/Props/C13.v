(** C13: resolving vertex ids.  Full claim: unregistered ids resolve to uid-1 if that is a
    vertex index and to -1 otherwise.  False for negative ids. *)
From Coq Require Import String List ZArith Lia.
From Verif.Model Require Import Num Vec Matrix Mqo MqoDoc.
From Verif.Proofs Require Import MqoDocProofs.
Import ListNotations.
Local Open Scope Z_scope.

Theorem C13_vertex_index (T : Type) (o : object T) uid :
  (forall i, assoc (oVertexByUID o) uid = Some i -> get_vertex_index_by_id o uid = i) /\
  (assoc (oVertexByUID o) uid = None ->
     (1 <= uid <= Z.of_nat (length (oVerts o)) -> get_vertex_index_by_id o uid = uid - 1) /\
     (Z.of_nat (length (oVerts o)) < uid \/ uid = 0 -> get_vertex_index_by_id o uid = -1)).
Proof. exact (vertex_index_cases o uid). Qed.
Print Assumptions C13_vertex_index.

(** The lookup in the map finds the entry of the id, if there is one. *)
Theorem C13_assoc (m : list (Z * Z)) k :
  (forall v, NoDup (map fst m) -> In (k, v) m -> assoc m k = Some v) /\
  (assoc m k = None <-> ~ In k (map fst m)).
Proof. exact (assoc_spec m k). Qed.
Print Assumptions C13_assoc.

Definition three : object Z :=
  mkObj 1 "o" [mkV3 0 0 0; mkV3 1 0 0; mkV3 2 0 0] [] true false 0 false 1 0 0 0 0 0 None None None None [(12, 0)] None.
Theorem C13_negative_refuted : exists (o : object Z) uid,
  assoc (oVertexByUID o) uid = None /\ ~ (0 <= uid - 1 < Z.of_nat (length (oVerts o))) /\
  get_vertex_index_by_id o uid <> -1.
Proof. exists three, (-4). split; [reflexivity|]. split; [cbn; lia | discriminate]. Qed.
Print Assumptions C13_negative_refuted.
Example C13_run : map (get_vertex_index_by_id three) [12; 1; 3; 4; 0; -4] = [0; 0; 2; -1; -1; -5].
Proof. reflexivity. Qed.
