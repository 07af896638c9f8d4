(** C60: a truncated binary FBX file is reported: refuted. *)
From Coq Require Import List ZArith Bool Lia.
From Verif.Model Require Import Codec Fbx.
From Verif.Spec Require Import FbxSpec.
From Verif.Proofs Require Import FbxProofs FbxLayout FbxTotal.
Import ListNotations.
Open Scope Z_scope.

(** Only a file too short for the identification is certain to be rejected. *)
Theorem C60_too_short_partial : forall seek inflate data, (length data < 21)%nat -> parse_fbx seek inflate data = FErr.
Proof. exact short_rejected. Qed.
Print Assumptions C60_too_short_partial.

Definition sample : list node :=
  [Node [79] [AI32 1] [Node [65] [AI32 2] []; Node [66] [AI32 3] []]; Node [67] [AStr [100; 101]] []].
Definition full : bytes := lay_file [26; 0] 7400 sample.

(** Cut after the first child of the first node: the rest is silently missing.  Cut inside the
    header of a node: a node with an empty name appears.  Cut before the text of a string: the string
    consists of zero bytes. *)
Theorem C60_truncation_refuted : exists sample full, forall packed inflate seek, seek = None \/ seek = Some (2 ^ 44) ->
  file_at packed 7400 sample full /\
  (exists k, (k < length full)%nat /\
     parse_fbx seek inflate (firstn k full) = FTree (tree_of [Node [79] [AI32 1] [Node [65] [AI32 2] []]])) /\
  (exists k, (k < length full)%nat /\
     parse_fbx seek inflate (firstn k full) =
       FTree (tree_of [Node [79] [AI32 1] [Node [65] [AI32 2] []; Node [] [] []]])) /\
  (exists k, (k < length full)%nat /\
     parse_fbx seek inflate (firstn k full) =
       FTree (tree_of [Node [79] [AI32 1] [Node [65] [AI32 2] []; Node [66] [AI32 3] []]; Node [67] [AStr [0; 0]] []])).
Proof.
  exists sample, full. intros packed inflate seek Hs.
  assert (L : forall k, (k < 130)%nat -> (k < length full)%nat).
  { intros k Hk. change (length full) with 131%nat. lia. }
  split; [|split; [|split]].
  - apply lay_file_ok; [reflexivity|split; [discriminate|reflexivity]| |vm_compute; reflexivity].
    repeat constructor; vm_compute; try reflexivity; try discriminate.
  - exists 65%nat. split; [apply L; lia|]. destruct Hs as [-> | ->]; vm_compute; reflexivity.
  - exists 69%nat. split; [apply L; lia|]. destruct Hs as [-> | ->]; vm_compute; reflexivity.
  - exists 116%nat. split; [apply L; lia|]. destruct Hs as [-> | ->]; vm_compute; reflexivity.
Qed.
Print Assumptions C60_truncation_refuted.
