(** C31: FBX properties behave like a map. *)
From Coq Require Import List ZArith Bool Lia.
From Verif Require Import Model.Codec Model.Fbx Model.FbxDoc Spec.FbxDocSpec Proofs.FbxDocProofs.
Import ListNotations.
Open Scope Z_scope.

(** The claim: every sequence of reads and writes returns what a map would. *)
Definition C31_full : Prop := forall o m ops, (forall k, got o k = Some (m k)) ->
  run_props o ops = Some (run_map m ops).

(** It holds for objects that have a Properties70 node with complete entries of distinct
    names, whether or not they were read before, and whatever their template is. *)
Theorem C31_map_partial : forall l cache tmpl m ops, (cache = None -> full_props l) ->
  (forall k, got (PObj (Some l) cache tmpl) k = Some (m k)) ->
  run_props (PObj (Some l) cache tmpl) ops = Some (run_map m ops).
Proof. exact (fun l c t m ops H => run_spec ops (PObj (Some l) c t) m H). Qed.
Print Assumptions C31_map_partial.

(** One write, without the hypothesis that all reads succeed. *)
Theorem C31_set_get_partial : forall l cache tmpl k p, (cache = None -> full_props l) ->
  exists o', set_property (PObj (Some l) cache tmpl) k p = Some o' /\ got o' k = Some p /\
    (forall k', k' <> k -> got o' k' = got (PObj (Some l) cache tmpl) k').
Proof. exact set_get. Qed.
Print Assumptions C31_set_get_partial.

(** With a name twice the write goes to the first entry and the read to the last, unless the
    properties were read before. *)
Definition pa (v : Z) : list attr := [AStr [65]; AStr []; AStr []; AStr []; AI64 v].
Definition p9 : property := mkP [] [] [] [AI64 9].
Theorem C31_duplicate : forall tmpl,
  run_props (PObj (Some [pa 1; pa 2]) None tmpl) [PSet [65] p9; PGet [65]] = Some [mkP [] [] [] [AI64 2]] /\
  run_props (PObj (Some [pa 1; pa 2]) None tmpl) [PGet [65]; PSet [65] p9; PGet [65]] = Some [mkP [] [] [] [AI64 2]; p9].
Proof. intros. split; vm_compute; reflexivity. Qed.
Print Assumptions C31_duplicate.
(** Without a Properties70 node writing crashes, and so does reading an entry of fewer than
    four attributes. *)
Theorem C31_crashes : forall cache tmpl k p,
  set_property (PObj None cache tmpl) k p = None /\
  (forall a r, (length a < 4)%nat -> get_property (PObj (Some (a :: r)) None tmpl) k = None).
Proof. exact prop_crashes. Qed.
Print Assumptions C31_crashes.

Theorem C31_map_refuted : ~ C31_full.
Proof.
  intros H.
  specialize (H (PObj (Some [pa 1; pa 2]) None None)
    (fun k => if beq k [65] then mkP [] [] [] [AI64 2] else mkP [] [] [] []) [PSet [65] p9; PGet [65]]).
  rewrite (proj1 (C31_duplicate None)) in H. discriminate H.
  intros k. unfold got. cbn -[beq]. destruct (beq k [65]); reflexivity.
Qed.
Print Assumptions C31_map_refuted.

(** A sequence on an object with a template. *)
Example C31_example : exists o : pobj, usable o /\
  run_props o [PGet [66]; PSet [66] p9; PGet [65]; PGet [66]; PSet [65] p9; PGet [65]] =
    Some [mkP [] [] [] [AI64 3]; mkP [] [] [] [AI64 1]; p9; p9].
Proof.
  exists (PObj (Some [pa 1]) None (Some (PObj (Some [[AStr [66]; AStr []; AStr []; AStr []; AI64 3]]) None None))).
  split; [|vm_compute; reflexivity]. intros _. split; [repeat constructor; cbn; lia|].
  repeat constructor. intros [].
Qed.
