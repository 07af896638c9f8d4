(** C16: an MQO document written as text is read back.  Full claim: everything textual comes back,
    in particular the vertex ids.  [WriteMQO] and [Parser.Parse] are modelled down to characters.
    The vertex ids are refuted for registries that do not cover every vertex. *)
From Coq Require Import String List ZArith Lia Permutation.
From Verif.Model Require Import Num Vec Matrix Mqo MqoDoc MqoText MqoLex.
From Verif.Spec Require Import TextSpec.
From Verif.Proofs Require Import MqoLexProofs MqoTextMore.
Import ListNotations.
Local Open Scope string_scope.

(** For every document in the domain of the format: what is read back is exactly [kept_doc d]
    (Spec/TextSpec.v), with each number as its printed digits read. *)
Theorem C16_text_round_trip (T : Type) (N : Num T) (X : TextNum T) (d : text_doc T) :
  text_domain d -> parse_text (write_text d) = Some (kept_doc d).
Proof. exact (parse_write_text d). Qed.
Print Assumptions C16_text_round_trip.

(** Documents without anything the format rounds or cannot hold come back the same. *)
Theorem C16_exact_round_trip (T : Type) (N : Num T) (X : TextNum T) (d : text_doc T) :
  neqb (nzero : T) nzero = true -> text_domain d -> exact_doc d ->
  exists d', parse_text (write_text d) = Some d' /\ same_doc d d'.
Proof. exact (parse_write_exact d). Qed.
Print Assumptions C16_exact_round_trip.

(** The rotation line holds heading, pitch and bank, that is the Y, X and Z angles in this order
    (the reader undoes any common permutation, so the round trip alone does not fix it). *)
Theorem C16_rotation_line (T : Type) (N : Num T) (X : TextNum T) (o : object T) (v : vec3 T) :
  oRotation o = Some v ->
  exists pre post, w_object o =
    (pre ++ W tab :: K (TId "rotation") :: W " " ::
    (pflt FV (vy v) ++ W " " :: pflt FV (vx v) ++ W " " :: pflt FV (vz v) ++ [NL]) ++ post)%list.
Proof. exact (rotation_line o v). Qed.
Print Assumptions C16_rotation_line.

Local Open Scope Z_scope.
Definition tri (m : Z) : face Z := mkFace 0 [0; 1; 2] m [mkV2 0 0; mkV2 1 0; mkV2 0 (-1)] [None; Some (mkV3 0 0 1); None].
Definition ob (lock : bool) (vs : list (vec3 Z)) (fs : list (face Z)) (ids : list (Z * Z)) : object Z :=
  mkObj 3 "obj 1" vs fs true lock 2 false 1 59 0 0 0 0 (Some (mkV3 1 1 1)) (Some (mkV3 0 90 0))
    (Some (mkV3 (-5) 0 7)) None ids None.
Definition v3s : list (vec3 Z) := [mkV3 0 0 0; mkV3 10 (-20) 0; mkV3 0 0 30].
Definition mt (ec : option (vec3 Z)) (q : param Z) : material Z :=
  mkMat "skin" 1 (mkV4 1 1 1 1) 1 0 0 0 5 "tex/a.png" "" "" ec true 3
    (Some (mkEx2 "hlsl" "pmd" [("Toon.Index", PInt 2); ("Shift", PFloat (-4)); ("Edge", q)] [] [])).
Definition doc1 (m : material Z) (os : list (object Z)) : text_doc Z :=
  mkTD (Some "a.mqx") (Some (mkScene (mkV3 0 (-1) 2) (mkV3 0 0 0) (mkV3 1 2 3) 5 0 100 false None)) (mkDocument [m] os).
Definition sample : text_doc Z :=
  doc1 (mt None (PBool true)) [ob false v3s [tri 0] [(7, 2); (5, 0); (9, 1)]; ob false [] [] []].
Ltac names := cbn; repeat split; discriminate.
Example C16_ex_domain : text_domain sample.
Proof.
  split; [intros f [= <-]; split; [names|discriminate]|]. split.
  - constructor; [|constructor]. unfold text_material. cbn [mtName mtTexture mtAlpha mtBump mtShader mtEx2 mt].
    do 4 (split; [names|]). split; [lia|]. intros e [= <-]. unfold text_ex2. cbn [exType exName exParams].
    do 2 (split; [names|]). split.
    + repeat (apply Forall_cons || apply Forall_nil); split; cbn [fst snd]; try lia; try exact I.
      * right. exists "Toon"%string, "Index"%string. repeat split.
      * left. repeat split.
      * left. repeat split.
    + cbn. repeat constructor; cbn; intuition discriminate.
  - repeat constructor; cbn; try lia; try discriminate.
Qed.
Lemma stableZ f (x : Z) : stable f x. Proof. apply reread_Z. Qed.
Lemma stable3Z f (v : vec3 Z) : stable3 f v. Proof. repeat split; apply stableZ. Qed.
Example C16_ex_exact : exact_doc sample.
Proof.
  split; [intros s [= <-]; unfold exact_scene; repeat split; try apply stableZ; discriminate|]. split.
  - constructor; [|constructor]. unfold exact_material.
    repeat (split; [try (repeat split; apply stableZ); cbn; try lia; repeat split; discriminate|]).
    intros e [= <-]. repeat split. repeat constructor; intros; apply stableZ.
  - assert (K : forall o, In o (dObjects (tdDoc sample)) -> exact_object o); [|apply Forall_forall; exact K].
    intros o Ho. unfold exact_object.
    assert (E : exists vs fs ids, o = ob false vs fs ids /\ (fs = [] \/ fs = [tri 0]) /\ exact_ids ids (length vs)).
    { destruct Ho as [<-|[<-|[]]]; do 3 eexists; (split; [reflexivity|]); (split; [now auto|]); [right|now left].
      split; [repeat constructor; cbn; lia|]. split; [repeat constructor|].
      apply (perm_trans (l' := [0; 2; 1])); repeat constructor. }
    destruct E as (vs & fs & ids & -> & Hfs & Hids). cbn.
    split; [lia|]. do 2 (split; [reflexivity|]). split; [apply Forall_forall; intros; apply stable3Z|].
    split.
    { destruct Hfs as [->|Hfs]; [constructor|]. rewrite Hfs. constructor; [|constructor].
      repeat split; cbn; try lia; try (now right); apply Forall_forall; intros; try split; intros; apply stableZ || apply stable3Z. }
    split; [apply stableZ|]. split; [right; split; reflexivity|]. split; [left; split; reflexivity|].
    do 3 (split; [eexists; split; [reflexivity|apply stable3Z]|]). split; [intros; apply stable3Z|exact Hids].
Qed.
Example C16_run : parse_text (write_text sample) = Some (kept_doc sample).
Proof. vm_compute. reflexivity. Qed.
Example C16_run_ids : kept_ids [(7, 2); (5, 0); (9, 1)] 3 = [(7, 2); (9, 1); (5, 0)].
Proof. reflexivity. Qed.

(** ** What does not come back *)
Definition reloaded (d : text_doc Z) : document Z := match parse_text (write_text d) with Some d' => tdDoc d' | None => mkDocument [] [] end.
(** Vertex ids: vertex 0 is registered as 2, vertex 1 is not registered.  The unregistered vertex
    is written with the id i + 1 = 2, and afterwards id 2 means vertex 1. *)
Theorem C16_vertex_ids_refuted : exists d : text_doc Z, text_domain d /\
  map (fun o => get_vertex_index_by_id o 2) (dObjects (tdDoc d)) = [0] /\
  map (fun o => get_vertex_index_by_id o 2) (dObjects (reloaded d)) = [1].
Proof.
  exists (mkTD None None (mkDocument [] [ob false (firstn 2 v3s) [] [(2, 0)]])). split; [|split; vm_compute; reflexivity].
  repeat constructor; try discriminate; cbn; try lia; try discriminate.
Qed.
Print Assumptions C16_vertex_ids_refuted.
(** The lock of an object: written as [locking], for which the reader has no case. *)
Theorem C16_lock_refuted : exists d : text_doc Z, text_domain d /\
  map (@oLocked Z) (dObjects (tdDoc d)) = [true] /\ map (@oLocked Z) (dObjects (reloaded d)) = [false].
Proof.
  exists (mkTD None None (mkDocument [] [ob true v3s [] []])). split; [|split; vm_compute; reflexivity].
  repeat constructor; try discriminate; cbn; try lia; try discriminate.
Qed.
Print Assumptions C16_lock_refuted.
(** Materials: the emission colour is not written; a colour parameter is written as an [int] and
    read as 0, the rest of its text is taken for further parameters. *)
Theorem C16_material_refuted : exists d : text_doc Z,
  map (@mtEmissionColor Z) (dMaterials (tdDoc d)) = [Some (mkV3 1 2 3)] /\
  map (@mtEmissionColor Z) (dMaterials (reloaded d)) = [None].
Proof. exists (doc1 (mt (Some (mkV3 1 2 3)) (PBool true)) []). split; vm_compute; reflexivity. Qed.
Print Assumptions C16_material_refuted.
Theorem C16_color_param_refuted : exists d : text_doc Z,
  map (fun m => option_map (fun e => map snd (exParams e)) (mtEx2 m)) (dMaterials (tdDoc d)) =
    [Some [PInt 2; PFloat (-4); PColor [1; 2; 3]]] /\
  ~ In (PColor [1; 2; 3]) (flat_map (fun m => match mtEx2 m with Some e => map snd (exParams e) | None => [] end) (dMaterials (reloaded d))).
Proof.
  exists (doc1 (mt None (PColor [1; 2; 3])) []). split; [vm_compute; reflexivity|]. vm_compute. intuition discriminate.
Qed.
Print Assumptions C16_color_param_refuted.
