(** C96: the objects of a converted FBX document are the models with their tree. *)
From Coq Require Import String Ascii List ZArith Bool Lia.
From Verif.Model Require Import Num Vec Matrix Mqo FbxDoc Fbx2Mqo.
From Verif.Spec Require Import GltfSpec FbxSceneSpec.
From Verif.Proofs Require Import FbxObjects.
Import ListNotations.
Local Open Scope string_scope.
Local Open Scope list_scope.
Local Open Scope Z_scope.

(** Every object that is added is a model or a shape of a model, with its name, under its parent (or at the top for models of the scene), numbered by its position.
    The models are those of [shown]: models of the scene that have a mesh and what is below them, except bones. *)
Theorem C96_tree_partial : forall (T : Type) (N : Num T) tenth facet (d : fdoc T) op base fuel objs st mats, opTarget op = "" -> convert_fbx tenth facet d fuel op objs base = FOk (st, mats) ->
  exists vs os, let L := flat_map (labels d op) vs in fsObjs st = objs ++ os /\ Forall2 (shows d op) L os /\
    map (@oUID T) os = map Z.of_nat (seq (S (length objs)) (length os)) /\
    (forall i l, nth_error L i = Some l ->
       (exists c, l = ([c], None) /\ In c (children d (fdScene d)) /\ tree_root (map (@oDepth T) os) i) \/
       (exists j q, nth_error L j = Some (q, None) /\ tree_parent (map (@oDepth T) os) i j /\ below d op l q)) /\
    (forall o, In o (map (fun p => last p 0%nat) vs) <-> shown d op o) /\
    (forall depth, tree_doc d depth -> NoDup (map (fun p => last p 0%nat) vs)).
Proof. exact @fbx_tree. Qed.
Print Assumptions C96_tree_partial.
Theorem C96_binary_names_partial : forall n, plain n -> prefix "Model:" n = false -> object_name (binary_name n) = n.
Proof. exact binary_shown. Qed.
Print Assumptions C96_binary_names_partial.
Theorem C96_text_names_partial : forall n, plain n -> (forall m, n <> m ++ "::Model")%string -> object_name (text_name n) = n.
Proof. exact text_shown. Qed.
Print Assumptions C96_text_names_partial.

(** A body with a hand and a shape, a light, and a bone that holds a sword. *)
Definition C96_model (n k : string) : fobj Z := OModel (mkFM (binary_name n) k mat_id (mkV3 0 0 0)).
Definition C96_none {A} : layer A := mkLayer "" "" [] [].
Definition C96_geom (k : string) : fobj Z := OGeom (mkFG "g" k [mkV3 0 0 0; mkV3 1 0 0; mkV3 0 1 0] [0; 1; -3] [] C96_none C96_none C96_none [mkFShape "smile" [mkV3 0 0 5] [2]]).
Definition C96_objs (o : nat) : option (fobj Z) :=
  nth_error [C96_model "Scene" ""; C96_model "body" "Mesh"; C96_model "hand" "Null"; C96_model "light" "Light"; C96_model "root" "LimbNode"; C96_model "sword" "Mesh"; C96_geom "Mesh"; C96_geom "Mesh"] o.
Definition C96_doc : fdoc Z := mkFD C96_objs (fun _ => []) [(2, 1); (6, 1); (1, 0); (3, 0); (4, 0); (5, 4); (7, 5)]%nat 0%nat [] (Some mat_id).
Definition C96_op (whole : bool) : foption Z := mkFOpt false false whole 0 None "" None.
Definition C96_depth (o : nat) : nat := nth o [0; 1; 2; 1; 1; 2]%nat 0%nat.
Example C96_meets : tree_doc C96_doc C96_depth.
Proof.
  split; [reflexivity|intros I; cbn in I; intuition discriminate| | |intros o k []].
  - cbn. repeat constructor; cbn; intuition discriminate.
  - intros c p I. cbn in I. repeat (destruct I as [I|I]; [injection I as <- <-; reflexivity|]). destruct I.
Qed.
Example C96_example : exists st, convert_fbx 0 0 C96_doc 4 (C96_op false) [] 0 = FOk (st, []) /\ map (fun o => (oName o, oDepth o)) (fsObjs st) = [("body", 0); ("smile", 1); ("hand", 1)].
Proof. eexists. split; vm_compute; reflexivity. Qed.
Example C96_example_whole : exists st, convert_fbx 0 0 C96_doc 4 (C96_op true) [] 0 = FOk (st, []) /\
  map (fun o => (oName o, oDepth o)) (fsObjs st) = [("body", 0); ("smile", 1); ("hand", 1); ("light", 0); ("root", 0); ("sword", 1); ("smile", 2)].
Proof. eexists. split; vm_compute; reflexivity. Qed.
Example C96_names_example : object_name (binary_name "left::arm") = "left::arm" /\ object_name (text_name "a:b") = "a:b" /\ object_name (binary_name "Model") = "Model".
Proof. vm_compute. auto. Qed.

(** Refuted: a mesh below a bone is lost. *)
Theorem C96_limb_refuted : exists (d : fdoc Z) depth o k g st, tree_doc d depth /\ In o (children d 4%nat) /\ In 4%nat (children d (fdScene d)) /\ kind d o = "Mesh" /\ geometry d o = Some (k, g) /\ gVerts g <> [] /\
  convert_fbx 0 0 d 4 (C96_op false) [] 0 = FOk (st, []) /\ ~ In (object_name (name d o)) (map (@oName Z) (fsObjs st)).
Proof. exists C96_doc, C96_depth, 5%nat. do 3 eexists. split; [exact C96_meets|]. split; [vm_compute; now left|]. split; [vm_compute; tauto|]. split; [reflexivity|]. split; [vm_compute; reflexivity|]. split; [discriminate|]. split; [vm_compute; reflexivity|]. vm_compute. intuition discriminate. Qed.
Print Assumptions C96_limb_refuted.
(** Refuted: names that look like a type are cut. *)
Theorem C96_names_refuted : object_name (binary_name "Model::a") = "a" /\ object_name (text_name "a::Model") = "a".
Proof. split; reflexivity. Qed.
Print Assumptions C96_names_refuted.
