(** C98: every sound FBX document is converted. *)
From Coq Require Import String Ascii List ZArith Bool Lia.
From Verif.Model Require Import Num Vec Matrix Mqo MqoDoc FbxDoc Fbx2Mqo.
From Verif.Spec Require Import FbxSceneSpec FbxMeshSpec.
From Verif.Proofs Require Import FbxSceneTotal.
Import ListNotations.
Local Open Scope string_scope.
Local Open Scope list_scope.
Local Open Scope Z_scope.

(** With any options: the conversion ends (after recursion to the depth of the models) without a crash. *)
Theorem C98_total_partial : forall (T : Type) (N : Num T) tenth facet (d : fdoc T) depth n, sound_doc d depth n -> forall full, (n <= full)%nat ->
  forall op base objs, exists st mats, convert_fbx tenth facet d full op objs base = FOk (st, mats).
Proof. exact @fbx_total. Qed.
Print Assumptions C98_total_partial.

(** A body bound to a hand that is below an arm. *)
Definition C98_model (n k : string) : fobj Z := OModel (mkFM (binary_name n) k mat_id (mkV3 0 0 0)).
Definition C98_none {A} : layer A := mkLayer "" "" [] [].
Definition C98_geom (mats : layer unit) (uvs : layer (vec2 Z)) (ss : list (fshape Z)) : fobj Z := OGeom (mkFG "g" "Mesh" [mkV3 0 0 0; mkV3 1 0 0; mkV3 0 1 0] [0; 1; -3] [] mats C98_none uvs ss).
Definition C98_doc (mats : layer unit) (uvs : layer (vec2 Z)) (ss : list (fshape Z)) (bone : nat) : fdoc Z :=
  mkFD (nth_error [C98_model "Scene" ""; C98_model "body" "Mesh"; C98_model "arm" "LimbNode"; C98_model "hand" "LimbNode"; C98_geom mats uvs ss; ODef (mkFDef "Skin" [] [] mat_id); ODef (mkFDef "Cluster" [1; 1] [0; 2] mat_id)])
       (fun _ => []) [(1, 0); (2, 0); (3, 2); (4, 1); (5, 4); (6, 5); (bone, 6)]%nat 0%nat [] (Some mat_id).
Definition C98_op : foption Z := mkFOpt false false false 0 None "" None.
Definition C98_depth (o : nat) : nat := nth o [0; 1; 1; 2]%nat 0%nat.
Definition C98_mats : layer unit := mkLayer "ByPolygon" "IndexToDirect" [] [0].
Definition C98_uvs : layer (vec2 Z) := mkLayer "ByPolygonVertex" "IndexToDirect" [mkV2 0 0; mkV2 1 0] [0; 1; 0].
Example C98_meets : sound_doc (C98_doc C98_mats C98_uvs [mkFShape "s" [mkV3 1 1 1] [2]] 3) C98_depth 3.
Proof.
  split.
  - split; [reflexivity|intros I; cbn in I; intuition discriminate| | |intros o k []].
    + cbn. repeat constructor; cbn; intuition discriminate.
    + intros c p I. cbn in I. repeat (destruct I as [I|I]; [injection I as <- <-; reflexivity|]). destruct I.
  - intros o M. do 7 (destruct o as [|o]; [cbn; lia|]). unfold is_model in M. cbn in M. now destruct o.
  - discriminate.
  - intros o k g G. assert (O : o = 1%nat) by (do 7 (destruct o as [|o]; [try reflexivity; discriminate G|]); discriminate G). subst o. injection G as <- <-. split; [|repeat constructor; lia].
    split; [cbn; repeat constructor; lia|]. intros _ _. cbn. repeat constructor; lia.
  - intros o F. do 7 (destruct o as [|o]; [try reflexivity; discriminate F|]). discriminate F.
Qed.
Example C98_example : exists st mats, convert_fbx 0 0 (C98_doc C98_mats C98_uvs [mkFShape "s" [mkV3 1 1 1] [2]] 3) 3 C98_op [] 0 = FOk (st, mats) /\ map (@oName Z) (fsObjs st) = ["body"; "s"] /\ length (fsBones st) = 2%nat.
Proof. eexists. eexists. split; [vm_compute; reflexivity|]. split; reflexivity. Qed.

(** Refuted: an index -1, as files have it for polygons without a material and for corners without texture coordinates, and as a vertex of a shape, crashes. *)
Theorem C98_index_refuted :
  (exists mats, lIndexes mats = [-1] /\ forall n, convert_fbx 0 0 (C98_doc mats C98_uvs [] 3) (S (S (S n))) C98_op [] 0 = FCrash) /\
  (exists uvs, lIndexes uvs = [0; 1; -1] /\ forall n, convert_fbx 0 0 (C98_doc C98_mats uvs [] 3) (S (S (S n))) C98_op [] 0 = FCrash) /\
  (exists uvs, lIndexes uvs = [0; 1; 2] /\ length (lValues uvs) = 2%nat /\ forall n, convert_fbx 0 0 (C98_doc C98_mats uvs [] 3) (S (S (S n))) C98_op [] 0 = FCrash) /\
  (exists s, shIndexes s = [-1] /\ forall n, convert_fbx 0 0 (C98_doc C98_mats C98_uvs [s] 3) (S (S (S n))) C98_op [] 0 = FCrash).
Proof.
  split; [exists (mkLayer "ByPolygon" "IndexToDirect" [] [-1]); split; [reflexivity|]; intro n; vm_compute; reflexivity|].
  split; [exists (mkLayer "ByPolygonVertex" "IndexToDirect" [mkV2 0 0; mkV2 1 0] [0; 1; -1]); split; [reflexivity|]; intro n; vm_compute; reflexivity|].
  split; [exists (mkLayer "ByPolygonVertex" "IndexToDirect" [mkV2 0 0; mkV2 1 0] [0; 1; 2]); split; [reflexivity|]; split; [reflexivity|]; intro n; vm_compute; reflexivity|].
  exists (mkFShape "s" [mkV3 1 1 1] [-1]). split; [reflexivity|]. intro n; vm_compute; reflexivity.
Qed.
Print Assumptions C98_index_refuted.
(** Refuted: a deformer that is bound to the scene crashes. *)
Theorem C98_bind_refuted : forall n, convert_fbx 0 0 (C98_doc C98_mats C98_uvs [] 0) (S (S (S n))) C98_op [] 0 = FCrash.
Proof. intro n. vm_compute. reflexivity. Qed.
Print Assumptions C98_bind_refuted.
(** Refuted: axes other than 0, 1, 2 (and 3) crash. *)
Theorem C98_axis_refuted : forall (T : Type) (N : Num T) tenth facet (d : fdoc T) ca ua fa cs us fs n op objs base, fdCoord d = coord_matrix ca ua fa cs us fs -> ca < 0 \/ 4 <= ca ->
  convert_fbx tenth facet d n op objs base = FCrash.
Proof.
  intros T N tenth facet d ca ua fa cs us fs n op objs base E C. unfold convert_fbx. rewrite E. unfold coord_matrix. cbv zeta.
  replace ((0 <=? ca * 4) && (ca * 4 <? 16)) with false; [reflexivity|]. symmetry. apply andb_false_iff. destruct C; [left; apply Z.leb_gt; lia|right; apply Z.ltb_ge; lia].
Qed.
Print Assumptions C98_axis_refuted.
(** Refuted: two models that are connected in a circle are searched without end. *)
Definition C98_circle : fdoc Z := mkFD (nth_error [C98_model "Scene" ""; C98_model "a" "Null"; C98_model "b" "Null"]) (fun _ => []) [(1, 0); (2, 1); (1, 2)]%nat 0%nat [] (Some mat_id).
Theorem C98_circle_refuted : forall n, convert_fbx 0 0 C98_circle n C98_op [] 0 = FEndless.
Proof.
  assert (X : forall n, has_geometry C98_circle n 1 = FEndless /\ has_geometry C98_circle n 2 = FEndless).
  { induction n as [|n [A B]]; [split; reflexivity|]. cbn [has_geometry]. change (geometry C98_circle 1) with (@None (nat * fgeom Z)). change (geometry C98_circle 2) with (@None (nat * fgeom Z)).
    change (children C98_circle 1) with [2%nat]. change (children C98_circle 2) with [1%nat]. cbn [any_of]. rewrite A, B. now split. }
  intro n. unfold convert_fbx. change (fdCoord C98_circle) with (Some (@mat_id Z _)). cbn [fopt fbind opTarget C98_op String.eqb negb]. change (children C98_circle (fdScene C98_circle)) with [1%nat]. cbn [ffold opWhole].
  change (String.eqb (kind C98_circle 1) "LimbNode") with false. cbn [negb]. now rewrite (proj1 (X n)).
Qed.
Print Assumptions C98_circle_refuted.
