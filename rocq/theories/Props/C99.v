(** C99: blend shapes of an FBX document become morph targets. *)
From Coq Require Import String Ascii List ZArith Bool Lia Reals.
From Verif.Model Require Import Num NumR Vec Matrix Mqo MqoDoc FbxDoc Fbx2Mqo.
From Verif.Spec Require Import FbxSceneSpec FbxMeshSpec.
From Verif.Proofs Require Import FbxSceneTotal FbxShapes.
Import ListNotations.
Local Open Scope string_scope.
Local Open Scope list_scope.
Local Open Scope Z_scope.

(** After the object of a model follow hidden ones for its shapes, with the faces of the model and with vertices moved by the offsets of the shape in the space of the model; the morph set of
    the model lists their names. *)
Theorem C99_shapes_partial : forall tenth facet (d : fdoc R) op depth fuel base objs st mats, opTarget op = "" -> in_place op -> tree_doc d depth -> convert_fbx tenth facet d fuel op objs base = FOk (st, mats) ->
  exists coord vs oss, fdCoord d = Some coord /\ (forall o, In o (map (fun p => last p 0%nat) vs) <-> shown d op o) /\ fsObjs st = objs ++ concat oss /\ fsMorphs st = flat_map morph_of oss /\
    Forall2 (fun p os => exists b ts, os = b :: ts /\ Forall2 (target_of d coord (last p 0%nat) b) (shapes_at d op (last p 0%nat)) ts) vs oss.
Proof. exact fbx_shapes. Qed.
Print Assumptions C99_shapes_partial.

(** A face with two shapes, one in a channel of a deformer and one of its own, and a mouth with one. *)
Definition C99_none {A} : layer A := mkLayer "" "" [] [].
Definition C99_geom {T} {N : Num T} (k : string) (ss : list (fshape T)) : fobj T := OGeom (mkFG "g" k [mkV3 nzero nzero nzero; mkV3 none nzero nzero; mkV3 nzero none nzero] [0; 1; -3] [] C99_none C99_none C99_none ss).
Definition C99_model {T} {N : Num T} (n : string) (m : mat4 T) : fobj T := OModel (mkFM (binary_name n) "Mesh" m (mkV3 nzero nzero nzero)).
Definition C99_doc (T : Type) (N : Num T) (n1 n2 : string) : fdoc T :=
  mkFD (nth_error [C99_model "Scene" mat_id; C99_model "face" (mat_scale none (nadd none none) none); C99_model "mouth" mat_id; C99_geom "Mesh" [mkFShape "blink" [mkV3 none none none] [1]]; C99_geom "Mesh" [mkFShape n2 [] []];
                   ODef (mkFDef "BlendShape" [] [] mat_id); ODef (mkFDef "BlendShapeChannel" [] [] mat_id);
                   OGeom (mkFG n1 "Shape" [mkV3 nzero none nzero; mkV3 nzero nzero none] [] [2; 0] C99_none C99_none C99_none [])])
       (fun _ => []) [(1, 0); (2, 1); (3, 1); (4, 2); (5, 3); (6, 5); (7, 6)]%nat 0%nat [] (Some mat_id).
Definition C99_op (T : Type) : foption T := mkFOpt false false false 0 None "" None.
Definition C99_depth (o : nat) : nat := nth o [0; 1; 2]%nat 0%nat.
Lemma C99_tree T (N : Num T) n1 n2 : tree_doc (C99_doc T N n1 n2) C99_depth.
Proof.
  split; [reflexivity|intros I; cbn in I; intuition discriminate| | |intros o k []].
  - cbn. repeat constructor; cbn; intuition discriminate.
  - intros c p I. cbn in I. repeat (destruct I as [I|I]; [injection I as <- <-; reflexivity|]). destruct I.
Qed.
Example C99_meets : tree_doc (C99_doc R RNum "smile" "blink") C99_depth /\ exists st mats, convert_fbx 0%R 0%R (C99_doc R RNum "smile" "blink") 3 (C99_op R) [] 0 = FOk (st, mats).
Proof.
  split; [apply C99_tree|]. apply fbx_total with (depth := C99_depth) (n := 3%nat); [|lia]. split.
  - apply C99_tree.
  - intros o M. do 8 (destruct o as [|o]; [cbn; lia|]). unfold is_model in M. cbn in M. now destruct o.
  - discriminate.
  - intros o k g G. assert (O : o = 1%nat \/ o = 2%nat \/ o = 6%nat) by (do 8 (destruct o as [|o]; [try tauto; discriminate G|]); discriminate G).
    destruct O as [->|[->| ->]]; injection G as <- <-; (split; [split; [constructor|intros X; discriminate X]|]); cbn; repeat constructor; cbn; repeat constructor; lia.
  - intros o F. do 8 (destruct o as [|o]; [try reflexivity; discriminate F|]). discriminate F.
Qed.
Example C99_example : exists st, convert_fbx 0 0 (C99_doc Z ZNum "smile" "open") 3 (C99_op Z) [] 0 = FOk (st, []) /\ fsMorphs st = [("face", ["smile"; "blink"]); ("mouth", ["open"])] /\
  map (fun o => (oName o, oVisible o, oVerts o)) (fsObjs st) =
   [("face", true, [mkV3 0 0 0; mkV3 1 0 0; mkV3 0 2 0]); ("smile", false, [mkV3 0 0 1; mkV3 1 0 0; mkV3 0 4 0]); ("blink", false, [mkV3 0 0 0; mkV3 2 2 1; mkV3 0 2 0]);
    ("mouth", true, [mkV3 0 0 0; mkV3 1 0 0; mkV3 0 2 0]); ("open", false, [mkV3 0 0 0; mkV3 1 0 0; mkV3 0 2 0])].
Proof. eexists. split; [vm_compute; reflexivity|]. split; vm_compute; reflexivity. Qed.

(** Refuted: names of shapes keep the type that binary files add to them, while those of models do not. *)
Theorem C99_name_refuted : exists st, convert_fbx 0 0 (C99_doc Z ZNum ("smile" ++ String "000" (String "001" "Geometry")) "open") 3 (C99_op Z) [] 0 = FOk (st, []) /\
  fsMorphs st = [("face", ["smile::Geometry"; "blink"]); ("mouth", ["open"])].
Proof. eexists. split; [vm_compute; reflexivity|]. vm_compute. reflexivity. Qed.
Print Assumptions C99_name_refuted.
(** Refuted: shapes of two models with the same name give two objects of this name, of which the morph sets can only name one. *)
Theorem C99_same_refuted : exists st, convert_fbx 0 0 (C99_doc Z ZNum "smile" "smile") 3 (C99_op Z) [] 0 = FOk (st, []) /\ fsMorphs st = [("face", ["smile"; "blink"]); ("mouth", ["smile"])] /\
  exists a b, nth_error (fsObjs st) 1 = Some a /\ nth_error (fsObjs st) 4 = Some b /\ oName a = "smile" /\ oName b = "smile" /\ oVerts a <> oVerts b.
Proof. eexists. split; [vm_compute; reflexivity|]. split; [vm_compute; reflexivity|]. do 2 eexists. split; [reflexivity|]. split; [reflexivity|]. split; [reflexivity|]. split; [reflexivity|discriminate]. Qed.
Print Assumptions C99_same_refuted.
