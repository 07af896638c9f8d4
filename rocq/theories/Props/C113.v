(** C113: the mesh of an object of a Unity scene is the model that it names, in the place and the materials of the object. *)
From Coq Require Import String Ascii List ZArith Bool Lia Reals.
From Verif.Model Require Import Num NumR Vec Matrix Mqo MqoDoc Mmd2Mqo FbxDoc UnityProject Fbx2Mqo UnityImport.
From Verif.Spec Require Import GeomSpec FbxSceneSpec FbxMeshSpec UnityImportSpec.
From Verif.Proofs Require Import UnityImportProofs.
Import ListNotations.
Local Open Scope string_scope.
Local Open Scope list_scope.
Local Open Scope Z_scope.

(** No matter what was imported before, a mesh is imported as if it were the first. *)
Theorem C113_memory : forall (T : Type) (N : Num T) tenth facet hundredth (as_ : assets T) fuel l i a, Forall (fun q => mrGUID (rqRef q) <> "") l -> nth_error (import_all tenth facet hundredth as_ fuel no_memory l) i = Some a ->
  exists q, nth_error l i = Some q /\ import_all tenth facet hundredth as_ fuel no_memory [q] = [a].
Proof. exact @import_memory. Qed.
Print Assumptions C113_memory.
(** If the files are sound, all imports come to an end, and those of .fbx files that can be read give something. *)
Theorem C113_total_partial : forall (T : Type) (N : Num T) tenth facet hundredth (as_ : assets T) (depth : string -> nat -> nat) n fuel,
  (forall path d, asRead as_ path = Some d -> sound_doc (fst d) (depth path) n) -> (n <= fuel)%nat -> forall l, Forall (fun q => mrGUID (rqRef q) <> "") l ->
  Forall2 (fun q r => exists a, r = FOk a /\
    (a <> None <-> exists path table d, asPath as_ (mrGUID (rqRef q)) = Some path /\ asMeta as_ (mrGUID (rqRef q)) = Some table /\ trim_suffix ".fbx" path <> None /\ asRead as_ path = Some d)) l (import_all tenth facet hundredth as_ fuel no_memory l).
Proof. exact @import_all_total. Qed.
Print Assumptions C113_total_partial.
(** If the meta file has a name for the number, then the objects stand for the first model with this name and for what is below it; if there is no such model, there are no objects. *)
Theorem C113_named_partial : forall (T : Type) (N : Num T) tenth facet hundredth (as_ : assets T) fuel l i q a, Forall (fun q => mrGUID (rqRef q) <> "") l -> nth_error l i = Some q -> nth_error (import_all tenth facet hundredth as_ fuel no_memory l) i = Some (FOk (Some a)) -> 0 <= rqDepth q ->
  exists path table d, asPath as_ (mrGUID (rqRef q)) = Some path /\ asMeta as_ (mrGUID (rqRef q)) = Some table /\ asRead as_ path = Some d /\
    forall n, recycle_name table (mrFile (rqRef q)) = n -> n <> "" -> named_models (fst d) -> exists coord, fdCoord (fst d) = Some coord /\
     ((not_named (fst d) n /\ adObjs a = []) \/
      exists o vs, first_named (fst d) n o /\ walk (fst d) false [] o vs /\
        Forall2 (fun lb x => stands (fst d) (rqDepth q) (place_below (fst d) (import_place (fst d) coord (rqTr q) (nmul (snd d) hundredth)) (fst lb)) (rqMats q) lb x) (flat_map (labels (fst d) plain_op) vs) (adObjs a)).
Proof. exact @import_named. Qed.
Print Assumptions C113_named_partial.
(** Two imports with the same key are the same mesh in two places, so that it can be shared; the faces have the same materials if the objects have. *)
Theorem C113_copies_partial : forall tenth facet hundredth (as_ : assets R) fuel l i j (q1 q2 : request R) a1 a2 k, Forall (fun q => mrGUID (rqRef q) <> "") l -> nth_error l i = Some q1 -> nth_error l j = Some q2 -> 0 <= rqDepth q1 -> 0 <= rqDepth q2 ->
  String.length (mrGUID (rqRef q1)) = String.length (mrGUID (rqRef q2)) ->
  (forall path d coord, asRead as_ path = Some d -> fdCoord (fst d) = Some coord -> affine coord) ->
  nth_error (import_all tenth facet hundredth as_ fuel no_memory l) i = Some (FOk (Some a1)) -> nth_error (import_all tenth facet hundredth as_ fuel no_memory l) j = Some (FOk (Some a2)) -> adKey a1 = Some k -> adKey a2 = Some k ->
  rqRef q1 = rqRef q2 /\ exists x1 x2, adObjs a1 = [x1] /\ adObjs a2 = [x2] /\ oInternal x1 = Some (rqTr q1) /\ oInternal x2 = Some (rqTr q2) /\
    (exists pts, oVerts x1 = map (mat_apply (rqTr q1)) pts /\ oVerts x2 = map (mat_apply (rqTr q2)) pts) /\
    Forall2 (fun f1 f2 => fVerts f1 = fVerts f2 /\ fUVs f1 = fUVs f2 /\ (rqMats q1 = rqMats q2 -> rqMats q1 <> [] -> fMaterial f1 = fMaterial f2)) (oFaces x1) (oFaces x2).
Proof. exact import_copies. Qed.
Print Assumptions C113_copies_partial.

(** A file with a box and its lid, and a lamp whose polygons all have the second material; a file with a face that has a shape; a file in text form. *)
Section W.
Context {T : Type} {N : Num T}.
Definition C113_model (nm : string) : fobj T := OModel (mkFM nm "Mesh" mat_id (mkV3 nzero nzero nzero)).
Definition C113_none {A} : layer A := mkLayer "" "" [] [].
Definition C113_mats (l : list Z) : layer unit := mkLayer "ByPolygon" "IndexToDirect" [] l.
Definition C113_tri (m : list Z) (shapes : list (fshape T)) : fobj T :=
  OGeom (mkFG "g" "Mesh" [mkV3 nzero nzero nzero; mkV3 none nzero nzero; mkV3 nzero none nzero] [0; 1; -3; 2; 1; -1] [] (C113_mats m) C113_none C113_none shapes).
Definition C113_box : fdoc T :=
  mkFD (nth_error [C113_model (binary_name "Root"); C113_model (binary_name "box"); C113_model (binary_name "lid"); C113_model (binary_name "lamp"); C113_tri [1; 0] []; C113_tri [0; 0] []; C113_tri [1; 1] []])
       (fun _ => []) [(1, 0); (2, 1); (3, 0); (4, 1); (5, 2); (6, 3)]%nat 0%nat [] (Some mat_id).
Definition C113_face : fdoc T :=
  mkFD (nth_error [C113_model (binary_name "Root"); C113_model (binary_name "face"); C113_tri [0; 0] [mkFShape "smile" [mkV3 nzero nzero none] [2]]])
       (fun _ => []) [(1, 0); (2, 1)]%nat 0%nat [] (Some mat_id).
Definition C113_text : fdoc T :=
  mkFD (nth_error [C113_model (text_name "Root"); C113_model (text_name "box"); C113_tri [0; 0] []]) (fun _ => []) [(1, 0); (2, 1)]%nat 0%nat [] (Some mat_id).
(** One bone, named differently, and a mesh that is bound to it. *)
Definition C113_skin (bone : string) : fdoc T :=
  mkFD (nth_error [C113_model (binary_name "Root"); C113_model (binary_name "body"); C113_tri [0; 0] []; OModel (mkFM bone "LimbNode" mat_id (mkV3 nzero nzero nzero)); ODef (mkFDef "Skin" [] [] mat_id); ODef (mkFDef "Cluster" [none] [0] mat_id)])
       (fun _ => []) [(1, 0); (2, 1); (3, 0); (4, 2); (5, 4); (3, 5)]%nat 0%nat [] (Some mat_id).
Definition C113_assets : assets T :=
  mkAssets (fun g => match g with "a1" => Some "box.fbx" | "b2" => Some "face.fbx" | "c3" => Some "text.fbx" | "d4" => Some "BOX.FBX" | "e5" => Some "hero.fbx" | "f6" => Some "imp.fbx" | "a" => Some "hero.fbx" | "" => Some "none.fbx" | _ => None end)
           (fun g => match g with "a1" => Some [(10, "box"); (20, "lid"); (30, "lamp")] | "b2" => Some [(10, "face")] | "c3" => Some [(10, "box")] | "d4" => Some [(10, "box")] | "e5" | "f6" => Some [] | "a" => Some [(130, "body")] | "" => Some [] | _ => None end)
           (fun p => match p with "box.fbx" | "BOX.FBX" => Some (C113_box, none) | "face.fbx" => Some (C113_face, none) | "text.fbx" => Some (C113_text, none) | "hero.fbx" => Some (C113_skin "arm", none) | "imp.fbx" => Some (C113_skin "tail", none) | _ => None end).
Definition C113_req (id : Z) (guid : string) (mats : list Z) (depth : Z) (tr : mat4 T) : request T := mkReq (mkMRef id guid) mats depth tr [] 0.
Definition C113_run (l : list (request T)) : list (fres (option (added T))) := import_all none none none C113_assets 4 no_memory l.
Definition C113_see {A} (f : added T -> A) (r : fres (option (added T))) : option A := match r with FOk (Some a) => Some (f a) | _ => None end.
End W.
Definition C113_names (a : added Z) : list (string * Z * bool) := map (fun x => (oName x, oDepth x, oVisible x)) (adObjs a).
Example C113_meets : (forall path d coord, asRead (C113_assets (T := R)) path = Some d -> fdCoord (fst d) = Some coord -> affine coord) /\ named_models (C113_box (T := R)) /\
  exists a1 a2, nth_error (C113_run [C113_req 30 "a1" [7] 0 (mat_scale 2 2 2)%R; C113_req 10 "b2" [7] 0 mat_id; C113_req 30 "a1" [8] 3 (mat_translate 1 2 3)%R]) 0 = Some (FOk (Some a1)) /\
    nth_error (C113_run [C113_req 30 "a1" [7] 0 (mat_scale 2 2 2)%R; C113_req 10 "b2" [7] 0 mat_id; C113_req 30 "a1" [8] 3 (mat_translate 1 2 3)%R]) 2 = Some (FOk (Some a2)) /\ adKey a1 = Some "a130" /\ adKey a2 = Some "a130".
Proof.
  split; [|split].
  - intros path d coord H E. unfold C113_assets in H. cbn [asRead] in H. repeat (match type of H with context [match ?x with _ => _ end] => destruct x; try discriminate end); injection H as <-; cbn in E; injection E as <-; repeat split.
  - cbn. repeat constructor; eexists; (split; [|reflexivity]); unfold plain; cbn; intuition discriminate.
  - eexists. eexists. split; [cbn [C113_run import_all nth_error]; lazy; reflexivity|]. split; [lazy; reflexivity|]. split; reflexivity.
Qed.
Example C113_sound : sound_doc (C113_box (T := Z)) (fun o => nth o [0; 1; 2; 1]%nat 0%nat) 3.
Proof.
  split.
  - split; [reflexivity|intros I; cbn in I; intuition discriminate| | |intros o k []].
    + cbn. repeat constructor; cbn; intuition discriminate.
    + intros c p I. cbn in I. repeat (destruct I as [I|I]; [injection I as <- <-; reflexivity|]). destruct I.
  - intros o M. do 4 (destruct o as [|o]; [cbn; lia|]). cbn. destruct o; lia.
  - discriminate.
  - intros o k g G. do 4 (destruct o as [|o]; [try discriminate G; injection G as <- <-; (split; [split; [cbn; repeat constructor; lia|intros _ _; constructor]|constructor])|]). do 4 (destruct o as [|o]; [discriminate G|]). discriminate G.
  - intros o F. do 7 (destruct o as [|o]; [try reflexivity; discriminate F|]). discriminate F.
Qed.
(** The box with its lid, one deeper than the object, moved to it and turned, with the materials of the object in the order of their use. *)
Example C113_example : map (C113_see (fun a => map (fun x => (oName x, oDepth x, oVerts x, map (@fMaterial Z) (oFaces x))) (adObjs a))) (C113_run [C113_req 30 "a1" [5; 6] 0 mat_id; C113_req 10 "a1" [5; 6] 2 (mat_translate 10 0 0)]) =
  [Some [("lamp", 1, [mkV3 0 0 0; mkV3 (-1) 0 0; mkV3 0 1 0], [5; 5])];
   Some [("box", 3, [mkV3 10 0 0; mkV3 9 0 0; mkV3 10 1 0], [5; 6]); ("lid", 4, [mkV3 10 0 0; mkV3 9 0 0; mkV3 10 1 0], [0; 0])]].
Proof. vm_compute. reflexivity. Qed.

(** Refuted: if the meta file has no name for the number (meta files of later versions have no table), everything in the file is imported. *)
Theorem C113_unnamed_refuted : exists (as_ : assets Z) d path q, asPath as_ (mrGUID (rqRef q)) = Some path /\ asMeta as_ (mrGUID (rqRef q)) = Some [] /\ asRead as_ path = Some (d, 1) /\ d = C113_box /\
  map (C113_see C113_names) (import_all 1 1 1 as_ 4 no_memory [q]) = [Some [("box", 1, true); ("lid", 2, true); ("lamp", 1, true)]].
Proof. exists (mkAssets (fun _ => Some "box.fbx") (fun _ => Some []) (fun _ => Some (C113_box, 1))), C113_box, "box.fbx", (C113_req 30 "a1" [5] 0 mat_id). repeat split. Qed.
Print Assumptions C113_unnamed_refuted.
(** Refuted: a model below another one is not found, and there is no error. *)
Theorem C113_nested_refuted : exists q : request Z, recycle_name [(10, "box"); (20, "lid"); (30, "lamp")] (mrFile (rqRef q)) = "lid" /\ asMeta (C113_assets (T := Z)) (mrGUID (rqRef q)) = Some [(10, "box"); (20, "lid"); (30, "lamp")] /\
  asRead (C113_assets (T := Z)) "box.fbx" = Some (C113_box, 1) /\ In 2%nat (children (C113_box (T := Z)) 1) /\ name (C113_box (T := Z)) 2 = binary_name "lid" /\ geometry (C113_box (T := Z)) 2 <> None /\
  C113_run [q] = [FOk (Some (mkAdded [] None [] []))].
Proof. exists (C113_req 20 "a1" [5] 0 mat_id). repeat split; try discriminate. vm_compute. now left. Qed.
Print Assumptions C113_nested_refuted.
(** Refuted: in files in text form no model is found. *)
Theorem C113_text_refuted : exists q : request Z, rqRef q = mkMRef 10 "c3" /\ asMeta (C113_assets (T := Z)) "c3" = Some [(10, "box")] /\ asPath (C113_assets (T := Z)) "c3" = Some "text.fbx" /\ asRead (C113_assets (T := Z)) "text.fbx" = Some (C113_text, 1) /\
  map (object_name) (map (name (C113_text (T := Z))) (children (C113_text (T := Z)) 0)) = ["box"] /\ C113_run [q] = [FOk (Some (mkAdded [] None [] []))].
Proof. exists (C113_req 10 "c3" [5] 0 mat_id). repeat split. Qed.
Print Assumptions C113_text_refuted.
(** Refuted: a file whose suffix is written in capital letters is not read. *)
Theorem C113_suffix_refuted : exists q : request Z, asPath (C113_assets (T := Z)) (mrGUID (rqRef q)) = Some "BOX.FBX" /\ asRead (C113_assets (T := Z)) "BOX.FBX" = Some (C113_box, 1) /\ C113_run [q] = [FOk None].
Proof. exists (C113_req 10 "d4" [5] 0 mat_id). repeat split. Qed.
Print Assumptions C113_suffix_refuted.
(** Refuted: the lamp has one material, the second of its file; its polygons do not get the one of the object but the first of the document. *)
Theorem C113_material_refuted : exists (q : request Z) k g, rqMats q = [7] /\ geometry (C113_box (T := Z)) 3 = Some (k, g) /\ lIndexes (gMats g) = [1; 1] /\
  map (C113_see (fun a => map (fun x => (oName x, map (@fMaterial Z) (oFaces x))) (adObjs a))) (C113_run [q]) = [Some [("lamp", [0; 0])]].
Proof. exists (C113_req 30 "a1" [7] 0 mat_id). do 2 eexists. split; [reflexivity|]. split; [reflexivity|]. split; reflexivity. Qed.
Print Assumptions C113_material_refuted.
(** Refuted: the polygons of models below have materials that are not those of the object, but the first of the document. *)
Theorem C113_below_refuted : exists q : request Z, rqMats q = [5; 6] /\ map (C113_see (fun a => map (fun x => (oName x, map (@fMaterial Z) (oFaces x))) (adObjs a))) (C113_run [q]) = [Some [("box", [5; 6]); ("lid", [0; 0])]].
Proof. exists (C113_req 10 "a1" [5; 6] 0 mat_id). split; vm_compute; reflexivity. Qed.
Print Assumptions C113_below_refuted.
(** Refuted: objects of shapes are hidden, but are shown with the object of the scene. *)
Theorem C113_shape_refuted : exists q : request Z, map (C113_see C113_names) (C113_run [q]) = [Some [("face", 1, true); ("smile", 2, false)]] /\
  map (C113_see (fun a => map (@oVisible Z) (shown_added true a))) (C113_run [q]) = [Some [true; true]].
Proof. exists (C113_req 10 "b2" [5] 0 mat_id). split; vm_compute; reflexivity. Qed.
Print Assumptions C113_shape_refuted.
(** Refuted: the bones of a file replace those of the file before. *)
Theorem C113_bones_refuted : exists (q1 q2 : request Z) a1 a2, C113_run [q1; q2] = [FOk (Some a1); FOk (Some a2)] /\ map (@bName Z) (with_bones [] a1) = ["arm"] /\ map (@bName Z) (with_bones (with_bones [] a1) a2) = ["tail"].
Proof. exists (C113_req 10 "e5" [5] 0 mat_id), (C113_req 10 "f6" [5] 0 mat_id). do 2 eexists. split; [vm_compute; reflexivity|]. split; reflexivity. Qed.
Print Assumptions C113_bones_refuted.
(** Refuted: objects that share a mesh but tell its materials apart differently have the same key. *)
Theorem C113_key_refuted : exists q1 q2 : request Z, map (C113_see (fun a => (adKey a, map (fun x => map (@fMaterial Z) (oFaces x)) (adObjs a)))) (import_all 1 1 1 (mkAssets (fun _ => Some "p.fbx") (fun _ => Some [(10, "face")])
    (fun _ => Some (mkFD (nth_error [C113_model (binary_name "Root"); C113_model (binary_name "face"); C113_tri [0; 1] []]) (fun _ => []) [(1, 0); (2, 1)]%nat 0%nat [] (Some mat_id), 1))) 4 no_memory [q1; q2]) =
  [Some (Some "b210", [[5; 5]]); Some (Some "b210", [[5; 6]])].
Proof. exists (C113_req 10 "b2" [5; 5] 0 mat_id), (C113_req 10 "b2" [5; 6] 0 mat_id). vm_compute. reflexivity. Qed.
Print Assumptions C113_key_refuted.
(** Refuted: identifiers of different lengths can give the same key to different meshes. *)
Theorem C113_collision_refuted : exists q1 q2 : request Z, rqRef q1 <> rqRef q2 /\ map (C113_see (fun a => (adKey a, map (@oName Z) (adObjs a)))) (C113_run [q1; q2]) = [Some (Some "a130", ["lamp"]); Some (Some "a130", ["body"])].
Proof. exists (C113_req 30 "a1" [5] 0 mat_id), (C113_req 130 "a" [5] 0 mat_id). split; [discriminate|]. vm_compute. reflexivity. Qed.
Print Assumptions C113_collision_refuted.
(** Refuted: an asset without identifier crashes the first import. *)
Theorem C113_empty_refuted : exists q : request Z, mrGUID (rqRef q) = "" /\ asPath (C113_assets (T := Z)) "" = Some "none.fbx" /\ C113_run [q] = [FCrash].
Proof. exists (C113_req 10 "" [5] 0 mat_id). repeat split. Qed.
Print Assumptions C113_empty_refuted.
