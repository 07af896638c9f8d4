(** C97: meshes of a converted FBX document look as in the document. *)
From Coq Require Import String Ascii List ZArith QArith Bool Lia Reals Lra.
From Verif.Model Require Import Num NumR Vec Matrix Mqo MqoDoc FbxDoc Fbx2Mqo.
From Verif.Spec Require Import GeomSpec FbxSceneSpec FbxMeshSpec.
From Verif.Proofs Require Import FbxFaces FbxPlace FbxSceneTotal FbxShort.
Import ListNotations.
Local Open Scope string_scope.
Local Open Scope list_scope.
Local Open Scope Z_scope.

(** The mesh of each model is placed by the matrix of the model in the world and the axes of the document.  There is a face for each polygon, with the vertices in reverse order, and with texture
    coordinates (from the top), normals and the material of the polygon if these layers are full. *)
Theorem C97_mesh_partial : forall tenth facet (d : fdoc R) op depth fuel objs old st mats, opTarget op = "" -> opOverride op = None -> in_place op -> tree_doc d depth -> NoDup (fdMats d) ->
  convert_fbx tenth facet d fuel op objs (length old) = FOk (st, mats) ->
  exists coord vs os, fdCoord d = Some coord /\ fsObjs st = objs ++ os /\ (forall o, In o (map (fun p => last p 0%nat) vs) <-> shown d op o) /\
    Forall2 (fun l x => shows d op l x /\ (snd l = None -> meshed (convert_material tenth d) d coord (old ++ mats) (model_of l) x)) (flat_map (labels d op) vs) os.
Proof. exact fbx_meshes. Qed.
Print Assumptions C97_mesh_partial.
(** The faces alone, for numbers of any kind. *)
Theorem C97_faces_partial : forall (T : Type) (N : Num T) (g : fgeom T) nt mats fs, convert_faces g nt mats (length (polygons g)) 0 0 (polygons g) = FOk fs -> drawn_all g mats nt fs.
Proof. exact @faces_drawn. Qed.
Print Assumptions C97_faces_partial.
(** Layers with too few values, or with another mapping, are left out as a whole: no face has normals or texture coordinates of them, and all faces have the first material. *)
Theorem C97_short : forall (T : Type) (N : Num T) (g : fgeom T) nt mats fs, convert_faces g nt mats (length (polygons g)) 0 0 (polygons g) = FOk fs ->
  (lMapping (gNormals g) = "ByControlPoint" /\ (length (lValues (gNormals g)) < length (gVerts g))%nat \/
   lMapping (gNormals g) <> "ByControlPoint" /\ lMapping (gNormals g) <> "ByPolygonVertex" -> Forall (fun f => fNormals f = []) fs) /\
  (lMapping (gUVs g) <> "ByPolygonVertex" \/ lReference (gUVs g) = "IndexToDirect" /\ (length (lIndexes (gUVs g)) < length (gIndex g))%nat \/
   lReference (gUVs g) <> "IndexToDirect" /\ (length (lValues (gUVs g)) < length (gIndex g))%nat -> Forall (fun f => fUVs f = []) fs) /\
  (lMapping (gMats g) = "ByPolygon" /\ (length (lIndexes (gMats g)) < length (polygons g))%nat \/ lIndexes (gMats g) = [] \/
   lMapping (gMats g) <> "ByPolygon" /\ lMapping (gMats g) <> "AllSame" -> Forall (fun f => fMaterial f = hd 0 mats) fs).
Proof.
  intros T N g nt mats fs H. split; [|split]; intro S.
  - exact (short_normals g nt mats _ _ _ S H).
  - exact (short_uvs g nt mats _ _ _ S H).
  - exact (short_materials g nt mats _ _ S H).
Qed.
Print Assumptions C97_short.
(** A normal that points to the side from which the vertices of a triangle turn left still does if the matrix does not mirror. *)
Theorem C97_side_partial : forall m (a b c : vec3 R) k, affine m -> mat_det m <> 0%R -> (0 < k)%R -> v3cross (v3sub b a) (v3sub c a) <> mkV3 0%R 0%R 0%R ->
  let n := v3scale (v3cross (v3sub b a) (v3sub c a)) k in
  (0 < mat_det m <-> 0 < v3dot (mat_apply (normal_transform m) n) (v3cross (v3sub (mat_apply m b) (mat_apply m a)) (v3sub (mat_apply m c) (mat_apply m a))))%R.
Proof. exact side_moved. Qed.
Print Assumptions C97_side_partial.

(** A model with two materials below one that is moved; the geometry has a triangle and a square. *)
Definition C97_doc (T : Type) (N : Num T) (local : mat4 T) (mats : list nat) (g : fgeom T) : fdoc T :=
  mkFD (nth_error [OModel (mkFM (binary_name "Scene") "" mat_id (mkV3 nzero nzero nzero)); OModel (mkFM (binary_name "a") "Null" (mat_translate none nzero nzero) (mkV3 nzero nzero nzero));
                   OModel (mkFM (binary_name "b") "Mesh" local (mkV3 nzero nzero nzero)); OGeom g; OMat (mkFMat "red" (fun _ => [])); OMat (mkFMat "blue" (fun _ => []))])
       (fun _ => []) ([(1, 0); (2, 1); (3, 2)] ++ map (fun m => (m, 2)) mats)%nat 0%nat [4; 5]%nat (Some mat_id).
Definition C97_layer {A} : layer A := mkLayer "" "" [] [].
Definition C97_verts {T} {N : Num T} : list (vec3 T) := [mkV3 nzero nzero nzero; mkV3 none nzero nzero; mkV3 none none nzero; mkV3 nzero none nzero].
Definition C97_geom {T} {N : Num T} (mats : layer unit) (norms : layer (vec3 T)) (uvs : layer (vec2 T)) : fgeom T := mkFG "g" "Mesh" C97_verts [0; 1; -3; 0; 1; 2; -4] [] mats norms uvs [].
Definition C97_op (T : Type) : foption T := mkFOpt false false false 0 None "" None.
Definition C97_depth (o : nat) : nat := match o with 1 => 1 | 2 => 2 | _ => 0 end%nat.
Lemma C97_tree T (N : Num T) local g : tree_doc (C97_doc T N local [5; 4]%nat g) C97_depth.
Proof.
  split; [reflexivity|intros I; cbn in I; intuition discriminate| | |intros o k []].
  - cbn. repeat constructor; cbn; intuition discriminate.
  - intros c p I. cbn in I. repeat (destruct I as [I|I]; [injection I as <- <-; reflexivity|]). destruct I.
Qed.
Definition C97_uv {T} {N : Num T} : layer (vec2 T) := mkLayer "ByPolygonVertex" "IndexToDirect" [mkV2 nzero nzero; mkV2 none nzero] [0; 1; 1; 0; 1; 0; 1].
Definition C97_bypoly : layer unit := mkLayer "ByPolygon" "IndexToDirect" [] [1; 0].
Definition C97_up {T} {N : Num T} : layer (vec3 T) := mkLayer "ByControlPoint" "Direct" (repeat (mkV3 nzero nzero none) 4) [].
Lemma C97_runs T (N : Num T) z local : exists st mats, convert_fbx z z (C97_doc T N local [5; 4]%nat (C97_geom C97_bypoly C97_up C97_uv)) 3 (C97_op T) [] 0 = FOk (st, mats).
Proof.
  apply fbx_total with (depth := C97_depth) (n := 3%nat); [|lia]. split.
  - apply C97_tree.
  - intros o M. do 6 (destruct o as [|o]; [cbn; lia|]). unfold is_model in M. cbn in M. now destruct o.
  - discriminate.
  - intros o k g G. assert (O : o = 2%nat) by (do 6 (destruct o as [|o]; [try reflexivity; discriminate G|]); discriminate G). subst o. injection G as <- <-. split; [|constructor].
    split; [cbn; repeat constructor; lia|]. intros _ _. cbn. repeat constructor; lia.
  - intros o F. do 6 (destruct o as [|o]; [try reflexivity; discriminate F|]). discriminate F.
Qed.
Example C97_meets : let g : fgeom R := C97_geom C97_bypoly C97_up C97_uv in full_uvs g /\ full_normals g /\ full_materials g /\
  exists st mats, convert_fbx 0%R 0%R (C97_doc R RNum (mat_scale 1 2 1)%R [5; 4]%nat g) 3 (C97_op R) [] 0 = FOk (st, mats).
Proof.
  cbv zeta. split; [|split; [|split]].
  - split; [reflexivity|]. split; [now right|]. intros i c v C. do 7 (destruct c as [|c]; [discriminate|]). cbn in C. lia.
  - split; [reflexivity|]. right. split; [reflexivity|]. split.
    + intros i c v V. cbn in V. assert (E : v = 0 \/ v = 1 \/ v = 2 \/ v = 3) by lia. destruct E as [->|[->|[->| ->]]]; discriminate.
    + cbn. repeat constructor; lia.
  - left. split; [reflexivity|]. intros i c v I. do 2 (destruct i as [|i]; [discriminate|]). cbn in I. lia.
  - apply C97_runs.
Qed.
(** The same without normals. *)
Example C97_example : exists st mats, convert_fbx 0 0 (C97_doc Z ZNum (mat_translate 0 0 5) [5; 4]%nat (C97_geom C97_bypoly C97_layer C97_uv)) 3 (C97_op Z) [] 0 = FOk (st, mats) /\
  map (@mtName Z) mats = ["red"; "blue"] /\
  map (fun o => (oVerts o, map (fun f => (fVerts f, fMaterial f, map (@v2x Z) (fUVs f), map (@v2y Z) (fUVs f))) (oFaces o))) (fsObjs st) =
   [([], []); ([mkV3 1 0 5; mkV3 2 0 5; mkV3 2 1 5; mkV3 1 1 5], [([2; 1; 0], 0, [1; 1; 0], [1; 1; 1]); ([3; 2; 1; 0], 1, [1; 0; 1; 0], [1; 1; 1; 1])])].
Proof. eexists. eexists. split; [vm_compute; reflexivity|]. split; vm_compute; reflexivity. Qed.

(** Refuted: texture coordinates by vertex are dropped. *)
Definition C97_faces_of (T : Type) (N : Num T) (z : T) local ms g : option (list (face T)) :=
  match convert_fbx z z (C97_doc T N local ms g) 3 (C97_op T) [] 0 with FOk (st, _) => match fsObjs st with [_; o] => Some (oFaces o) | _ => None end | _ => None end.
Theorem C97_uv_refuted : exists g : fgeom Z, lMapping (gUVs g) = "ByVertice" /\ (forall i c v, 0 <= v < 4 -> layer_value (gUVs g) i c v = Some (mkV2 v 0)) /\
  option_map (map (@fUVs Z)) (C97_faces_of Z ZNum 0 mat_id [] g) = Some [[]; []].
Proof.
  exists (C97_geom C97_layer C97_layer (mkLayer "ByVertice" "Direct" [mkV2 0 0; mkV2 1 0; mkV2 2 0; mkV2 3 0] [])). split; [reflexivity|]. split; [|vm_compute; reflexivity].
  intros i c v V. assert (E : v = 0 \/ v = 1 \/ v = 2 \/ v = 3) by lia. destruct E as [->|[->|[->| ->]]]; reflexivity.
Qed.
Print Assumptions C97_uv_refuted.
(** Refuted: normals with indexes are read without them, and the usual name of the mapping by vertex is not known. *)
Definition C97_indexed : layer (vec3 Q) := mkLayer "ByPolygonVertex" "IndexToDirect" [mkV3 0 0 1; mkV3 1 0 0]%Q [1; 1; 1; 1; 1; 1; 1].
Theorem C97_normal_refuted : exists g : fgeom Q, (forall i c v, (c < 7)%nat -> layer_value (gNormals g) i c v = Some (mkV3 1 0 0)%Q) /\
  option_map (map (@fNormals Q)) (C97_faces_of Q QNum 0%Q mat_id [] g) = Some [[Some (mkV3 1 0 0)%Q; Some (mkV3 0 0 1)%Q]; []].
Proof.
  exists (C97_geom C97_layer C97_indexed C97_layer). split; [|vm_compute; reflexivity]. intros i c v C. do 7 (destruct c as [|c]; [reflexivity|]). lia.
Qed.
Print Assumptions C97_normal_refuted.
Theorem C97_byvertice_refuted : exists g : fgeom Q, lMapping (gNormals g) = "ByVertice" /\ (forall i c v, 0 <= v < 4 -> layer_value (gNormals g) i c v = Some (mkV3 0 0 1)%Q) /\
  option_map (map (@fNormals Q)) (C97_faces_of Q QNum 0%Q mat_id [] g) = Some [[]; []].
Proof.
  exists (C97_geom C97_layer (mkLayer "ByVertice" "Direct" (repeat (mkV3 0 0 1)%Q 4) []) C97_layer). split; [reflexivity|]. split; [|vm_compute; reflexivity].
  intros i c v V. assert (E : v = 0 \/ v = 1 \/ v = 2 \/ v = 3) by lia. destruct E as [->|[->|[->| ->]]]; reflexivity.
Qed.
Print Assumptions C97_byvertice_refuted.
(** Refuted: a model without materials gets the first material of the document. *)
Theorem C97_bare_refuted : exists d : fdoc Z, (forall j, own_material d 2 j = None) /\ exists st m1 m2, convert_fbx 0 0 d 3 (C97_op Z) [] 0 = FOk (st, [m1; m2]) /\
  flat_map (fun o => map (@fMaterial Z) (oFaces o)) (fsObjs st) = [0; 0].
Proof.
  exists (C97_doc Z ZNum mat_id [] (C97_geom C97_bypoly C97_layer C97_layer)). split; [intro j; unfold own_material, zidx; cbn; destruct (j <? 0); [reflexivity|]; now destruct (Z.to_nat j)|].
  do 3 eexists. split; vm_compute; reflexivity.
Qed.
Print Assumptions C97_bare_refuted.
(** Refuted: a model that is mirrored is turned inside out: its normals point to the other side of its faces. *)
Definition C97_facing (os : list (object Q)) : list (list (option Q)) :=
  flat_map (fun o => map (fun f => match map (zidx (oVerts o)) (fVerts f) with
                                   | Some c :: Some b :: Some a :: _ => map (option_map (fun n => Qred (v3dot n (v3cross (v3sub b c) (v3sub a c))))) (fNormals f)
                                   | _ => [] end) (oFaces o)) os.
Definition C97_of (local : mat4 Q) : option (list (list (option Q))) :=
  match convert_fbx 0%Q 0%Q (C97_doc Q QNum local [] (C97_geom C97_layer C97_up C97_layer)) 3 (C97_op Q) [] 0 with FOk (st, _) => Some (C97_facing (fsObjs st)) | _ => None end.
Theorem C97_mirror_refuted : C97_of mat_id = Some [[Some (-1)%Q; Some (-1)%Q; Some (-1)%Q]; [Some (-1)%Q; Some (-1)%Q; Some (-1)%Q; Some (-1)%Q]] /\
  C97_of (mat_scale (-1) 1 1)%Q = Some [[Some 1%Q; Some 1%Q; Some 1%Q]; [Some 1%Q; Some 1%Q; Some 1%Q; Some 1%Q]].
Proof. split; vm_compute; reflexivity. Qed.
Print Assumptions C97_mirror_refuted.

(** Layers with three values for four vertices, six for seven corners and one for two polygons are left out. *)
Example C97_short_example : C97_faces_of Z ZNum 0 mat_id [4; 5]%nat (C97_geom (mkLayer "ByPolygon" "IndexToDirect" [] [1]) (mkLayer "ByControlPoint" "Direct" (repeat (mkV3 0 0 1) 3) [])
    (mkLayer "ByPolygonVertex" "IndexToDirect" [mkV2 0 0; mkV2 1 0] [0; 1; 1; 0; 1; 0])) =
  Some [mkFace 0 [2; 1; 0] 0 [] []; mkFace 0 [3; 2; 1; 0] 0 [] []].
Proof. vm_compute. reflexivity. Qed.
