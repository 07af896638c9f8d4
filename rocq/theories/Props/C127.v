(** C127: an FBX document saved as glTF shows the polygons of the document. *)
From Coq Require Import String List ZArith Bool Lia Permutation QArith Reals Lra.
From Verif.Model Require Import Num NumR Vec Matrix Mqo MqoDoc MqoTransform Gltf Mqo2Gltf FbxDoc Fbx2Mqo.
From Verif Require Import Spec.Surface Spec.Mqo2MmdSpec Spec.TransformSpec Spec.FbxSceneSpec Spec.FbxMeshSpec Spec.GltfSpec Spec.DrawnSpec Spec.SceneDrawnSpec Proofs.TransformProofs Proofs.DrawnFbx Props.C97.
From Verif Require Props.C126.
Import ListNotations.
Local Open Scope Z_scope.

(** Full statement: the glTF document of an FBX document draws every polygon of the models that are converted.
    Proved if all polygons have vertices that exist and a material of the model that is not to be left out, and no morph target has the name of a model (see below).
    Then the triangles of the document are pieces of polygons, and the pieces of each polygon are its dissection along diagonals into n - 2 triangles, the front still in front.
    Corners are at the places given by the matrices of the model, the axes of the document and what moves the objects in between;
    texture coordinates (up to [eps]) and normals are those of the layers if these are full; the glTF material has the name and the colour of the material of the polygon. *)
Theorem C127_drawn_partial : forall (tenth facet : R) (d : fdoc R) op depth fuel st mats, opTarget op = ""%string -> opOverride op = None -> in_place op -> tree_doc d depth -> NoDup (fdMats d) ->
  convert_fbx tenth facet d fuel op [] 0 = FOk (st, mats) ->
  forall (move turn : vec3 R -> vec3 R) (dd : document R), Forall2 (moved_object move turn) (fsObjs st) (dObjects dd) -> dMaterials dd = mats ->
  forall (scale centi eps : R) ign unlit opaque99 rough tex_alpha bones sets g, to_gltf scale centi eps ign unlit opaque99 rough tex_alpha dd bones sets = Some g ->
  NoDup (map bID bones) -> Forall (fun o => Z.of_nat (length (lists_of o bones)) <= 65536) (dObjects dd) ->
  (forall o k h, shown d op o -> geometry d o = Some (k, h) -> indexed h) ->
  (forall o k h i poly, shown d op o -> geometry d o = Some (k, h) -> nth_error (polygons h) i = Some poly -> exists mo, painted d o h i mo) ->
  (forall mo, In mo (fdMats d) -> ~ left_out (mtName (convert_material tenth d mo))) ->
  (forall o s, shown d op o -> In s sets -> ~ In (object_name (name d o)) (tlTargets s)) ->
  exists coord l, fdCoord d = Some coord /\ Forall2 (shows_piece scale eps tenth unlit move turn d coord (gdMats g)) l (drawn g) /\ Forall (fun q => shown d op (fst (fst q))) l /\
    forall o k h i poly, shown d op o -> geometry d o = Some (k, h) -> nth_error (polygons h) i = Some poly ->
      length (pieces_of o i l) = (length poly - 2)%nat /\ ((3 <= length poly)%nat -> dissects (seq 0 (length poly)) (pieces_of o i l)).
Proof. exact fbx_drawn. Qed.
Print Assumptions C127_drawn_partial.

(** The export succeeds: it does not fail for any polygon, texture coordinate or normal. *)
Theorem C127_exported : forall (tenth facet : R) (d : fdoc R) op depth fuel st mats, opTarget op = ""%string -> opOverride op = None -> in_place op -> tree_doc d depth -> NoDup (fdMats d) ->
  convert_fbx tenth facet d fuel op [] 0 = FOk (st, mats) ->
  forall (move turn : vec3 R -> vec3 R) (dd : document R), Forall2 (moved_object move turn) (fsObjs st) (dObjects dd) ->
  forall (scale centi eps : R) ign unlit opaque99 rough tex_alpha,
  (forall o k h, shown d op o -> geometry d o = Some (k, h) -> indexed h) ->
  forall bones sets, 0 <= opDepth op -> Forall (fun b => 0 < bParent b -> In (bParent b) (map bID bones)) bones ->
  (forall o l e, In o (dObjects dd) -> In l (lists_of o bones) -> In e l -> 0 <= get_vertex_index_by_id o (fst e) < Z.of_nat (length (oVerts o))) ->
  (forall o names t, In o (dObjects dd) -> targets_of sets (oName o) names -> In t names -> In t (map (@oName R) (dObjects dd))) ->
  to_gltf scale centi eps ign unlit opaque99 rough tex_alpha dd bones sets <> None.
Proof. exact fbx_exported. Qed.
Print Assumptions C127_exported.

(** With the document transformed in between, as the command does: corners are at [m] times the place in the FBX document, and normals are turned by the inverse transposed matrix. *)
Theorem C127_transformed_partial : forall (tenth facet : R) (d : fdoc R) op depth fuel st mats, opTarget op = ""%string -> opOverride op = None -> in_place op -> tree_doc d depth -> NoDup (fdMats d) ->
  convert_fbx tenth facet d fuel op [] 0 = FOk (st, mats) ->
  forall m dm dm' (scale centi eps : R) ign unlit opaque99 rough tex_alpha sets g, mdObjects dm = fsObjs st -> transform_doc m dm = Some dm' ->
  to_gltf scale centi eps ign unlit opaque99 rough tex_alpha (mkDocument mats (mdObjects dm')) (mdBones dm') sets = Some g ->
  NoDup (map bID (mdBones dm')) -> Forall (fun o => Z.of_nat (length (lists_of o (mdBones dm'))) <= 65536) (mdObjects dm') ->
  (forall o k h, shown d op o -> geometry d o = Some (k, h) -> indexed h) ->
  (forall o k h i poly, shown d op o -> geometry d o = Some (k, h) -> nth_error (polygons h) i = Some poly -> exists mo, painted d o h i mo) ->
  (forall mo, In mo (fdMats d) -> ~ left_out (mtName (convert_material tenth d mo))) ->
  (forall o s, shown d op o -> In s sets -> ~ In (object_name (name d o)) (tlTargets s)) ->
  exists coord l, fdCoord d = Some coord /\ Forall2 (shows_piece scale eps tenth unlit (mat_apply m) (mat_apply (normal_transform m)) d coord (gdMats g)) l (drawn g) /\ Forall (fun q => shown d op (fst (fst q))) l /\
    forall o k h i poly, shown d op o -> geometry d o = Some (k, h) -> nth_error (polygons h) i = Some poly ->
      length (pieces_of o i l) = (length poly - 2)%nat /\ ((3 <= length poly)%nat -> dissects (seq 0 (length poly)) (pieces_of o i l)).
Proof.
  intros tenth facet d op depth fuel st mats OT OO IP TD ND EC m dm dm' scale centi eps ign unlit opaque99 rough tex_alpha sets g EO ET EG NDB FEW IX PT LO NM.
  destruct (TransformProofs.transform_doc_objects m dm dm' ET) as (L & _ & _ & _ & X).
  apply (C127_drawn_partial tenth facet d op depth fuel st mats OT OO IP TD ND EC (mat_apply m) (mat_apply (normal_transform m)) (mkDocument mats (mdObjects dm'))) with (5 := FEW) (3 := EG); try assumption; [|reflexivity].
  rewrite <- EO. cbn [dObjects]. clear - L X. revert L X. generalize (mdObjects dm) as a, (mdObjects dm') as b. induction a as [|o a IH]; intros [|o' b] L X; try discriminate; constructor.
  - destruct (X 0%nat o eq_refl) as (x & [= <-] & Hx). apply C126.transformed. exact Hx.
  - apply IH; [cbn in L; lia|]. intros i y Hy. exact (X (S i) y Hy).
Qed.
Print Assumptions C127_transformed_partial.

(** The document of C97 over the reals, a triangle and a square with two materials, texture coordinates and normals, meets all conditions, and so the three triangles of these are drawn. *)
Definition C127_doc : fdoc R := C97_doc R RNum (mat_scale 1 2 1)%R [5; 4]%nat (C97_geom C97_bypoly C97_up C97_uv).
Lemma moved_same (os : list (object R)) : Forall2 (moved_object (fun v => v) (fun n => n)) os os.
Proof.
  induction os as [|o os IH]; [constructor|]. constructor; [|exact IH]. repeat split; [symmetry; apply map_id|]. rewrite <- (map_id (oFaces o)) at 1. apply map_ext. intros f. destruct f as [u vs m uvs ns]. cbn [fUID fVerts fMaterial fUVs fNormals].
  f_equal. rewrite <- (map_id ns) at 1. apply map_ext. intros n. destruct n; reflexivity.
Qed.
Lemma C127_geometry o k h : geometry C127_doc o = Some (k, h) -> o = 2%nat /\ k = 3%nat /\ h = C97_geom C97_bypoly C97_up C97_uv.
Proof. intros G. assert (O : o = 2%nat) by (do 6 (destruct o as [|o]; [try reflexivity; discriminate G|]); discriminate G). subst o. injection G as <- <-. auto. Qed.
Example C127_meets : exists st mats g l, convert_fbx 0%R 0%R C127_doc 3 (C97_op R) [] 0 = FOk (st, mats) /\
  to_gltf 1%R 1%R 1%R false false 0%R 0%R (fun _ => false) (mkDocument mats (fsObjs st)) [] [] = Some g /\
  Forall2 (shows_piece 1%R 1%R 0%R false (fun v => v) (fun n => n) C127_doc mat_id (gdMats g)) l (drawn g) /\ length (pieces_of 2 0 l) = 1%nat /\ length (pieces_of 2 1 l) = 2%nat.
Proof.
  destruct (C97_runs R RNum 0%R (mat_scale 1 2 1)%R) as (st & mats & EC). fold C127_doc in EC. exists st, mats.
  assert (TD : tree_doc C127_doc C97_depth) by apply C97_tree.
  assert (ND : NoDup (fdMats C127_doc)) by (repeat constructor; cbn; intuition discriminate).
  assert (IX : forall o k h, shown C127_doc (C97_op R) o -> geometry C127_doc o = Some (k, h) -> indexed h).
  { intros o k h _ G. apply C127_geometry in G as (_ & _ & ->). unfold indexed. cbn. repeat constructor; lia. }
  destruct (to_gltf 1%R 1%R 1%R false false 0%R 0%R (fun _ => false) (mkDocument mats (fsObjs st)) [] []) as [g|] eqn:EG.
  2: { exfalso. revert EG. apply (C127_exported 0%R 0%R C127_doc (C97_op R) C97_depth 3 st mats eq_refl eq_refl (or_intror eq_refl) TD ND EC (fun v => v) (fun n => n) (mkDocument mats (fsObjs st)) (moved_same _)); [exact IX|cbn; lia|constructor|intros o l e _ []|].
       intros o names t _ (a & ? & ? & C & _). destruct a; discriminate. }
  exists g.
  assert (S2 : shown C127_doc (C97_op R) 2).
  { apply sh_below with 1%nat; [apply sh_top|..]; [now left|right; split; [reflexivity|]|now left|now right]. apply hm_below with 2%nat; [now left|apply hm_here; discriminate]. }
  destruct (C127_drawn_partial 0%R 0%R C127_doc (C97_op R) C97_depth 3 st mats eq_refl eq_refl (or_intror eq_refl) TD ND EC (fun v => v) (fun n => n) (mkDocument mats (fsObjs st)) (moved_same _) eq_refl 1%R 1%R 1%R false false 0%R 0%R (fun _ => false) [] [] g EG) as (coord & l & CO & F & _ & X).
  - constructor.
  - apply Forall_forall. intros o _. cbn. lia.
  - exact IX.
  - intros o k h i poly _ G P. apply C127_geometry in G as (-> & -> & ->). destruct C97_meets as (_ & _ & FM & _).
    destruct i as [|[|i]]; [| |destruct i; discriminate]; [exists 4%nat|exists 5%nat]; (split; [exact FM|]); [exists 1|exists 0]; repeat split; cbn; auto.
  - intros mo [<-|[<-|[]]] [(a & H)|(b & H)]; cbn in H; try discriminate; repeat (destruct a as [|? a]; [discriminate H|]; cbn [String.append] in H; injection H as _ H); destruct a; discriminate.
  - intros o s _ [].
  - exists l. split; [exact EC|]. split; [reflexivity|]. injection CO as <-. split; [exact F|].
    split; [apply (X 2%nat 3%nat (C97_geom C97_bypoly C97_up C97_uv) 0%nat [0; 1; 2] S2 eq_refl eq_refl)|apply (X 2%nat 3%nat (C97_geom C97_bypoly C97_up C97_uv) 1%nat [0; 1; 2; 3] S2 eq_refl eq_refl)].
Qed.
(** In numbers, without normals: the model is moved by (1, 0, 5), the glTF document is twice as large. *)
Definition C127_run (d : fdoc Z) (sets : list target_list) : option (gdoc Z) :=
  match convert_fbx 0 0 d 3 (C97_op Z) [] 0 with
  | FOk (st, mats) => to_gltf 2 1 0 false true 0 0 (fun _ => false) (mkDocument mats (fsObjs st)) [] (map (fun e => mkTL (fst e) (snd e)) (fsMorphs st) ++ sets)
  | _ => None
  end.
Definition C127_places (g : gdoc Z) : list (option Z * list (option (vec3 Z))) := map (fun t => (fst t, map gcPos [fst (fst (snd t)); snd (fst (snd t)); snd (snd t)])) (drawn g).
Example C127_example : option_map C127_places (C127_run (C97_doc Z ZNum (mat_translate 0 0 5) [5; 4]%nat (C97_geom C97_bypoly C97_layer C97_uv)) []) =
  let a := Some (mkV3 2 0 10) in let b := Some (mkV3 4 0 10) in let c := Some (mkV3 4 2 10) in let e := Some (mkV3 2 2 10) in
  Some [(Some 0, [a; b; c]); (Some 1, [e; a; b]); (Some 1, [e; b; c])].
Proof. vm_compute. reflexivity. Qed.

(** Refuted: a document without materials draws nothing at all: its faces have material 0, which does not exist, and faces without material are left out (converter/mqo2gltf.go:610-614, fbx2mqo.go:228-236).
    FBX models without material are drawn in a default colour, and glTF has a default material as well. *)
Theorem C127_bare_refuted : exists d : fdoc Z, fdMats d = [] /\ shown d (C97_op Z) 2 /\ (exists k h, geometry d 2 = Some (k, h) /\ length (polygons h) = 2%nat /\ indexed h) /\
  option_map (@drawn Z) (C127_run d []) = Some [].
Proof.
  exists (let d := C97_doc Z ZNum mat_id [] (C97_geom C97_layer C97_layer C97_layer) in mkFD (fdObjs d) (fdHeld d) (fdConns d) (fdScene d) [] (fdCoord d)).
  split; [reflexivity|]. split; [|split; [|vm_compute; reflexivity]].
  - apply sh_below with 1%nat; [apply sh_top|..]; [now left|right; split; [reflexivity|]|now left|now right]. apply hm_below with 2%nat; [now left|apply hm_here; discriminate].
  - exists 3%nat. eexists. split; [reflexivity|]. split; [reflexivity|]. unfold indexed. cbn. repeat constructor; lia.
Qed.
Print Assumptions C127_bare_refuted.
(** Refuted: a shape with the name of its model takes the model out of the glTF document: objects are morph targets by name (converter/mqo2gltf.go:747-766). With another name of the shape the three triangles are drawn. *)
Definition C127_shaped (n : string) : fdoc Z :=
  C97_doc Z ZNum mat_id [5; 4]%nat (let g := C97_geom C97_bypoly C97_layer C97_uv in mkFG (gName g) (gKind g) (gVerts g) (gIndex g) [] (gMats g) (gNormals g) (gUVs g) [mkFShape n [mkV3 0 0 1] [2]]).
Theorem C127_name_refuted : let d := C127_shaped "b" in fdMats d = [4; 5]%nat /\ shown d (C97_op Z) 2 /\
  (exists k h s, geometry d 2 = Some (k, h) /\ length (polygons h) = 2%nat /\ gShapes h = [s] /\ shName s = object_name (name d 2)) /\
  option_map (@drawn Z) (C127_run d []) = Some [] /\ option_map (fun g => length (drawn g)) (C127_run (C127_shaped "c") []) = Some 3%nat.
Proof.
  cbv zeta. split; [reflexivity|]. split; [|split; [|split; vm_compute; reflexivity]].
  - apply sh_below with 1%nat; [apply sh_top|..]; [now left|right; split; [reflexivity|]|now left|now right]. apply hm_below with 2%nat; [now left|apply hm_here; discriminate].
  - exists 3%nat. eexists. eexists. split; [reflexivity|]. repeat split; reflexivity.
Qed.
Print Assumptions C127_name_refuted.
