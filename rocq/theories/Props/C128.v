(** C128: an FBX document saved as PMX shows the polygons of the document. *)
From Coq Require Import String List ZArith Bool Lia Permutation QArith Reals Lra.
From Verif.Model Require Import Num NumR Vec Matrix Mqo MqoDoc MqoTransform Mmd2Mqo Mqo2Mmd FbxDoc Fbx2Mqo.
From Verif Require Import Spec.Surface Spec.Mqo2MmdSpec Spec.TransformSpec Spec.FbxSceneSpec Spec.FbxMeshSpec Spec.DrawnSpec Spec.SceneDrawnSpec Spec.FbxPmxSpec Proofs.TransformProofs Proofs.FbxPmx Props.C97.
From Verif Require Props.C126 Props.C127.
Import ListNotations.
Local Open Scope Z_scope.

(** Full statement: the PMX model of an FBX document has every polygon of the models that are converted.
    Proved if all polygons have vertices that exist and a material of the model, and no morph target has the name of a model (see below).
    Then the faces of the model are pieces of polygons, and the pieces of each polygon are its dissection along diagonals into n - 2 triangles, the front still in front.
    Corners are at the places given by the matrices of the model, the axes of the document and what moves the objects in between, scaled and mirrored;
    texture coordinates are those of the layer if it is full; the PMX material has the name of the material of the polygon. *)
Theorem C128_drawn_partial : forall (tenth facet : R) (d : fdoc R) op depth fuel st mats, opTarget op = ""%string -> opOverride op = None -> in_place op -> tree_doc d depth -> NoDup (fdMats d) ->
  convert_fbx tenth facet d fuel op [] 0 = FOk (st, mats) ->
  forall (move turn : vec3 R -> vec3 R) (dd : document R), Forall2 (moved_object move turn) (fsObjs st) (dObjects dd) -> dMaterials dd = mats ->
  (forall o k h, shown d op o -> geometry d o = Some (k, h) -> indexed h) ->
  forall (scale centi : R) bones sets p, to_mmd scale centi dd bones sets = Some p ->
  (forall o k h i poly, shown d op o -> geometry d o = Some (k, h) -> nth_error (polygons h) i = Some poly -> exists mo, painted d o h i mo) ->
  (forall o s, shown d op o -> In s sets -> ~ In (object_name (name d o)) (tlTargets s)) ->
  exists coord l, fdCoord d = Some coord /\ length (face_owners (pMats p)) = length (pFaces p) /\
    Forall2 (is_piece scale tenth move d coord p) l (combine (face_owners (pMats p)) (pFaces p)) /\ Forall (fun q => shown d op (fst (fst q))) l /\
    forall o k h i poly, shown d op o -> geometry d o = Some (k, h) -> nth_error (polygons h) i = Some poly ->
      length (pieces_of o i l) = (length poly - 2)%nat /\ ((3 <= length poly)%nat -> dissects (seq 0 (length poly)) (pieces_of o i l)).
Proof. exact pmx_drawn. Qed.
Print Assumptions C128_drawn_partial.

(** The conversion to PMX succeeds. *)
Theorem C128_exported : forall (tenth facet : R) (d : fdoc R) op depth fuel st mats, opTarget op = ""%string -> opOverride op = None -> in_place op -> tree_doc d depth -> NoDup (fdMats d) ->
  convert_fbx tenth facet d fuel op [] 0 = FOk (st, mats) ->
  forall (move turn : vec3 R -> vec3 R) (dd : document R), Forall2 (moved_object move turn) (fsObjs st) (dObjects dd) ->
  (forall o k h, shown d op o -> geometry d o = Some (k, h) -> indexed h) ->
  forall (scale centi : R) bones sets, to_mmd scale centi dd bones sets <> None.
Proof. exact pmx_exported. Qed.
Print Assumptions C128_exported.

(** With the document transformed in between, as the command does: corners are at [m] times the place in the FBX document. *)
Theorem C128_transformed_partial : forall (tenth facet : R) (d : fdoc R) op depth fuel st mats, opTarget op = ""%string -> opOverride op = None -> in_place op -> tree_doc d depth -> NoDup (fdMats d) ->
  convert_fbx tenth facet d fuel op [] 0 = FOk (st, mats) ->
  (forall o k h, shown d op o -> geometry d o = Some (k, h) -> indexed h) ->
  forall m dm dm' (scale centi : R) sets p, mdObjects dm = fsObjs st -> transform_doc m dm = Some dm' ->
  to_mmd scale centi (mkDocument mats (mdObjects dm')) (mdBones dm') sets = Some p ->
  (forall o k h i poly, shown d op o -> geometry d o = Some (k, h) -> nth_error (polygons h) i = Some poly -> exists mo, painted d o h i mo) ->
  (forall o s, shown d op o -> In s sets -> ~ In (object_name (name d o)) (tlTargets s)) ->
  exists coord l, fdCoord d = Some coord /\ length (face_owners (pMats p)) = length (pFaces p) /\
    Forall2 (is_piece scale tenth (mat_apply m) d coord p) l (combine (face_owners (pMats p)) (pFaces p)) /\ Forall (fun q => shown d op (fst (fst q))) l /\
    forall o k h i poly, shown d op o -> geometry d o = Some (k, h) -> nth_error (polygons h) i = Some poly ->
      length (pieces_of o i l) = (length poly - 2)%nat /\ ((3 <= length poly)%nat -> dissects (seq 0 (length poly)) (pieces_of o i l)).
Proof.
  intros tenth facet d op depth fuel st mats OT OO IP TD ND EC IX m dm dm' scale centi sets p EO ET EP PT NM.
  destruct (TransformProofs.transform_doc_objects m dm dm' ET) as (L & _ & _ & _ & X).
  apply (C128_drawn_partial tenth facet d op depth fuel st mats OT OO IP TD ND EC (mat_apply m) (mat_apply (normal_transform m)) (mkDocument mats (mdObjects dm'))) with (4 := EP); try assumption; [|reflexivity].
  rewrite <- EO. cbn [dObjects]. clear - L X. revert L X. generalize (mdObjects dm) as a, (mdObjects dm') as b. induction a as [|o a IH]; intros [|o' b] L X; try discriminate; constructor.
  - destruct (X 0%nat o eq_refl) as (x & [= <-] & Hx). apply C126.transformed. exact Hx.
  - apply IH; [cbn in L; lia|]. intros i y Hy. exact (X (S i) y Hy).
Qed.
Print Assumptions C128_transformed_partial.

(** The document of C97 over the reals, a triangle and a square with two materials, texture coordinates and normals, meets all conditions. *)
Example C128_meets : exists st mats p l, convert_fbx 0%R 0%R C127.C127_doc 3 (C97_op R) [] 0 = FOk (st, mats) /\
  to_mmd 1%R 1%R (mkDocument mats (fsObjs st)) [] [] = Some p /\
  Forall2 (is_piece 1%R 0%R (fun v => v) C127.C127_doc mat_id p) l (combine (face_owners (pMats p)) (pFaces p)) /\ length (pieces_of 2 0 l) = 1%nat /\ length (pieces_of 2 1 l) = 2%nat.
Proof.
  destruct (C97_runs R RNum 0%R (mat_scale 1 2 1)%R) as (st & mats & EC). fold C127.C127_doc in EC. exists st, mats.
  assert (TD : tree_doc C127.C127_doc C97_depth) by apply C97_tree.
  assert (ND : NoDup (fdMats C127.C127_doc)) by (repeat constructor; cbn; intuition discriminate).
  assert (IX : forall o k h, shown C127.C127_doc (C97_op R) o -> geometry C127.C127_doc o = Some (k, h) -> indexed h).
  { intros o k h _ G. apply C127.C127_geometry in G as (_ & _ & ->). unfold indexed. cbn. repeat constructor; lia. }
  destruct (to_mmd 1%R 1%R (mkDocument mats (fsObjs st)) [] []) as [p|] eqn:EP.
  2: { exfalso. revert EP. apply (C128_exported 0%R 0%R C127.C127_doc (C97_op R) C97_depth 3 st mats eq_refl eq_refl (or_intror eq_refl) TD ND EC (fun v => v) (fun n => n) (mkDocument mats (fsObjs st)) (C127.moved_same _)); exact IX. }
  exists p.
  assert (S2 : shown C127.C127_doc (C97_op R) 2).
  { apply sh_below with 1%nat; [apply sh_top|..]; [now left|right; split; [reflexivity|]|now left|now right]. apply hm_below with 2%nat; [now left|apply hm_here; discriminate]. }
  destruct (C128_drawn_partial 0%R 0%R C127.C127_doc (C97_op R) C97_depth 3 st mats eq_refl eq_refl (or_intror eq_refl) TD ND EC (fun v => v) (fun n => n) (mkDocument mats (fsObjs st)) (C127.moved_same _) eq_refl IX 1%R 1%R [] [] p EP) as (coord & l & CO & _ & F & _ & X).
  - intros o k h i poly _ G P. apply C127.C127_geometry in G as (-> & -> & ->). destruct C97_meets as (_ & _ & FM & _).
    destruct i as [|[|i]]; [| |destruct i; discriminate]; [exists 4%nat|exists 5%nat]; (split; [exact FM|]); [exists 1|exists 0]; repeat split; cbn; auto.
  - intros o s _ [].
  - exists l. split; [exact EC|]. split; [reflexivity|]. injection CO as <-. split; [exact F|].
    split; [apply (X 2%nat 3%nat (C97_geom C97_bypoly C97_up C97_uv) 0%nat [0; 1; 2] S2 eq_refl eq_refl)|apply (X 2%nat 3%nat (C97_geom C97_bypoly C97_up C97_uv) 1%nat [0; 1; 2; 3] S2 eq_refl eq_refl)].
Qed.
(** In numbers: the model is moved by (1, 0, 5), the PMX model is twice as large and mirrored. *)
Definition C128_run (d : fdoc Z) (sets : list target_list) : option (pmodel Z) :=
  match convert_fbx 0 0 d 3 (C97_op Z) [] 0 with
  | FOk (st, mats) => to_mmd 2 1 (mkDocument mats (fsObjs st)) [] (map (fun e => mkTL (fst e) (snd e)) (fsMorphs st) ++ sets)
  | _ => None
  end.
Definition C128_places (p : pmodel Z) : list (nat * list (option (vec3 Z))) := map (fun t => (fst t, map (fun id => option_map (@pvPos Z) (zidx (pVerts p) id)) (snd t))) (combine (face_owners (pMats p)) (pFaces p)).
Example C128_example : option_map C128_places (C128_run (C97_doc Z ZNum (mat_translate 0 0 5) [5; 4]%nat (C97_geom C97_bypoly C97_layer C97_uv)) []) =
  let a := Some (mkV3 2 0 (-10)) in let b := Some (mkV3 4 0 (-10)) in let c := Some (mkV3 4 2 (-10)) in let e := Some (mkV3 2 2 (-10)) in
  Some [(0%nat, [c; b; a]); (1%nat, [e; c; b]); (1%nat, [e; b; a])].
Proof. vm_compute. reflexivity. Qed.

(** Refuted: a document without materials gives a PMX model without faces: each face belongs to a material there, and only the faces of the materials of the document are written (converter/mqo2mmd.go:57-75). *)
Theorem C128_bare_refuted : exists d : fdoc Z, fdMats d = [] /\ shown d (C97_op Z) 2 /\ (exists k h, geometry d 2 = Some (k, h) /\ length (polygons h) = 2%nat /\ indexed h) /\
  option_map (fun p => (pFaces p, pVerts p)) (C128_run d []) = Some ([], []).
Proof.
  exists (let d := C97_doc Z ZNum mat_id [] (C97_geom C97_layer C97_layer C97_layer) in mkFD (fdObjs d) (fdHeld d) (fdConns d) (fdScene d) [] (fdCoord d)).
  split; [reflexivity|]. split; [|split; [|vm_compute; reflexivity]].
  - apply sh_below with 1%nat; [apply sh_top|..]; [now left|right; split; [reflexivity|]|now left|now right]. apply hm_below with 2%nat; [now left|apply hm_here; discriminate].
  - exists 3%nat. eexists. split; [reflexivity|]. split; [reflexivity|]. unfold indexed. cbn. repeat constructor; lia.
Qed.
Print Assumptions C128_bare_refuted.
(** Refuted: a shape with the name of its model takes the model out of the PMX model as well. *)
Theorem C128_name_refuted : let d := C127.C127_shaped "b" in fdMats d = [4; 5]%nat /\ shown d (C97_op Z) 2 /\
  (exists k h s, geometry d 2 = Some (k, h) /\ length (polygons h) = 2%nat /\ gShapes h = [s] /\ shName s = object_name (name d 2)) /\
  option_map pFaces (C128_run d []) = Some [] /\ option_map (fun p => length (pFaces p)) (C128_run (C127.C127_shaped "c") []) = Some 3%nat.
Proof.
  cbv zeta. split; [reflexivity|]. split; [|split; [|split; vm_compute; reflexivity]].
  - apply sh_below with 1%nat; [apply sh_top|..]; [now left|right; split; [reflexivity|]|now left|now right]. apply hm_below with 2%nat; [now left|apply hm_here; discriminate].
  - exists 3%nat. eexists. eexists. split; [reflexivity|]. repeat split; reflexivity.
Qed.
Print Assumptions C128_name_refuted.
(** Refuted: a polygon that is not convex is divided outside of itself: the faces are the triangles at its first corner whatever its shape (converter/mqo2mmd.go:109-113, marked as a TODO there), and one of these two faces is turned over.
    The glTF document of the same polygon has triangles on the inside ([Triangulate] is used there). *)
Definition C128_arrow : fdoc Z :=
  C97_doc Z ZNum mat_id [5; 4]%nat (mkFG "g" "Mesh" [mkV3 2 1 0; mkV3 4 0 0; mkV3 2 4 0; mkV3 0 0 0] [0; 1; 2; -4] [] C97_bypoly C97_layer C97_layer []).
(** Twice the area in the plane of x and y, negative if the corners are listed clockwise. *)
Definition area2 (l : list (option (vec3 Z))) : option Z :=
  match l with [Some a; Some b; Some c] => Some ((vx b - vx a) * (vy c - vy a) - (vx c - vx a) * (vy b - vy a)) | _ => None end.
Theorem C128_concave_refuted : (exists k h, geometry C128_arrow 2 = Some (k, h) /\ polygons h = [[0; 1; 2; 3]] /\ indexed h) /\
  option_map (fun p => map (fun t => area2 (snd t)) (C128_places p)) (C128_run C128_arrow []) = Some [Some (-64); Some 16] /\
  option_map (fun g => map (fun t => area2 (snd t)) (C127.C127_places g)) (C127.C127_run C128_arrow []) = Some [Some 24; Some 24].
Proof.
  split; [|split; vm_compute; reflexivity]. exists 3%nat. eexists. split; [reflexivity|]. split; [reflexivity|]. unfold indexed. cbn. repeat constructor; lia.
Qed.
Print Assumptions C128_concave_refuted.
