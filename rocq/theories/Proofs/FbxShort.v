(** Layers of FBX geometries with too few values are left out. *)
From Coq Require Import String Ascii List ZArith Bool Lia.
From Verif.Model Require Import Num Vec Matrix Mqo MqoDoc FbxDoc Fbx2Mqo.
From Verif.Spec Require Import FbxMeshSpec.
From Verif.Proofs Require Import FbxFaces.
Import ListNotations.
Local Open Scope string_scope.
Local Open Scope list_scope.
Local Open Scope Z_scope.

Section S.
Context {T : Type} {N : Num T}.
Variables (g : fgeom T) (nt : mat4 T) (mats : list Z).

Lemma faces_each (P : face T -> Prop) npoly : (forall i k f x, convert_face g nt mats npoly i k f = FOk x -> P x) ->
  forall fs i k xs, convert_faces g nt mats npoly i k fs = FOk xs -> Forall P xs.
Proof.
  intros HP. induction fs as [|f fs IH]; intros i k xs H; cbn [convert_faces] in H; [injection H as <-; constructor|].
  destruct (convert_face g nt mats npoly i k f) as [x| |] eqn:E; try discriminate H. cbn [fbind] in H.
  destruct (convert_faces g nt mats npoly (S i) (k + length f) fs) as [ys| |] eqn:E2; try discriminate. cbn [fbind] in H. injection H as <-.
  constructor; [exact (HP _ _ _ _ E)|exact (IH _ _ _ E2)].
Qed.

Lemma face_parts npoly i k f x : convert_face g nt mats npoly i k f = FOk x ->
  face_material mats (mat_index g npoly i) = FOk (fMaterial x) /\ (uv_of g = NoUV -> fUVs x = []) /\ ((forall c v, corner_normal g nt c v = []) -> fNormals x = []).
Proof.
  unfold convert_face. destruct (face_material mats (mat_index g npoly i)) as [m| |]; try discriminate. cbn [fbind].
  destruct (face_uvs (uv_of g) k (length f)) as [u| |] eqn:E; try discriminate. cbn [fbind]. intros [= <-]. unfold flip. cbn [fMaterial fUVs fNormals].
  split; [reflexivity|]. split.
  - intros U. rewrite U in E. cbn [face_uvs] in E. injection E as <-. reflexivity.
  - intros C. replace (flat_map _ _) with (@nil (option (vec3 T))); [reflexivity|]. symmetry. induction (combine (seq 0 (length f)) f) as [|p l IH]; [reflexivity|]. cbn [flat_map]. now rewrite C, IH.
Qed.

Theorem short_normals npoly fs xs :
  (lMapping (gNormals g) = "ByControlPoint" /\ (length (lValues (gNormals g)) < length (gVerts g))%nat \/
   lMapping (gNormals g) <> "ByControlPoint" /\ lMapping (gNormals g) <> "ByPolygonVertex") ->
  convert_faces g nt mats npoly 0 0 fs = FOk xs -> Forall (fun f => fNormals f = []) xs.
Proof.
  intros S H. apply (faces_each _ npoly) with (2 := H). intros i k f x E. apply (face_parts _ _ _ _ _ E). intros c v. unfold corner_normal, norm_by_vertex, norm_by_corner.
  destruct S as [(M & L)|(M1 & M2)].
  - rewrite M. cbn [String.eqb Ascii.eqb Bool.eqb andb]. destruct (Nat.leb_spec (length (gVerts g)) (length (lValues (gNormals g)))); [lia|reflexivity].
  - apply String.eqb_neq in M1, M2. now rewrite M1, M2.
Qed.
Theorem short_uvs npoly fs xs :
  (lMapping (gUVs g) <> "ByPolygonVertex" \/ lReference (gUVs g) = "IndexToDirect" /\ (length (lIndexes (gUVs g)) < length (gIndex g))%nat \/
   lReference (gUVs g) <> "IndexToDirect" /\ (length (lValues (gUVs g)) < length (gIndex g))%nat) ->
  convert_faces g nt mats npoly 0 0 fs = FOk xs -> Forall (fun f => fUVs f = []) xs.
Proof.
  intros S H. apply (faces_each _ npoly) with (2 := H). intros i k f x E. apply (face_parts _ _ _ _ _ E). unfold uv_of.
  destruct (String.eqb_spec (lMapping (gUVs g)) "ByPolygonVertex") as [M|M]; [|reflexivity].
  destruct S as [S|[(R & L)|(R & L)]]; [contradiction| |].
  - rewrite R, String.eqb_refl. apply Nat.ltb_lt in L. now rewrite L.
  - apply String.eqb_neq in R. apply Nat.ltb_lt in L. now rewrite R, L.
Qed.
Theorem short_materials fs xs :
  (lMapping (gMats g) = "ByPolygon" /\ (length (lIndexes (gMats g)) < length fs)%nat \/ lIndexes (gMats g) = [] \/
   lMapping (gMats g) <> "ByPolygon" /\ lMapping (gMats g) <> "AllSame") ->
  convert_faces g nt mats (length fs) 0 0 fs = FOk xs -> Forall (fun f => fMaterial f = hd 0 mats) xs.
Proof.
  intros S H. destruct fs as [|f0 fs0]; [cbn in H; injection H as <-; constructor|]. remember (f0 :: fs0) as fs eqn:Ef. assert (L0 : (0 < length fs)%nat) by (subst; cbn; lia). clear Ef.
  apply (faces_each _ (length fs)) with (2 := H). intros i k f x E. destruct (face_parts _ _ _ _ _ E) as (M & _). clear E H.
  replace (mat_index g (length fs) i) with 0 in M.
  - unfold face_material in M. destruct mats as [|m r]; cbn in M; injection M as M; cbn; congruence.
  - unfold mat_index. destruct S as [(Q & L)|[L|(Q1 & Q2)]].
    + rewrite Q. cbn [String.eqb Ascii.eqb Bool.eqb andb]. destruct (Nat.leb_spec (length fs) (length (lIndexes (gMats g)))); [lia|reflexivity].
    + rewrite L. cbn [length Nat.ltb]. destruct (length fs); [lia|]. cbn [Nat.leb]. now rewrite !andb_false_r.
    + apply String.eqb_neq in Q1, Q2. now rewrite Q1, Q2.
Qed.
End S.
