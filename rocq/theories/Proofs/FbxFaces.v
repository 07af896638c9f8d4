(** Faces of converted FBX meshes. *)
From Coq Require Import String Ascii List ZArith Bool Lia.
From Verif.Model Require Import Num Vec Matrix Mqo MqoDoc Mmd2Mqo FbxDoc Fbx2Mqo.
From Verif.Spec Require Import FbxDocSpec FbxSceneSpec FbxMeshSpec.
From Verif.Proofs Require Import MqoObjProofs FbxWalk FbxTree FbxObjects.
Import ListNotations.
Local Open Scope string_scope.
Local Open Scope list_scope.
Local Open Scope Z_scope.

Lemma zidx_nat {A} (l : list A) i : zidx l (Z.of_nat i) = nth_error l i.
Proof. unfold zidx. destruct (Z.ltb_spec (Z.of_nat i) 0); [lia|]. now rewrite Nat2Z.id. Qed.
Lemma zidx_some {A} (l : list A) i x : zidx l i = Some x -> 0 <= i < Z.of_nat (length l).
Proof. unfold zidx. destruct (Z.ltb_spec i 0); [discriminate|]. intros E. assert (Z.to_nat i < length l)%nat by (apply nth_error_Some; congruence). lia. Qed.
Lemma zidx_in {A} (l : list A) i : 0 <= i < Z.of_nat (length l) -> exists x, zidx l i = Some x.
Proof. intros H. unfold zidx. destruct (Z.ltb_spec i 0); [lia|]. destruct (nth_error l (Z.to_nat i)) eqn:E; [eauto|]. apply nth_error_None in E. lia. Qed.

Lemma decode_length l : forall cur, (length (concat (decode_faces cur l)) <= length cur + length l)%nat.
Proof.
  induction l as [|i l IH]; intros cur; cbn [decode_faces]; [cbn; lia|]. destruct (i <? 0).
  - cbn [concat]. rewrite !app_length. specialize (IH []). cbn [length] in *. lia.
  - specialize (IH (cur ++ [i])). rewrite app_length in IH. cbn [length] in *. lia.
Qed.
Lemma firstn_concat {A} (ls : list (list A)) i l : nth_error ls i = Some l -> (length (concat (firstn i ls)) + length l <= length (concat ls))%nat.
Proof.
  revert i. induction ls as [|x ls IH]; intros [|i] H; try discriminate.
  - injection H as ->. cbn [firstn concat length]. rewrite app_length. lia.
  - cbn [firstn concat]. rewrite !app_length. specialize (IH i H). lia.
Qed.

Section F.
Context {T : Type} {N : Num T}.
Variable g : fgeom T.
Variable nt : mat4 T.
Variable mats : list Z.

Lemma faces_nth np : forall fs i k xs, convert_faces g nt mats np i k fs = FOk xs ->
  length xs = length fs /\ forall j f, nth_error fs j = Some f -> exists x, nth_error xs j = Some x /\ convert_face g nt mats np (i + j) (k + length (concat (firstn j fs))) f = FOk x.
Proof.
  induction fs as [|f fs IH]; intros i k xs H; cbn [convert_faces] in H; [injection H as <-; split; [reflexivity|]; intros [|j] f; discriminate|].
  unbind H. unbind H. injection H as <-. destruct (IH _ _ _ E0) as [L X]. split; [cbn; now rewrite L|]. intros [|j] f' Hf.
  - injection Hf as <-. exists a. split; [reflexivity|]. cbn [firstn concat length]. now rewrite !Nat.add_0_r.
  - cbn [nth_error] in Hf. destruct (X _ _ Hf) as (x & A & B). exists x. split; [exact A|]. cbn [firstn concat]. rewrite app_length. rewrite <- B. f_equal; lia.
Qed.

Lemma corner_count i poly : nth_error (polygons g) i = Some poly -> (first_corner g i + length poly <= length (gIndex g))%nat.
Proof. intros H. unfold first_corner. apply firstn_concat in H. assert (L := decode_length (gIndex g) []). fold (polygons g) in L. cbn in L. lia. Qed.

Lemma uvs_ok i k poly uvs : full_uvs g -> (k + length poly <= length (gIndex g))%nat -> face_uvs (uv_of g) k (length poly) = FOk uvs ->
  Forall2 (fun c uv => exists w, layer_value (gUVs g) i (fst c) (snd c) = Some w /\ uv = mkV2 (v2x w) (nsub none (v2y w))) (combine (seq k (length poly)) poly) uvs.
Proof.
  intros (M & R & F) K H. unfold uv_of in H. rewrite M, String.eqb_refl in H.
  assert (LV : forall c v, layer_value (gUVs g) i c v = if String.eqb (lReference (gUVs g)) "IndexToDirect" then match nth_error (lIndexes (gUVs g)) c with Some j => zidx (lValues (gUVs g)) j | None => None end else nth_error (lValues (gUVs g)) c).
  { intros c v. unfold layer_value, counted. rewrite M. cbn [String.eqb Ascii.eqb Bool.eqb]. rewrite !zidx_nat. destruct R as [-> | ->]; reflexivity. }
  assert (G : match uv_of g with NoUV => False | _ => True end).
  { unfold uv_of. rewrite M, String.eqb_refl. destruct (length (gIndex g)) as [|n] eqn:Ln; [destruct (String.eqb _ _); exact I|].
    assert (Fn : layer_value (gUVs g) i n 0 <> None) by (apply F; lia). rewrite LV in Fn. destruct (String.eqb _ _).
    - replace (Nat.ltb (length (lIndexes (gUVs g))) (Datatypes.S n)) with false; [exact I|]. symmetry. apply Nat.ltb_ge. destruct (nth_error (lIndexes (gUVs g)) n) eqn:E; [|congruence]. assert (n < length (lIndexes (gUVs g)))%nat by (apply nth_error_Some; congruence). lia.
    - replace (Nat.ltb (length (lValues (gUVs g))) (Datatypes.S n)) with false; [exact I|]. symmetry. apply Nat.ltb_ge. assert (n < length (lValues (gUVs g)))%nat by (now apply nth_error_Some). lia. }
  unfold uv_of in G. rewrite M, String.eqb_refl in G.
  destruct (String.eqb (lReference (gUVs g)) "IndexToDirect") eqn:ER.
  - destruct (Nat.ltb (length (lIndexes (gUVs g))) (length (gIndex g))); [destruct G|]. cbn [face_uvs] in H. apply fmap_nth in H. revert uvs k H K. clear G. induction poly as [|v poly IH]; intros uvs k H K; cbn [length seq combine] in *; inversion H; subst; constructor.
    + cbn [fst snd]. unbind H2. unbind H2. injection H2 as <-. apply fopt_ok in E, E0. exists a0. rewrite LV, E. now split.
    + apply IH; [assumption|lia].
  - destruct (Nat.ltb (length (lValues (gUVs g))) (length (gIndex g))); [destruct G|]. cbn [face_uvs] in H. apply fmap_nth in H. revert uvs k H K. clear G. induction poly as [|v poly IH]; intros uvs k H K; cbn [length seq combine] in *; inversion H; subst; constructor.
    + cbn [fst snd]. unbind H2. injection H2 as <-. apply fopt_ok in E. exists a. rewrite LV, E. now split.
    + apply IH; [assumption|lia].
Qed.

Lemma normals_ok i k poly : full_normals g -> nth_error (polygons g) i = Some poly -> (k + length poly <= length (gIndex g))%nat ->
  Forall2 (fun c n => exists w, layer_value (gNormals g) i (fst c) (snd c) = Some w /\ n = Some (v3normalize (mat_apply nt w)))
    (combine (seq k (length poly)) poly) (flat_map (fun p => corner_normal g nt (k + fst p) (snd p)) (combine (seq 0 (length poly)) poly)).
Proof.
  intros (R & F) P K.
  assert (X : forall c v, (c < length (gIndex g))%nat -> In v poly -> exists w, layer_value (gNormals g) i c v = Some w /\ corner_normal g nt c v = [Some (v3normalize (mat_apply nt w))]).
  { intros c v C V. unfold corner_normal, norm_by_vertex, norm_by_corner. destruct F as [(M & F)|(M & F & FP)]; rewrite M; cbn [String.eqb Ascii.eqb Bool.eqb andb].
    - destruct (layer_value (gNormals g) i c v) as [w|] eqn:E; [|now apply F in E]. exists w. split; [reflexivity|]. unfold layer_value, counted in E. rewrite M, R in E. cbn [String.eqb Ascii.eqb Bool.eqb orb] in E. rewrite zidx_nat in E. now rewrite E.
    - assert (LV : forall c v, layer_value (gNormals g) i c v = zidx (lValues (gNormals g)) v) by (intros c' v'; unfold layer_value, counted; now rewrite M, R).
      assert (VB : 0 <= v < Z.of_nat (length (gVerts g))) by (rewrite Forall_forall in FP; specialize (FP _ (nth_error_In _ _ P)); rewrite Forall_forall in FP; now apply FP).
      destruct (layer_value (gNormals g) i c v) as [w|] eqn:E; [|now apply F in E]. exists w. split; [reflexivity|]. rewrite LV in E. rewrite E.
      replace (Nat.leb (length (gVerts g)) (length (lValues (gNormals g)))) with true; [reflexivity|]. symmetry. apply Nat.leb_le.
      assert (Q : layer_value (gNormals g) i c (Z.of_nat (length (gVerts g)) - 1) <> None) by (apply F; lia). rewrite LV in Q. destruct (zidx _ (Z.of_nat (length (gVerts g)) - 1)) eqn:E'; [|congruence]. apply zidx_some in E'. lia. }
  clear P. assert (Y : forall a, (k + a + length poly <= length (gIndex g))%nat -> Forall2 (fun c n => exists w, layer_value (gNormals g) i (fst c) (snd c) = Some w /\ n = Some (v3normalize (mat_apply nt w)))
    (combine (seq (k + a) (length poly)) poly) (flat_map (fun p => corner_normal g nt (k + fst p) (snd p)) (combine (seq a (length poly)) poly))).
  { clear K. induction poly as [|v poly IH]; intros a K; cbn [length seq combine flat_map fst snd] in *; [constructor|]. destruct (X (k + a)%nat v) as (w & A & B); [lia|now left|]. rewrite B. cbn [app]. constructor; [exists w; now split|].
    rewrite <- Nat.add_succ_r. apply IH; [intros; apply X; [assumption|now right]|lia]. }
  specialize (Y 0%nat). rewrite Nat.add_0_r in Y. now apply Y.
Qed.

Lemma material_ok i c v j m x : full_materials g -> (i < length (polygons g))%nat -> layer_index (gMats g) i c v = Some j -> zidx mats j = Some m -> face_material mats (mat_index g (length (polygons g)) i) = FOk x -> x = m.
Proof.
  intros F I L Z M. assert (B := zidx_some _ _ _ Z).
  assert (E : mat_index g (length (polygons g)) i = j).
  { unfold mat_index, layer_index, counted in *. destruct F as [(K & F)|(K & F)]; rewrite K in *; cbn [String.eqb Ascii.eqb Bool.eqb andb orb] in *.
    - destruct (length (polygons g)) as [|n] eqn:Ln; [lia|]. replace (Nat.leb (Datatypes.S n) (length (lIndexes (gMats g)))) with true.
      + cbn [andb]. rewrite zidx_nat in L. now apply nth_error_nth.
      + symmetry. apply Nat.leb_le. assert (Q := F n 0%nat 0 ltac:(lia)). unfold layer_index, counted in Q. rewrite K in Q. cbn [String.eqb Ascii.eqb Bool.eqb orb] in Q. rewrite zidx_nat in Q. apply nth_error_Some in Q. lia.
    - change 0 with (Z.of_nat 0) in L at 1. rewrite zidx_nat in L. destruct (lIndexes (gMats g)); [discriminate|]. injection L as <-. reflexivity. }
  rewrite E in M. unfold face_material in M. destruct (Z.ltb_spec j (Z.of_nat (length mats))); [|lia]. rewrite Z in M. now injection M.
Qed.

Lemma faces_drawn fs : convert_faces g nt mats (length (polygons g)) 0 0 (polygons g) = FOk fs -> drawn_all g mats nt fs.
Proof.
  intros H. destruct (faces_nth _ _ _ _ _ H) as [L X]. split; [exact L|]. intros i poly P. destruct (X i poly P) as (f & A & B). exists f. split; [exact A|]. cbn [Nat.add] in B. fold (first_corner g i) in B.
  unfold convert_face in B. unbind B. unbind B. injection B as <-. assert (K := corner_count _ _ P). unfold flip, drawn. cbn [fVerts fUVs fNormals fMaterial]. rewrite !swap_all_rev, !rev_involutive. split; [reflexivity|]. split; [|split].
  - intros F. now apply uvs_ok.
  - intros F. now apply normals_ok.
  - intros F c v j m LI Z. apply (material_ok i c v j m a); auto. apply nth_error_Some. congruence.
Qed.
End F.

Section M.
Context {T : Type} {N : Num T}.
Lemma position_spec o l p : NoDup l -> nth_error l p = Some o -> position o l = Some p.
Proof.
  revert p. induction l as [|x l IH]; intros [|p] ND H; try discriminate; cbn [position].
  - injection H as ->. now rewrite Nat.eqb_refl.
  - cbn in H. inversion ND; subst. destruct (Nat.eqb_spec x o) as [->|]; [exfalso; apply H2; exact (nth_error_In _ _ H)|]. now rewrite (IH p).
Qed.
Lemma materials_ok tenth (d : fdoc T) op base o depth mats (old : list (material T)) j mo p : opOverride op = None -> model_materials d op base o depth = FOk mats -> length old = base -> NoDup (fdMats d) ->
  own_material d o j = Some mo -> nth_error (fdMats d) p = Some mo -> exists m, zidx mats j = Some (Z.of_nat m) /\ nth_error (old ++ map (convert_material tenth d) (fdMats d)) m = Some (convert_material tenth d mo).
Proof.
  intros OO H L ND OM P. unfold model_materials in H. rewrite OO in H.
  assert (E : mats = map (fun m => match position m (fdMats d) with Some i => Z.of_nat (base + i) | None => 0 end) (filter (is_mat d) (refs d o))) by (destruct (_ && _); now injection H as <-).
  exists (base + p)%nat. split.
  - rewrite E. unfold own_material, zidx in *. destruct (j <? 0); [discriminate|]. rewrite nth_error_map, OM. cbn [option_map]. now rewrite (position_spec _ _ _ ND P).
  - rewrite nth_error_app2 by lia. replace (base + p - length old)%nat with p by lia. now apply map_nth_error.
Qed.
End M.
