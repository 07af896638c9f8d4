(** C136: the vertex morphs of a PMX model that is saved as PMX again. *)
From Coq Require Import String List ZArith Bool Lia Permutation Reals.
From Verif.Model Require Import Num NumR Vec Matrix Mqo MqoDoc MqoTransform Mmd2Mqo Mqo2Mmd.
From Verif Require Import Spec.MmdConvSpec Spec.Mqo2MmdSpec Spec.DrawnSpec Spec.FbxPmxSpec Spec.PmxMorphSpec Proofs.PmxMorph.
From Verif Require Props.C33 Props.C134.
Import ListNotations.
Local Open Scope Z_scope.

(** Full statement: the morphs of the second model move the same corners by the same offsets. Proved without z, for morphs with names of their own, all of whose vertices are used.
    Every face with a vertex of the morph is there, with its material, its corners in the same order at their places, and the morph moves them. *)
Theorem C136_offsets_partial : forall (T : Type) (N : Num T) (hundred facet : T) (shuffle : vmap -> vmap), (forall m, Permutation (shuffle m) m) ->
  forall (p : pmodel T) os bw sets, convert hundred facet shuffle p = Some (os, bw, sets) -> covers p -> Forall (fun f => length f = 3%nat) (pFaces p) ->
  (forall m, In m (pMorphs p) -> ~ mesh_name (phName m)) -> NoDup (map (fun m => phName m) (pMorphs p)) ->
  forall (move turn : vec3 T -> vec3 T) (dd : document T), Forall2 (moved_object move turn) os (dObjects dd) ->
  forall (scale centi : T) bones p' extra, map (@mtName T) (dMaterials dd) = map pmName (pMats p) ++ extra -> to_mmd scale centi dd bones sets = Some p' ->
  forall mi m fi, nth_error (pMorphs p) mi = Some m -> on_faces p m -> (fi < length (pFaces p))%nat ->
  (exists v, In v (nth fi (pFaces p) []) /\ In v (map fst (phVerts m) ++ map fst (phUVs m))) ->
  exists t, In t (combine (face_owners (pMats p')) (pFaces p')) /\ owner (pMats p) 0 fi = Some (Z.of_nat (fst t)) /\ Forall2 (same_move scale move p p' m) (nth fi (pFaces p) []) (snd t).
Proof. exact (fun T N => @pmx_pmx_offsets T N). Qed.
Print Assumptions C136_offsets_partial.
(** There are no other offsets. *)
Theorem C136_sound_partial : forall (T : Type) (N : Num T) (hundred facet : T) (shuffle : vmap -> vmap), (forall m, Permutation (shuffle m) m) ->
  forall (p : pmodel T) os bw sets, convert hundred facet shuffle p = Some (os, bw, sets) -> covers p ->
  (forall m, In m (pMorphs p) -> ~ mesh_name (phName m)) -> NoDup (map (fun m => phName m) (pMorphs p)) ->
  forall (move turn : vec3 T -> vec3 T) (dd : document T), Forall2 (moved_object move turn) os (dObjects dd) ->
  forall (scale centi : T) bones p', to_mmd scale centi dd bones sets = Some p' ->
  forall name id' off, (forall m, In m (pMorphs p) -> on_faces p m) -> has_offset p' name id' off ->
  exists m id v, In m (pMorphs p) /\ phName m = name /\ zidx (pVerts p) id = Some v /\ same_place scale move p p' id id' /\ off = flat_offset scale move m id v.
Proof. exact (fun T N => @pmx_pmx_offsets_sound T N). Qed.
Print Assumptions C136_sound_partial.

(** If the command enlarges by the inverse of the scale of PMX models, the x and the y of an offset are what they were, and vertices that the morph does not name stay. *)
Theorem C136_exact_partial : forall (k scale : R) (m : pmorph R) id v, (k * scale = 1)%R -> NoDup (map fst (phVerts m)) ->
  (forall d, In (id, d) (phVerts m) -> flat_offset scale (mat_apply (mat_scale k k k)) m id v = mkV3 (vx d) (vy d) 0%R) /\
  (~ In id (map fst (phVerts m)) -> flat_offset scale (mat_apply (mat_scale k k k)) m id v = mkV3 0%R 0%R 0%R).
Proof.
  intros k scale m id v KS ND.
  assert (G : forall a b : vec3 R, mkV3 (vx (scaled scale (mat_apply (mat_scale k k k) b)) - vx (scaled scale (mat_apply (mat_scale k k k) a)))%R
    (vy (scaled scale (mat_apply (mat_scale k k k) b)) - vy (scaled scale (mat_apply (mat_scale k k k) a)))%R 0%R = mkV3 (vx b - vx a)%R (vy b - vy a)%R 0%R).
  { intros [ax ay az] [bx by_ bz]. unfold scaled, mat_apply, mat_scale. cbn [vx vy vz nmul nadd nopp none nzero RNum m0 m1 m2 m3 m4 m5 m6 m7 m8 m9 m10 m11 m12 m13 m14 m15].
    assert (E : forall a a' b b' c c' : R, a = a' -> b = b' -> c = c' -> mkV3 a b c = mkV3 a' b' c') by (intros; congruence). apply E; [| |reflexivity].
    - transitivity ((bx - ax) * (k * scale))%R; [ring|rewrite KS; ring].
    - transitivity ((by_ - ay) * (k * scale))%R; [ring|rewrite KS; ring]. }
  unfold flat_offset. cbn [nsub nzero RNum]. split.
  - intros d I. rewrite G. rewrite (moved_once m id d _ ND I). unfold v3add, flip_z. cbn [vx vy nadd RNum].
    assert (E : forall a a' b b' c : R, a = a' -> b = b' -> mkV3 a b c = mkV3 a' b' c) by (intros; congruence). apply E; ring.
  - intros I. rewrite G. rewrite (moved_none m id _ I).
    assert (E : forall a a' b b' c : R, a = a' -> b = b' -> mkV3 a b c = mkV3 a' b' c) by (intros; congruence). apply E; ring.
Qed.
Print Assumptions C136_exact_partial.

(** The morph of the model of C33 moves vertex 5 by (1, 0, 2) and a texture coordinate. *)
Definition C136_offsets (p : pmodel Z) : list (string * list (option (vec3 Z) * vec3 Z)) :=
  map (fun m => (phName m, map (fun e => (option_map (fun v => pvPos v) (zidx (pVerts p) (fst e)), snd e)) (phVerts m))) (pMorphs p).
Example C136_example : (forall m, In m (pMorphs C33.ex_model) -> on_faces C33.ex_model m) /\ NoDup (map (fun m => phName m) (pMorphs C33.ex_model)) /\
  C136_offsets C33.ex_model = [("smile"%string, [(Some (mkV3 9 9 6), mkV3 1 0 2)])] /\
  option_map C136_offsets (C134.C134_run C33.ex_model) = Some [("smile"%string, [(Some (mkV3 18 0 10), mkV3 0 0 0); (Some (mkV3 18 18 12), mkV3 2 0 0); (Some (mkV3 10 18 14), mkV3 0 0 0)])].
Proof.
  split; [|split; [repeat constructor; cbn; tauto|split; vm_compute; reflexivity]].
  intros m [<-|[]] v I. exists 1%nat. split; [cbn; lia|]. cbn in I |- *. tauto.
Qed.

Definition C136_full : Prop := forall (p p' : pmodel Z) m id v d, proper p -> C134.C134_run p = Some p' -> In m (pMorphs p) -> NoDup (map fst (phVerts m)) ->
  In (id, d) (phVerts m) -> zidx (pVerts p) id = Some v ->
  exists id', option_map (fun w => pvPos w) (zidx (pVerts p') id') = Some (v3scale (pvPos v) 2) /\ has_offset p' (phName m) id' (v3scale d 2).
Lemma C136_not (p p' : pmodel Z) m id v d : proper p -> C134.C134_run p = Some p' -> In m (pMorphs p) -> NoDup (map fst (phVerts m)) ->
  In (id, d) (phVerts m) -> zidx (pVerts p) id = Some v -> existsb (fun h => existsb (fun e => (vx (snd e) =? 2 * vx d) && (vy (snd e) =? 2 * vy d) && (vz (snd e) =? 2 * vz d)) (phVerts h)) (pMorphs p') = false -> ~ C136_full.
Proof.
  intros P E Im ND Id V X H. destruct (H p p' m id v d P E Im ND Id V) as (id' & _ & h & Ih & _ & Ie).
  assert (C : existsb (fun h => existsb (fun e => (vx (snd e) =? 2 * vx d) && (vy (snd e) =? 2 * vy d) && (vz (snd e) =? 2 * vz d)) (phVerts h)) (pMorphs p') = true); [|congruence].
  apply existsb_exists. exists h. split; [exact Ih|]. apply existsb_exists. exists (id', v3scale d 2). split; [exact Ie|]. destruct d as [x y z]. unfold v3scale. cbn [snd vx vy vz nmul ZNum].
  rewrite !andb_true_iff, !Z.eqb_eq. lia.
Qed.
(** Refuted: the z of the offset is lost. *)
Theorem C136_z_refuted : ~ C136_full.
Proof.
  destruct (C134.C134_run C33.ex_model) as [p'|] eqn:E; [|vm_compute in E; discriminate E].
  apply (C136_not C33.ex_model p' (nth 0 (pMorphs C33.ex_model) (mkPMorph "" [] [])) 5 (nth 5 (pVerts C33.ex_model) (C33.pv 0 0 0 [] [])) (mkV3 1 0 2)); try reflexivity.
  - repeat split; repeat constructor; cbn; lia.
  - exact E.
  - left. reflexivity.
  - repeat constructor. cbn. tauto.
  - left. reflexivity.
  - vm_compute in E. injection E as <-. reflexivity.
Qed.
Print Assumptions C136_z_refuted.
(** Refuted: of two morphs with the same name only one is left. *)
Theorem C136_name_refuted : exists p p' : pmodel Z, proper p /\ C134.C134_run p = Some p' /\
  C136_offsets p = [("a"%string, [(Some (mkV3 0 0 1), mkV3 7 0 0)]); ("a"%string, [(Some (mkV3 4 0 2), mkV3 9 0 0)])] /\
  forall name id' off, has_offset p' name id' off -> vx off <> 14.
Proof.
  exists (mkPModel [C33.pv 0 0 1 [] []; C33.pv 4 0 2 [] []; C33.pv 0 4 3 [] []] [[0; 1; 2]] [mkPMat "skin" 3] [mkPMorph "a" [(0, mkV3 7 0 0)] []; mkPMorph "a" [(1, mkV3 9 0 0)] []] 0). eexists.
  split; [repeat split; repeat constructor; cbn; lia|]. split; [vm_compute; reflexivity|]. split; [reflexivity|].
  intros name id' off (m & Im & _ & Ie) X.
  assert (F : forallb (fun h : pmorph Z => forallb (fun e => negb (vx (snd e) =? 14)) (phVerts h)) [m] = true).
  { cbn [forallb]. rewrite andb_true_r. eapply (proj1 (forallb_forall (fun h : pmorph Z => forallb (fun e => negb (vx (snd e) =? 14)) (phVerts h)) _)); [|exact Im]. vm_compute. reflexivity. }
  cbn [forallb] in F. rewrite andb_true_r, forallb_forall in F. specialize (F _ Ie). cbn [snd] in F. rewrite X in F. discriminate F.
Qed.
Print Assumptions C136_name_refuted.
(** Refuted: a morph of texture coordinates becomes a morph that moves nothing. *)
Theorem C136_uv_refuted : exists p p' : pmodel Z, proper p /\ C134.C134_run p = Some p' /\ pMorphs p = [mkPMorph "u" [] [(0, mkV2 7 0)]] /\
  pMorphs p' = [mkPMorph "u" [(0, mkV3 0 0 0); (1, mkV3 0 0 0); (2, mkV3 0 0 0)] []].
Proof.
  exists (mkPModel [C33.pv 0 0 1 [] []; C33.pv 4 0 2 [] []; C33.pv 0 4 3 [] []] [[0; 1; 2]] [mkPMat "skin" 3] [mkPMorph "u" [] [(0, mkV2 7 0)]] 0). eexists.
  split; [repeat split; repeat constructor; cbn; lia|]. split; [vm_compute; reflexivity|]. split; reflexivity.
Qed.
Print Assumptions C136_uv_refuted.
