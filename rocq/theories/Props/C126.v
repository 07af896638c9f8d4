(** C126: a PMX model saved as glTF shows the faces of the model. *)
From Coq Require Import String List ZArith Bool Lia Permutation QArith Reals Lra.
From Verif.Model Require Import Num NumR Vec Matrix Euler Mqo MqoDoc MqoTransform Mmd2Mqo Gltf Mqo2Gltf.
From Verif Require Import Spec.MmdConvSpec Spec.GltfSpec Spec.TransformSpec Spec.DrawnSpec Proofs.MatrixLemmas Proofs.MqoObjProofs Proofs.TransformProofs Proofs.DrawnProofs Props.C33.
Import ListNotations.
Local Open Scope Z_scope.

(** Full statement: the glTF document of a PMX model draws every face of the model once.
    Proved for faces of materials that are not to be left out, in models that have no morph with a name of a mesh object (see below).
    Each face is drawn with its own material, the front still in front, its corners at the mirrored and moved places, with their texture
    coordinates up to [eps] and their normals, and moved by the nodes of their bones with their weights (at most four). *)
Theorem C126_drawn_partial : forall (T : Type) (N : Num T) (hundred facet : T) (shuffle : vmap -> vmap), (forall m, Permutation (shuffle m) m) ->
  forall (scale centi eps : T) ign unlit opaque99 rough tex_alpha (move turn : vec3 T -> vec3 T) (p : pmodel T) os bw sets,
  convert hundred facet shuffle p = Some (os, bw, sets) -> covers p -> Forall (fun f => length f = 3%nat) (pFaces p) ->
  (forall m, In m (pMorphs p) -> ~ mesh_name (phName m)) ->
  forall (d : document T) bones g, Forall2 (moved_object move turn) os (dObjects d) -> map (@mtName T) (dMaterials d) = map pmName (pMats p) ->
  map bWeights bones = bw -> NoDup (map bID bones) -> Z.of_nat (length bones) <= 65536 ->
  to_gltf scale centi eps ign unlit opaque99 rough tex_alpha d bones sets = Some g ->
  let es := exported_objects ign sets (fix_ids 0 (dObjects d)) in
  exists mm l, renumbers es (dMaterials d) (gdMats g) mm /\ NoDup l /\ (forall fi, In fi l <-> wanted p fi) /\
    Forall2 (draws_face scale eps hundred centi unlit move turn p (length es) mm) l (drawn g).
Proof. exact (fun T N => @all_drawn T N). Qed.
Print Assumptions C126_drawn_partial.

(** With the document transformed in between, as the command does. *)
Lemma transformed m o o' : transform_object m o = Some o' -> moved_object (mat_apply m) (mat_apply (normal_transform m)) o o'.
Proof.
  unfold transform_object. destruct (oTranslation o) as [t|]; [|discriminate]. destruct (oRotation o) as [r|]; [|discriminate]. destruct (oScale o) as [s|]; [|discriminate].
  destruct (set_local_transform _) as [[t' r'] s']. intros E. injection E as <-. repeat split.
Qed.
Theorem C126_transformed_partial : forall (hundred facet : R) (shuffle : vmap -> vmap), (forall m, Permutation (shuffle m) m) ->
  forall (scale centi eps : R) ign unlit opaque99 rough tex_alpha m (p : pmodel R) os bw sets,
  convert hundred facet shuffle p = Some (os, bw, sets) -> covers p -> Forall (fun f => length f = 3%nat) (pFaces p) ->
  (forall m, In m (pMorphs p) -> ~ mesh_name (phName m)) ->
  forall d d' mats g, mdObjects d = os -> map bWeights (mdBones d) = bw -> NoDup (map bID (mdBones d)) -> Z.of_nat (length (mdBones d)) <= 65536 ->
  transform_doc m d = Some d' -> map (@mtName R) mats = map pmName (pMats p) ->
  to_gltf scale centi eps ign unlit opaque99 rough tex_alpha (mkDocument mats (mdObjects d')) (mdBones d') sets = Some g ->
  let es := exported_objects ign sets (fix_ids 0 (mdObjects d')) in
  exists mm l, renumbers es mats (gdMats g) mm /\ NoDup l /\ (forall fi, In fi l <-> wanted p fi) /\
    Forall2 (draws_face scale eps hundred centi unlit (mat_apply m) (mat_apply (normal_transform m)) p (length es) mm) l (drawn g).
Proof.
  intros hundred facet shuffle HS scale centi eps ign unlit opaque99 rough tex_alpha m p os bw sets EC CV F3 HN d d' mats g EO EB ND FB ET EM EG.
  destruct (TransformProofs.transform_doc_objects m d d' ET) as (L & B & _ & _ & X).
  apply (C126_drawn_partial R _ hundred facet shuffle HS scale centi eps ign unlit opaque99 rough tex_alpha (mat_apply m) (mat_apply (normal_transform m)) p os bw sets EC CV F3 HN (mkDocument mats (mdObjects d')) (mdBones d') g); cbn [dMaterials dObjects].
  - subst os. clear - L X. revert L X. generalize (mdObjects d) as a, (mdObjects d') as b. induction a as [|o a IH]; intros [|o' b] L X; try discriminate; constructor.
    + destruct (X 0%nat o eq_refl) as (x & [= <-] & Hx). apply transformed. exact Hx.
    + apply IH; [cbn in L; lia|]. intros i y Hy. exact (X (S i) y Hy).
  - exact EM.
  - rewrite B, map_map. exact EB.
  - rewrite B, map_map. exact ND.
  - rewrite B, map_length. exact FB.
  - exact EG.
Qed.
Print Assumptions C126_transformed_partial.

(** Normals get shorter when the model is made larger: they are not of unit length any more, as glTF asks for. *)
Lemma scale_normals (k : R) n : (k <> 0)%R -> mat_apply (normal_transform (mat_scale k k k)) n = v3scale n (/ k)%R.
Proof.
  intros K. assert (E : mat_inverse (rs_part (mat_scale k k k)) = mat_scale (/ k)%R (/ k)%R (/ k)%R).
  { apply mat_inverse_unique. unfold mat_mul, rs_part, mat_scale, mat_id; mproj; rnum. comps; field; exact K. }
  rewrite normal_transform_eq, E. replace (mat_transposed (mat_scale (/ k)%R (/ k)%R (/ k)%R)) with (mat_scale (/ k)%R (/ k)%R (/ k)%R) by reflexivity.
  rewrite scale_apply. unfold scaled, v3scale. cbn [vx vy vz]. rnum. comps; ring.
Qed.
Theorem C126_normal_length : forall (hundred facet : R) (shuffle : vmap -> vmap), (forall m, Permutation (shuffle m) m) ->
  forall (scale centi eps : R) ign opaque99 rough tex_alpha k (p : pmodel R) os bw sets, (0 < k)%R ->
  convert hundred facet shuffle p = Some (os, bw, sets) -> covers p -> Forall (fun f => length f = 3%nat) (pFaces p) ->
  (forall m, In m (pMorphs p) -> ~ mesh_name (phName m)) ->
  forall d d' mats g, mdObjects d = os -> map bWeights (mdBones d) = bw -> NoDup (map bID (mdBones d)) -> Z.of_nat (length (mdBones d)) <= 65536 ->
  transform_doc (mat_scale k k k) d = Some d' -> map (@mtName R) mats = map pmName (pMats p) ->
  to_gltf scale centi eps ign false opaque99 rough tex_alpha (mkDocument mats (mdObjects d')) (mdBones d') sets = Some g ->
  Forall (fun v => v3dot (pvNormal v) (pvNormal v) = 1%R) (pVerts p) ->
  forall t x y z, In (t, (x, y, z)) (drawn g) -> Forall (fun c => exists n, gcNormal c = Some n /\ v3dot n n = (/ k * / k)%R) [x; y; z].
Proof.
  intros hundred facet shuffle HS scale centi eps ign opaque99 rough tex_alpha k p os bw sets K EC CV F3 HN d d' mats g EO EB ND FB ET EM EG U t x y z Hin.
  destruct (C126_transformed_partial hundred facet shuffle HS scale centi eps ign false opaque99 rough tex_alpha _ p os bw sets EC CV F3 HN d d' mats g EO EB ND FB ET EM EG) as (mm & l & _ & _ & _ & F).
  assert (exists fi, draws_face scale eps hundred centi false (mat_apply (mat_scale k k k)) (mat_apply (normal_transform (mat_scale k k k))) p (length (exported_objects ign sets (fix_ids 0 (mdObjects d')))) mm fi (t, (x, y, z))) as (fi & D).
  { clear - F Hin. induction F as [|a b l r H F IH]; [destruct Hin|]. destruct Hin as [ -> |Hin]; [exists a; exact H|apply IH; exact Hin]. }
  destruct D as (i & m & a & b & c & va & vb & vc & _ & _ & _ & _ & _ & Va & Vb & Vc & D). cbn [snd] in D. cbv zeta in D.
  assert (G : forall vi v q, zidx (pVerts p) vi = Some v -> draws_corner scale eps hundred centi false (mat_apply (mat_scale k k k)) (mat_apply (normal_transform (mat_scale k k k))) (pNBones p) (length (exported_objects ign sets (fix_ids 0 (mdObjects d')))) v q ->
     exists n, gcNormal q = Some n /\ v3dot n n = (/ k * / k)%R).
  { intros vi v q Hv (_ & _ & Hn & _). cbn match in Hn. rewrite scale_normals in Hn by lra. eexists. split; [exact Hn|].
    assert (Hu : v3dot (pvNormal v) (pvNormal v) = 1%R). { rewrite Forall_forall in U. apply U. unfold zidx in Hv. destruct (_ <? 0); [discriminate|]. eapply nth_error_In. exact Hv. }
    revert Hu. unfold v3dot, v3scale, flip_z. cbn [vx vy vz]. rnum. destruct (pvNormal v) as [a0 b0 c0]. cbn [vx vy vz]. intros Hu. transitivity ((/ k * / k) * (a0 * a0 + b0 * b0 + c0 * c0))%R; [ring|]. rewrite Hu. ring. }
  destruct D as [(A & B & C)|[(A & B & C)|(A & B & C)]]; repeat constructor; eauto.
Qed.
Print Assumptions C126_normal_length.

(** Two triangles and one with a morph, in three materials, one of them without faces; two bones; everything made three times as large. *)
Definition three_times (v : vec3 Z) : vec3 Z := v3scale v 3.
Definition mat_named (m : pmat) : material Z := mkMat (pmName m) 0 (mkV4 1 1 1 1) 1 1 0 0 1 "" "" "" None false 0 None.
Definition as_doc (p : pmodel Z) (os : list (object Z)) : document Z := mkDocument (map mat_named (pMats p)) (map (fun o => set_verts o (map three_times (oVerts o))) os).
Definition as_bones (bw : bone_weights (T := Z)) : list (bone Z) := map (fun e => mkBone (Z.of_nat (fst e) + 1) "bone" 0 (mkV3 0 0 0) (snd e)) (combine (seq 0 (length bw)) bw).
Definition as_gltf (p : pmodel Z) : option (gdoc Z) :=
  match convert 100 60 (@rev _) p with Some (os, bw, sets) => to_gltf 2 1 0 false false 0 0 (fun _ => false) (as_doc p os) (as_bones bw) sets | None => None end.
Lemma three_times_moved os : Forall2 (moved_object three_times (fun n => n)) os (map (fun o => set_verts o (map three_times (oVerts o))) os).
Proof.
  induction os as [|o os IH]; [constructor|]. cbn [map]. constructor; [|exact IH]. repeat split. cbn [oFaces set_verts]. rewrite <- (map_id (oFaces o)) at 1. apply map_ext. intros f. destruct f as [u vs m uvs ns]. cbn [fUID fVerts fMaterial fUVs fNormals].
  f_equal. rewrite <- (map_id ns) at 1. apply map_ext. intros n. destruct n; reflexivity.
Qed.
Example C126_example : exists os bw sets g, convert 100 60 (@rev _) ex_model = Some (os, bw, sets) /\ covers ex_model /\ Forall (fun f => length f = 3%nat) (pFaces ex_model) /\
  (forall m, In m (pMorphs ex_model) -> ~ mesh_name (phName m)) /\ Forall2 (moved_object three_times (fun n => n)) os (dObjects (as_doc ex_model os)) /\
  map bWeights (as_bones bw) = bw /\ NoDup (map bID (as_bones bw)) /\
  to_gltf 2 1 0 false false 0 0 (fun _ => false) (as_doc ex_model os) (as_bones bw) sets = Some g /\
  map (fun t => (fst t, map gcPos [fst (fst (snd t)); snd (fst (snd t)); snd (snd t)], map gcSkin [fst (fst (snd t)); snd (fst (snd t)); snd (snd t)])) (drawn g) =
  let z := (Some 4%nat, 0) in
  [(Some 0, [Some (mkV3 0 24 (-18)); Some (mkV3 24 0 (-12)); Some (mkV3 0 0 (-6))],
    [[(Some 5%nat, 300); z; z; z]; [(Some 4%nat, 200); (Some 5%nat, 300); z; z]; [(Some 4%nat, 100); z; z; z]]);
   (Some 1, [Some (mkV3 24 24 (-24)); Some (mkV3 24 0 (-12)); Some (mkV3 0 24 (-18))],
    [[z; z; z; z]; [(Some 4%nat, 200); (Some 5%nat, 300); z; z]; [(Some 5%nat, 300); z; z; z]]);
   (Some 1, [Some (mkV3 30 54 (-42)); Some (mkV3 54 54 (-36)); Some (mkV3 54 0 (-30))],
    [[(Some 5%nat, 200); z; z; z]; [(Some 4%nat, 400); z; z; z]; [(Some 5%nat, 700); z; z; z]])].
Proof.
  destruct (convert 100 60 (@rev _) ex_model) as [[[os bw] sets]|] eqn:E; [|vm_compute in E; discriminate]. vm_compute in E. injection E as <- <- <-.
  eexists _, _, _, _. split; [reflexivity|]. split; [split; [repeat constructor; cbn; lia|reflexivity]|]. split; [repeat constructor|]. split.
  { intros m [<-|[]] (r & [H|H]); discriminate. }
  split; [apply three_times_moved|]. split; [reflexivity|]. split; [repeat constructor; cbn; intuition lia|]. split; [vm_compute; reflexivity|]. vm_compute. reflexivity.
Qed.

(** Refuted: a morph with the name of a mesh object takes it out of the document, with all its faces. *)
Definition named_morph : pmodel Z := mkPModel (pVerts ex_model) (pFaces ex_model) (pMats ex_model) [mkPMorph "M_skin" [(5, mkV3 1 0 2)] []] 2.
Theorem C126_name_refuted : exists g, proper named_morph /\ Forall (fun f => length f = 3%nat) (pFaces named_morph) /\ as_gltf named_morph = Some g /\
  wanted named_morph 0 /\ length (drawn g) = 2%nat /\ forall t x, In (t, x) (drawn g) -> gcPos (snd x) <> Some (mkV3 0 0 (-6)) /\ gcPos (fst (fst x)) <> Some (mkV3 0 0 (-6)) /\ gcPos (snd (fst x)) <> Some (mkV3 0 0 (-6)).
Proof.
  destruct (as_gltf named_morph) as [g|] eqn:E; [|vm_compute in E; discriminate]. vm_compute in E. injection E as <-. eexists.
  split; [repeat split; repeat constructor; cbn; lia|]. split; [repeat constructor|]. split; [reflexivity|]. split.
  { split; [cbn; lia|]. exists 0, (mkPMat "skin" 3). split; [reflexivity|]. split; [reflexivity|]. intros [(a & H)|(b & H)]; [|discriminate].
    do 4 (destruct a as [|? a]; [discriminate H|]; cbn [String.append] in H; injection H as _ H). destruct a; discriminate. }
  split; [reflexivity|]. intros t x Hin. vm_compute in Hin. destruct Hin as [Hin|[Hin|[]]]; injection Hin as <- <-; repeat split; discriminate.
Qed.
Print Assumptions C126_name_refuted.

(** Refuted: the normals of the document are unit vectors if those of the model are.  A triangle, made twice as large. *)
Definition flat_model : pmodel Q :=
  mkPModel [mkPV (mkV3 0 0 0) (mkV3 0 0 1) (mkV2 0 0) [] []; mkPV (mkV3 1 0 0) (mkV3 0 0 1) (mkV2 1 0) [] []; mkPV (mkV3 0 1 0) (mkV3 0 0 1) (mkV2 0 1) [] []]%Q
           [[0; 1; 2]] [mkPMat "skin" 3] [] 0.
Definition flat_gltf : option (gdoc Q) :=
  match convert 100%Q 60%Q (@rev _) flat_model with
  | Some (os, bw, sets) => to_gltf 1%Q (1 # 100)%Q (1 # 100)%Q false false 0%Q 0%Q (fun _ => false)
      (mkDocument [mkMat "skin" 0 (mkV4 1 1 1 1)%Q 1 1 0 0 1 "" "" "" None false 0 None]%Q (map (apply_transform (mat_scale 2 2 2)%Q) os)) [] sets
  | None => None
  end.
Theorem C126_unit_refuted : Forall (fun v => v3dot (pvNormal v) (pvNormal v) = 1%Q) (pVerts flat_model) /\
  exists g, flat_gltf = Some g /\ map (fun t => map gcNormal [fst (fst (snd t)); snd (fst (snd t)); snd (snd t)]) (drawn g) = let n := Some (mkV3 0 0 (-1 # 2))%Q in [[n; n; n]].
Proof.
  split; [repeat constructor|]. destruct flat_gltf as [g|] eqn:E; [|vm_compute in E; discriminate]. exists g. split; [reflexivity|]. vm_compute in E. injection E as <-. vm_compute. reflexivity.
Qed.
Print Assumptions C126_unit_refuted.
