(** C133: a glTF scene saved as PMX shows the triangles of the scene. *)
From Coq Require Import String List ZArith Bool Lia Reals.
From Verif.Model Require Import Num NumR Vec Matrix Mqo MqoDoc MqoTransform Mmd2Mqo Mqo2Mmd Gltf Gltf2Mqo GltfScene.
From Verif Require Import Spec.Mqo2MmdSpec Spec.DrawnSpec Spec.FbxPmxSpec Spec.GltfSceneSpec Spec.GltfPmxSpec Proofs.TransformProofs Proofs.GltfPmx.
From Verif Require Props.C126 Props.C116.
Import ListNotations.
Local Open Scope Z_scope.

(** Full statement: the PMX model shows what the scene shows. Proved for meshes as in C116 whose materials exist, and no morph target with the name of a mesh.
    Every triangle of the scene is a face of its material, at its place moved, scaled and mirrored, its front in front; every face is such a triangle; material [k] has the name of material [k]. *)
Theorem C133_drawn_partial : forall (T : Type) (N : Num T) (facet half : T) (d : xdoc T) doc, import_scene facet half d = Some doc -> Forall simple_mesh (xdMeshes d) -> nodes_in_place d ->
  forall (move turn : vec3 T -> vec3 T) (dd : document T), Forall2 (moved_object move turn) (dObjects doc) (dObjects dd) -> dMaterials dd = dMaterials doc ->
  forall (scale centi : T) bones sets p, to_mmd scale centi dd bones sets = Some p -> materials_exist d -> no_targets d sets ->
  length (face_owners (pMats p)) = length (pFaces p) /\ map pmName (pMats p) = map (fun m => gtName (xtMat m)) (xdMats d) /\
  (forall k a b c, drawn d (Some k) a b c -> exists m ids, k = Z.of_nat m /\ In (m, ids) (painted_faces p) /\ face_at p ids (scaled scale (move a)) (scaled scale (move b)) (scaled scale (move c))) /\
  (forall m ids, In (m, ids) (painted_faces p) -> exists a b c, drawn d (Some (Z.of_nat m)) a b c /\ face_at p ids (scaled scale (move a)) (scaled scale (move b)) (scaled scale (move c))).
Proof. exact (fun T N => @gltf_pmx_drawn T N). Qed.
Print Assumptions C133_drawn_partial.
(** There are as many faces as triangles, so none is doubled either. *)
Theorem C133_count_partial : forall (T : Type) (N : Num T) (facet half : T) (d : xdoc T) doc, import_scene facet half d = Some doc -> Forall simple_mesh (xdMeshes d) -> nodes_in_place d ->
  forall (move turn : vec3 T -> vec3 T) (dd : document T), Forall2 (moved_object move turn) (dObjects doc) (dObjects dd) -> dMaterials dd = dMaterials doc ->
  forall (scale centi : T) bones sets p, to_mmd scale centi dd bones sets = Some p -> materials_exist d -> no_targets d sets -> length (pFaces p) = scene_triangles d.
Proof. exact (fun T N => @gltf_pmx_count T N). Qed.
Print Assumptions C133_count_partial.
(** The conversion succeeds. *)
Theorem C133_exported_partial : forall (T : Type) (N : Num T) (facet half : T) (d : xdoc T) doc, import_scene facet half d = Some doc -> Forall simple_mesh (xdMeshes d) ->
  forall (move turn : vec3 T -> vec3 T) (dd : document T), Forall2 (moved_object move turn) (dObjects doc) (dObjects dd) ->
  forall (scale centi : T) bones sets, to_mmd scale centi dd bones sets <> None.
Proof. exact (fun T N => @gltf_pmx_exported T N). Qed.
Print Assumptions C133_exported_partial.
(** With the document transformed in between, as the command does. *)
Theorem C133_transformed_partial : forall (facet half : R) (d : xdoc R) doc, import_scene facet half d = Some doc -> Forall simple_mesh (xdMeshes d) -> nodes_in_place d ->
  forall m dm dm' (scale centi : R) sets p, mdObjects dm = dObjects doc -> transform_doc m dm = Some dm' ->
  to_mmd scale centi (mkDocument (dMaterials doc) (mdObjects dm')) (mdBones dm') sets = Some p -> materials_exist d -> no_targets d sets ->
  (forall k a b c, drawn d (Some k) a b c -> exists i ids, k = Z.of_nat i /\ In (i, ids) (painted_faces p) /\
     face_at p ids (scaled scale (mat_apply m a)) (scaled scale (mat_apply m b)) (scaled scale (mat_apply m c))) /\
  (forall i ids, In (i, ids) (painted_faces p) -> exists a b c, drawn d (Some (Z.of_nat i)) a b c /\
     face_at p ids (scaled scale (mat_apply m a)) (scaled scale (mat_apply m b)) (scaled scale (mat_apply m c))).
Proof.
  intros facet half d doc EI HS HN m dm dm' scale centi sets p EO ET EP ME NT.
  destruct (TransformProofs.transform_doc_objects m dm dm' ET) as (L & _ & _ & _ & X).
  destruct (C133_drawn_partial R RNum facet half d doc EI HS HN (mat_apply m) (mat_apply (normal_transform m)) (mkDocument (dMaterials doc) (mdObjects dm'))) with (3 := EP) as (_ & _ & A & B); auto.
  rewrite <- EO. cbn [dObjects]. clear - L X. revert L X. generalize (mdObjects dm) as a, (mdObjects dm') as b. induction a as [|o a IH]; intros [|o' b] L X; try discriminate; constructor.
  - destruct (X 0%nat o eq_refl) as (x & [= <-] & Hx). apply C126.transformed. exact Hx.
  - apply IH; [cbn in L; lia|]. intros i y Hy. exact (X (S i) y Hy).
Qed.
Print Assumptions C133_transformed_partial.

(** A node with a mesh of two primitives with two materials, in a scene at its place. *)
Definition red : gmat Z := mkGMat "red" (mkV4 1 0 0 1) 1 1 (mkV3 0 0 0) false GOpaque false.
Definition two (mats : list (xmat Z)) (a b : option Z) (m : mat4 Z) : xdoc Z :=
  mkXDoc [mkXNode (Some 0%nat) m []] [0%nat] [mkXMesh "mesh" [C116.sprim [0; 1; 2] a 4; C116.sprim [1; 3; 2; 2; 3; 1] b 4]] mats [] [].
Definition both : list (xmat Z) := [mkXMat C116.white true None; mkXMat red true None].
Definition places (p : pmodel Z) : list (nat * list (option (vec3 Z))) := map (fun t => (fst t, map (fun id => option_map (@pvPos Z) (zidx (pVerts p) id)) (snd t))) (painted_faces p).
Definition run (d : xdoc Z) (sets : list target_list) : option (pmodel Z) := match import_scene 0 0 d with Some doc => to_mmd 2 1 doc [] sets | None => None end.
Example C133_example : let d := two both (Some 1) (Some 0) mat_id in
  Forall simple_mesh (xdMeshes d) /\ nodes_in_place d /\ materials_exist d /\ no_targets d [mkTL "a" ["b"%string]] /\ scene_triangles d = 3%nat /\
  (exists doc, import_scene 0 0 d = Some doc /\ Forall2 (moved_object (fun v => v) (fun n => n)) (dObjects doc) (dObjects doc)) /\
  option_map places (run d [mkTL "a" ["b"%string]]) =
  let a := Some (mkV3 0 0 0) in let b := Some (mkV3 2 0 0) in let c := Some (mkV3 0 2 0) in let e := Some (mkV3 2 2 0) in
  Some [(0%nat, [b; c; e]); (0%nat, [c; b; e]); (1%nat, [a; c; b])].
Proof.
  cbv zeta. split; [|split; [|split; [|split; [|split; [|split]]]]].
  - repeat constructor. exists C116.square. intros p [<-|[<-|[]]]; (repeat split; try discriminate); eexists; (split; [reflexivity|]); repeat constructor; cbn; lia.
  - intros i n j Hn _. destruct i as [|[|i]]; cbn in Hn; [|discriminate|discriminate]. injection Hn as <-. split.
    + eexists. apply (placed_root _ 0%nat (mkXNode (Some 0%nat) mat_id [])); [left|]; reflexivity.
    + intros f Hf v. inversion Hf as [i n Hi Hn E1 E2|p np g c nc Hp Hn Hc Hnc E1 E2].
      * injection Hn as <-. destruct v as [a b c]. unfold mat_apply, mat_id. cbn -[Z.mul Z.add]. f_equal; lia.
      * destruct p as [|[|p]]; cbn in Hn; [|discriminate|discriminate]. injection Hn as <-. destruct Hc.
  - intros m p k [<-|[]] [<-|[<-|[]]] E; cbn in E; injection E as <-; cbn; lia.
  - intros m s [<-|[]] [<-|[]] [E|[]]. discriminate E.
  - reflexivity.
  - eexists. split; [vm_compute; reflexivity|]. cbn [dObjects]. repeat constructor.
  - vm_compute. reflexivity.
Qed.

(** Refuted: a scene without materials gives a model without faces. *)
Theorem C133_bare_refuted : exists d : xdoc Z, xdMats d = [] /\
  (exists a b c, drawn d None a b c) /\ option_map (@pFaces Z) (run d []) = Some [].
Proof.
  exists (two [] None None mat_id). split; [reflexivity|]. split; [|vm_compute; reflexivity].
  exists (mat_apply mat_id (mkV3 0 0 0)), (mat_apply mat_id (mkV3 1 0 0)), (mat_apply mat_id (mkV3 0 1 0)).
  exists 0%nat, (mkXNode (Some 0%nat) mat_id []), (mat_apply mat_id), 0%nat. eexists. exists (C116.sprim [0; 1; 2] None 4), 0%nat, 0%nat, 1%nat, 2%nat, (mkV3 0 0 0), (mkV3 1 0 0), (mkV3 0 1 0).
  split; [apply (placed_root _ 0%nat (mkXNode (Some 0%nat) mat_id [])); [left|]; reflexivity|].
  do 3 (split; [reflexivity|]). split; [left; reflexivity|]. split; [reflexivity|]. split; [apply (cor_list 0)|].
  split; [exists C116.square; split; [reflexivity|]; exists 0; repeat split; lia|]. split; [exists C116.square; split; [reflexivity|]; exists 1; repeat split; lia|].
  split; [exists C116.square; split; [reflexivity|]; exists 2; repeat split; lia|]. repeat split.
Qed.
Print Assumptions C133_bare_refuted.
(** Refuted: the place of a node is lost. *)
Definition C133_place_full : Prop := forall (d : xdoc Z) p k a b c, Forall simple_mesh (xdMeshes d) -> materials_exist d -> run d [] = Some p -> drawn d (Some k) a b c ->
  exists m ids, In (m, ids) (painted_faces p) /\ face_at p ids (scaled 2 a) (scaled 2 b) (scaled 2 c).
Theorem C133_place_refuted : ~ C133_place_full.
Proof.
  intro H. pose (m := mat_translate 5 0 0). specialize (H (two both (Some 1) (Some 0) m)). destruct C133_example as (E1 & _ & E3 & _).
  destruct (run (two both (Some 1) (Some 0) m) []) as [p|] eqn:Er; [|vm_compute in Er; discriminate Er].
  destruct (H p 1 (mat_apply m (mkV3 0 0 0)) (mat_apply m (mkV3 1 0 0)) (mat_apply m (mkV3 0 1 0)) E1 E3 eq_refl) as (k & ids & I & x & y & z & -> & (v & Ev & Ep) & _).
  - exists 0%nat, (mkXNode (Some 0%nat) m []), (mat_apply m), 0%nat. eexists. exists (C116.sprim [0; 1; 2] (Some 1) 4), 0%nat, 0%nat, 1%nat, 2%nat, (mkV3 0 0 0), (mkV3 1 0 0), (mkV3 0 1 0).
    split; [apply (placed_root _ 0%nat (mkXNode (Some 0%nat) m [])); [left|]; reflexivity|].
    do 3 (split; [reflexivity|]). split; [left; reflexivity|]. split; [reflexivity|]. split; [apply (cor_list 0)|].
    split; [exists C116.square; split; [reflexivity|]; exists 0; repeat split; lia|]. split; [exists C116.square; split; [reflexivity|]; exists 1; repeat split; lia|].
    split; [exists C116.square; split; [reflexivity|]; exists 2; repeat split; lia|]. repeat split.
  - vm_compute in Er. injection Er as <-. vm_compute in I. destruct I as [I|[I|[I|[]]]]; injection I as <- <- <- <-; vm_compute in Ev; injection Ev as <-; vm_compute in Ep; discriminate Ep.
Qed.
Print Assumptions C133_place_refuted.
