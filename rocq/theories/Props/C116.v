(** C116: An imported glTF scene shows what the scene shows. *)
From Coq Require Import String List ZArith Bool Lia.
From Verif.Model Require Import Num Vec Matrix Mqo MqoDoc Mmd2Mqo Gltf Gltf2Mqo GltfScene.
From Verif Require Import Spec.GltfSceneSpec Proofs.GltfSceneProofs.
Import ListNotations.
Local Open Scope Z_scope.

(** The claim holds if the meshes are lists of triangles on shared positions, every primitive has a material, every node with a
    mesh is in the scene and no matrix moves its points. *)
Theorem C116_look_partial : forall (T : Type) (N : Num T) (facet half : T) (d : xdoc T) doc, import_scene facet half d = Some doc ->
  Forall simple_mesh (xdMeshes d) -> nodes_in_place d -> same_look d (dObjects doc).
Proof. exact (fun T N => @scene_looks T N). Qed.
Print Assumptions C116_look_partial.

(** The materials keep their names, and a texture is the URI of the image of the material. *)
Theorem C116_textures : forall (T : Type) (N : Num T) (facet half : T) (d : xdoc T) doc, import_scene facet half d = Some doc ->
  Forall2 (fun m r => mtName r = gtName (xtMat m) /\
    (forall uri, shows_image d m uri -> mtTexture r = uri) /\
    ((forall uri, ~ shows_image d m uri) -> mtTexture r = ""%string /\ (xtPbr m = true -> xtTexture m = None))) (xdMats d) (dMaterials doc).
Proof. exact (fun T N => @scene_textures T N). Qed.
Print Assumptions C116_textures.

(** A material whose texture leads to no image stops the program. *)
Theorem C116_crash : forall (T : Type) (N : Num T) (facet half : T) (d : xdoc T) m, In m (xdMats d) -> xtPbr m = true -> xtTexture m <> None ->
  (forall uri, ~ shows_image d m uri) -> import_scene facet half d = None.
Proof. exact (fun T N => @texture_crash T N). Qed.
Print Assumptions C116_crash.

Definition square : list (vec3 Z) := [mkV3 0 0 0; mkV3 1 0 0; mkV3 0 1 0; mkV3 1 1 0].
Definition sprim (is_ : list Z) (mat : option Z) (mode : Z) : xprim Z := mkXPrim (mkPrim (Some square) None None None [] (Some is_) mat) mode.
Definition white : gmat Z := mkGMat "white" (mkV4 1 1 1 1) 1 1 (mkV3 0 0 0) false GOpaque false.
Definition one (p : xprim Z) (m : mat4 Z) (scene : list nat) : xdoc Z :=
  mkXDoc [mkXNode (Some 0%nat) m []] scene [mkXMesh "mesh" [p]] [mkXMat white true None] [] [].

(** The place of a node is lost: everything is at the origin. *)
Theorem C116_place_refuted : exists (d : xdoc Z) doc, import_scene 0 0 d = Some doc /\ Forall simple_mesh (xdMeshes d) /\ ~ same_look d (dObjects doc).
Proof.
  exists (one (sprim [0; 1; 2] (Some 0) 4) (mat_translate 5 0 0) [0%nat]). eexists. split; [vm_compute; reflexivity|]. split.
  { repeat constructor. exists square. intros p [<-|[]]. repeat split; try discriminate. exists [0; 1; 2]. split; [reflexivity|]. repeat constructor; cbn; lia. }
  intros [H _]. destruct (H (Some 0) (mkV3 5 0 0) (mkV3 6 0 0) (mkV3 5 1 0)) as (k & _ & o & f & x & y & z & Ho & Hf & _ & Hv & Ha & _).
  - exists 0%nat, (mkXNode (Some 0%nat) (mat_translate 5 0 0) []), (mat_apply (mat_translate 5 0 0)), 0%nat, (mkXMesh "mesh" [sprim [0; 1; 2] (Some 0) 4]), (sprim [0; 1; 2] (Some 0) 4), 0%nat, 0%nat, 1%nat, 2%nat, (mkV3 0 0 0), (mkV3 1 0 0), (mkV3 0 1 0).
    split; [apply (placed_root _ 0%nat (mkXNode (Some 0%nat) (mat_translate 5 0 0) [])); [left|]; reflexivity|].
    do 3 (split; [reflexivity|]). split; [left; reflexivity|]. split; [reflexivity|]. split; [apply (cor_list 0)|].
    split; [exists square; split; [reflexivity|]; exists 0; repeat split; lia|]. split; [exists square; split; [reflexivity|]; exists 1; repeat split; lia|].
    split; [exists square; split; [reflexivity|]; exists 2; repeat split; lia|]. repeat split.
  - cbn in Ho. destruct Ho as [<-|[]]. cbn in Hf. destruct Hf as [<-|[]]. cbn in Hv. injection Hv as <- <- <-. vm_compute in Ha. discriminate.
Qed.
Print Assumptions C116_place_refuted.

(** A strip of triangles is read as a list of triangles: of its two triangles the second one is lost. *)
Theorem C116_strip_refuted : exists (d : xdoc Z) doc, import_scene 0 0 d = Some doc /\ nodes_in_place d /\ ~ same_look d (dObjects doc).
Proof.
  exists (one (sprim [0; 1; 2; 3] (Some 0) 5) mat_id [0%nat]). eexists. split; [vm_compute; reflexivity|]. split.
  { intros i n j Hn _. destruct i as [|[|i]]; cbn in Hn; [|discriminate|discriminate]. injection Hn as <-. split.
    - eexists. apply (placed_root _ 0%nat (mkXNode (Some 0%nat) mat_id [])); [left|]; reflexivity.
    - intros f Hf v. inversion Hf as [i n Hi Hn E1 E2|p np g c nc Hp Hn Hc Hnc E1 E2].
      + injection Hn as <-. destruct v as [a b c]. unfold mat_apply, mat_id. cbn -[Z.mul Z.add]. f_equal; lia.
      + destruct p as [|[|p]]; cbn in Hn; [|discriminate|discriminate]. injection Hn as <-. destruct Hc. }
  intros [H _]. destruct (H (Some 0) (mkV3 1 0 0) (mkV3 1 1 0) (mkV3 0 1 0)) as (k & _ & o & f & x & y & z & Ho & Hf & _ & Hv & Ha & _).
  - exists 0%nat, (mkXNode (Some 0%nat) mat_id []), (mat_apply mat_id), 0%nat, (mkXMesh "mesh" [sprim [0; 1; 2; 3] (Some 0) 5]), (sprim [0; 1; 2; 3] (Some 0) 5), 1%nat, 1%nat, 3%nat, 2%nat, (mkV3 1 0 0), (mkV3 1 1 0), (mkV3 0 1 0).
    split; [apply (placed_root _ 0%nat (mkXNode (Some 0%nat) mat_id [])); [left|]; reflexivity|].
    do 3 (split; [reflexivity|]). split; [left; reflexivity|]. split; [reflexivity|]. split; [apply (cor_strip_odd 1); exists 0%nat; reflexivity|].
    split; [exists square; split; [reflexivity|]; exists 1; repeat split; lia|]. split; [exists square; split; [reflexivity|]; exists 3; repeat split; lia|].
    split; [exists square; split; [reflexivity|]; exists 2; repeat split; lia|]. repeat split.
  - cbn in Ho. destruct Ho as [<-|[]]. cbn in Hf. destruct Hf as [<-|[]]. cbn in Hv. injection Hv as <- <- <-. vm_compute in Ha. discriminate.
Qed.
Print Assumptions C116_strip_refuted.

(** Lines become triangles. *)
Theorem C116_lines_refuted : exists (d : xdoc Z) doc a b c, import_scene 0 0 d = Some doc /\ (forall mat x y z, ~ drawn d mat x y z) /\ shown (dObjects doc) 0 a b c.
Proof.
  exists (one (sprim [0; 1; 2; 3] (Some 0) 1) mat_id [0%nat]). eexists. exists (mkV3 0 0 0), (mkV3 1 0 0), (mkV3 0 1 0). split; [vm_compute; reflexivity|]. split.
  - intros mat x y z (i & n & f & j & m & p & k & t & u & v & qa & qb & qc & _ & _ & _ & Hm & Hp & _ & Hc & _).
    destruct j as [|[|j]]; cbn in Hm; [|discriminate|discriminate]. injection Hm as <-. destruct Hp as [<-|[]]. cbn in Hc. inversion Hc.
  - do 2 eexists. exists 0, 1, 2. split; [left; reflexivity|]. split; [left; reflexivity|]. repeat split.
Qed.
Print Assumptions C116_lines_refuted.

(** A node that is not in the scene is shown. *)
Theorem C116_outside_refuted : exists (d : xdoc Z) doc a b c, import_scene 0 0 d = Some doc /\ Forall simple_mesh (xdMeshes d) /\
  (forall mat x y z, ~ drawn d mat x y z) /\ shown (dObjects doc) 0 a b c.
Proof.
  exists (one (sprim [0; 1; 2] (Some 0) 4) mat_id []). eexists. exists (mkV3 0 0 0), (mkV3 1 0 0), (mkV3 0 1 0). split; [vm_compute; reflexivity|]. split.
  { repeat constructor. exists square. intros p [<-|[]]. repeat split; try discriminate. exists [0; 1; 2]. split; [reflexivity|]. repeat constructor; cbn; lia. }
  split.
  - intros mat x y z (i & n & f & j & m & p & k & t & u & v & qa & qb & qc & Hpl & _). clear -Hpl. induction Hpl as [i n Hi|]; [destruct Hi|assumption].
  - do 2 eexists. exists 0, 1, 2. split; [left; reflexivity|]. split; [left; reflexivity|]. repeat split.
Qed.
Print Assumptions C116_outside_refuted.

(** A primitive without material, which has the default material, gets the first material of the document, whatever that is. *)
Theorem C116_default_refuted : exists (d : xdoc Z) doc a b c, import_scene 0 0 d = Some doc /\ nodes_in_place d /\
  drawn d None a b c /\ (forall k, ~ drawn d (Some k) a b c) /\ shown (dObjects doc) 0 a b c.
Proof.
  exists (one (sprim [0; 1; 2] None 4) mat_id [0%nat]). eexists. exists (mkV3 0 0 0), (mkV3 1 0 0), (mkV3 0 1 0). split; [vm_compute; reflexivity|]. split.
  { intros i n j Hn _. destruct i as [|[|i]]; cbn in Hn; [|discriminate|discriminate]. injection Hn as <-. split.
    - eexists. apply (placed_root _ 0%nat (mkXNode (Some 0%nat) mat_id [])); [left|]; reflexivity.
    - intros f Hf v. inversion Hf as [i n Hi Hn E1 E2|p np g c nc Hp Hn Hc Hnc E1 E2].
      + injection Hn as <-. destruct v as [a b c]. unfold mat_apply, mat_id. cbn -[Z.mul Z.add]. f_equal; lia.
      + destruct p as [|[|p]]; cbn in Hn; [|discriminate|discriminate]. injection Hn as <-. destruct Hc. }
  split; [|split].
  - exists 0%nat, (mkXNode (Some 0%nat) mat_id []), (mat_apply mat_id), 0%nat, (mkXMesh "mesh" [sprim [0; 1; 2] None 4]), (sprim [0; 1; 2] None 4), 0%nat, 0%nat, 1%nat, 2%nat, (mkV3 0 0 0), (mkV3 1 0 0), (mkV3 0 1 0).
    split; [apply (placed_root _ 0%nat (mkXNode (Some 0%nat) mat_id [])); [left|]; reflexivity|].
    do 3 (split; [reflexivity|]). split; [left; reflexivity|]. split; [reflexivity|]. split; [apply (cor_list 0)|].
    split; [exists square; split; [reflexivity|]; exists 0; repeat split; lia|]. split; [exists square; split; [reflexivity|]; exists 1; repeat split; lia|].
    split; [exists square; split; [reflexivity|]; exists 2; repeat split; lia|]. repeat split.
  - intros k (i & n & f & j & m & p & t & x & y & z & qa & qb & qc & _ & _ & _ & Hm & Hp & Hmat & _).
    destruct j as [|[|j]]; cbn in Hm; [|discriminate|discriminate]. injection Hm as <-. destruct Hp as [<-|[]]. discriminate.
  - do 2 eexists. exists 0, 1, 2. split; [left; reflexivity|]. split; [left; reflexivity|]. repeat split.
Qed.
Print Assumptions C116_default_refuted.

(** Two materials with different pictures in the buffers of the document (as in every .glb file): both come without texture. *)
Theorem C116_embedded_refuted : exists (d : xdoc Z) doc, xdImages d = [""; ""]%string /\
  map (fun m => xtTexture m) (xdMats d) = [Some 0%nat; Some 1%nat] /\ xdTextures d = [Some 0%nat; Some 1%nat] /\
  import_scene 0 0 d = Some doc /\ map mtTexture (dMaterials doc) = [""; ""]%string.
Proof.
  exists (mkXDoc [] [] [] [mkXMat white true (Some 0%nat); mkXMat white true (Some 1%nat)] [Some 0%nat; Some 1%nat] [""; ""]%string).
  eexists. do 3 (split; [reflexivity|]). split; vm_compute; reflexivity.
Qed.
Print Assumptions C116_embedded_refuted.

(** A texture whose picture is named by an extension only, with no source of its own, stops the program. *)
Theorem C116_source_refuted : exists d : xdoc Z, xdMeshes d <> [] /\ xdImages d = ["a.webp"]%string /\ xdTextures d = [None] /\
  forall facet half, import_scene facet half d = None.
Proof.
  exists (mkXDoc [mkXNode (Some 0%nat) mat_id []] [0%nat] [mkXMesh "mesh" [sprim [0; 1; 2] (Some 0) 4]] [mkXMat white true (Some 0%nat)] [None] ["a.webp"]%string).
  split; [discriminate|]. split; [reflexivity|]. split; [reflexivity|]. intros. reflexivity.
Qed.
Print Assumptions C116_source_refuted.

Definition room : xdoc Z :=
  mkXDoc [mkXNode None mat_id [1%nat]; mkXNode (Some 0%nat) mat_id []] [0%nat]
    [mkXMesh "floor" [sprim [0; 1; 2; 2; 1; 3] (Some 0) 4; sprim [0; 3; 2] (Some 1) 4]]
    [mkXMat white true (Some 0%nat); mkXMat white false (Some 7%nat)] [Some 1%nat] ["a.png"; "b.png"]%string.
Example C116_example :
  option_map (fun doc => (map mtTexture (dMaterials doc), map (fun o => map (fun f => (fMaterial f, fVerts f)) (oFaces o)) (dObjects doc))) (import_scene 0 0 room) =
  Some (["b.png"; ""]%string, [[(0, [0; 2; 1]); (0, [2; 3; 1]); (1, [0; 2; 3])]]) /\
  Forall simple_mesh (xdMeshes room) /\ nodes_in_place room.
Proof.
  split; [vm_compute; reflexivity|]. split.
  - repeat constructor. exists square. intros p [<-|[<-|[]]]; (repeat split; try discriminate); eexists; (split; [reflexivity|]); repeat constructor; cbn; lia.
  - assert (Id : forall v : vec3 Z, mat_apply mat_id v = v).
    { intros [a b c]. unfold mat_apply, mat_id. cbn -[Z.mul Z.add]. f_equal; lia. }
    assert (All : forall i f, placed room i f -> forall v, f v = v).
    { intros i f H. induction H as [i n Hi Hn|p np f c nc H IH Hn Hc Hnc]; intros v.
      - destruct i as [|[|[|i]]]; cbn in Hn; try discriminate; injection Hn as <-; apply Id.
      - rewrite IH. destruct c as [|[|[|c]]]; cbn in Hnc; try discriminate; injection Hnc as <-; apply Id. }
    intros i n j Hn Hj. split; [|intros f Hf; exact (All i f Hf)].
    assert (R : placed room 0 (mat_apply mat_id)) by (apply (placed_root room 0%nat (mkXNode None mat_id [1%nat])); [left|]; reflexivity).
    destruct i as [|[|[|i]]]; cbn in Hn; try discriminate.
    + eauto.
    + eexists. eapply (placed_child room 0%nat (mkXNode None mat_id [1%nat]) _ 1%nat (mkXNode (Some 0%nat) mat_id [])); [exact R|reflexivity|left; reflexivity|reflexivity].
Qed.
