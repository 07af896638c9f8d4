(** C105: materials with transparent textures are blended. *)
From Coq Require Import String Ascii List ZArith QArith Bool Lqa Lia.
From Verif.Model Require Import Num Vec Matrix Mqo MqoDoc Normals Gltf Mqo2Gltf Cli Mqo2GltfTextures.
From Verif.Spec Require Import TextureSpec AlphaSpec.
From Verif.Proofs Require Import AlphaProofs.
From Verif.Props Require C103.
Import ListNotations.
Local Open Scope Z_scope.
Local Open Scope list_scope.

(** Materials (other than those of glTF, which say so themselves) are blended only if their colour is not opaque or, with the option, some pixel of their texture is not. *)
Theorem C105_only : forall file decode_tga decode resample png jpeg join opts o99 rough ms ts st,
  convert_tmats file decode_tga decode resample png jpeg join opts o99 rough ts0 ms = Some (ts, st) ->
  Forall2 (fun p t => other_shader (fst p) -> gtAlpha (tmMat t) = GBlend ->
    (qw (mtColor (fst p)) < o99)%Q \/ (toDetect opts = true /\ exists pc x y, load_image file decode_tga decode join (mtTexture (fst p)) = Some pc /\
       0 <= x < pW pc /\ 0 <= y < pH pc /\ pOpaque pc x y = false)) ms ts.
Proof. exact blend_sound. Qed.
Print Assumptions C105_only.

(** A pixel that is not opaque and lies in the rectangle around the corners of the faces is found: for pictures with 8 bits per channel, if every vertex has one texture
    coordinate and faces of one material, for corners inside of the picture. *)
Theorem C105_found_partial : forall file decode_tga decode resample png jpeg join opts scale centi eps ignore o99 rough d bones sets ts st i m,
  let os := target_objects ignore sets (fix_ids 0 (dObjects d)) in
  export_materials file decode_tga decode resample png jpeg join opts scale centi eps ignore o99 rough d bones sets = Some (ts, st) ->
  (forall o fs, In o os -> oVisible o = true -> loop_faces o = Some fs -> one_use fs) ->
  nth_error (dMaterials d) i = Some m -> material_kept os (Z.of_nat i) (mtName m) = true -> other_shader m -> toDetect opts = true ->
  mtTexture m <> ""%string -> has_suffix ".jpg" (mtTexture m) = false -> has_suffix ".bmp" (mtTexture m) = false ->
  forall p x y, load_image file decode_tga decode join (mtTexture m) = Some p -> pModel p <> MOther -> pOpaque p x y = false ->
  in_box (fun u => exists o fs, In o os /\ oVisible o = true /\ loop_faces o = Some fs /\ corner_at fs (Z.of_nat i) u) p x y ->
  exists t, In t ts /\ gtName (tmMat t) = mtName m /\ gtAlpha (tmMat t) = GBlend.
Proof. exact blend_complete. Qed.
Print Assumptions C105_found_partial.

(** A picture of 8 x 8 pixels of which one is transparent, and faces that show parts of it. *)
Definition C105_pic (c : cmodel) (tx ty : Z) : pic := mkPic 8 8 c (fun x y => negb ((x =? tx) && (y =? ty))).
Definition C105_file (p : string) : option (list Z) := if String.eqb p "dir/leaf.png" then Some [] else None.
Definition C105_opts : topts := mkTO false 0 0 1 true false.
Definition C105_obj (nm : string) (vs : list (vec3 Q)) (fs : list (face Q)) : object Q :=
  mkObj 0 nm vs fs true false 0 false 0 0%Q 0 0 0 0%Q None None None None [] None.
Definition C105_square : list (vec3 Q) := [mkV3 0 0 0; mkV3 1 0 0; mkV3 1 1 0; mkV3 0 1 0]%Q.
Definition C105_up : list (option (vec3 Q)) := [Some (mkV3 0 0 1); Some (mkV3 0 0 1); Some (mkV3 0 0 1)]%Q.
Definition C105_leaf : material Q := C103.C103_mat "leaf" "leaf.png" "" None.
(** Two triangles with materials [a] and [b] whose corners are [l] and [r] in both directions. *)
Definition C105_faces (a b : Z) (l r : Q) : list (face Q) :=
  [mkFace 0 [0; 1; 2] a [mkV2 l l; mkV2 r l; mkV2 r r] C105_up; mkFace 0 [0; 2; 3] b [mkV2 l l; mkV2 r r; mkV2 l r] C105_up].
Definition C105_doc (a b : Z) (l r : Q) : document Q := mkDocument [C105_leaf; C105_leaf] [C105_obj "tree" C105_square (C105_faces a b l r)].
Definition C105_run (p : pic) (d : document Q) : option (list bool) :=
  option_map (fun r => map (fun t => match gtAlpha (tmMat t) with GBlend => true | _ => false end) (fst r))
    (export_materials C105_file (fun _ => Some p) (fun _ => Some p) C103.C103_resample C103.C103_png C103.C103_png C103.C103_join C105_opts
       1 (1 # 100) (1 # 10000) false (99 # 100) (4 # 10) d [] []).
Example C105_example :
  C105_run (C105_pic MNRGBA 3 4) (C105_doc 0 0 (1 # 8) (7 # 8)) = Some [true] /\ C105_run (C105_pic MNRGBA 0 4) (C105_doc 0 0 (1 # 8) (7 # 8)) = Some [false] /\
  loop_faces (C105_obj "tree" C105_square (C105_faces 0 0 (1 # 8) (7 # 8))) = Some (C105_faces 0 0 (1 # 8) (7 # 8)) /\ one_use (C105_faces 0 0 (1 # 8) (7 # 8)) /\
  in_box (corner_at (C105_faces 0 0 (1 # 8) (7 # 8)) 0) (C105_pic MNRGBA 3 4) 3 4.
Proof.
  split; [vm_compute; reflexivity|]. split; [vm_compute; reflexivity|]. split; [vm_compute; reflexivity|]. split.
  - intros f g k l v Hf Hg Hk Hl. destruct Hf as [<-|[<-|[]]], Hg as [<-|[<-|[]]]; cbn [fVerts fMaterial fUVs] in *; (split; [reflexivity|]);
      destruct k as [|[|[|k]]]; cbn in Hk; try (destruct k; discriminate); destruct l as [|[|[|l]]]; cbn in Hl; try (destruct l; discriminate);
      try (injection Hk as <-; injection Hl as Hl; discriminate); reflexivity.
  - split; [cbn; lia|]. split; [cbn; lia|].
    assert (A : corner_at (C105_faces 0 0 (1 # 8) (7 # 8)) 0 (mkV2 (1 # 8) (1 # 8))) by (exists (mkFace 0 [0; 1; 2] 0 [mkV2 (1 # 8) (1 # 8); mkV2 (7 # 8) (1 # 8); mkV2 (7 # 8) (7 # 8)] C105_up), 0%nat, 0; cbn; repeat split; auto).
    assert (B : corner_at (C105_faces 0 0 (1 # 8) (7 # 8)) 0 (mkV2 (7 # 8) (7 # 8))) by (exists (mkFace 0 [0; 1; 2] 0 [mkV2 (1 # 8) (1 # 8); mkV2 (7 # 8) (1 # 8); mkV2 (7 # 8) (7 # 8)] C105_up), 2%nat, 2; cbn; repeat split; auto).
    assert (PA : in_picture (mkV2 (1 # 8) (1 # 8))) by (unfold in_picture; cbn; lra). assert (PB : in_picture (mkV2 (7 # 8) (7 # 8))) by (unfold in_picture; cbn; lra).
    exists (mkV2 (1 # 8) (1 # 8)), (mkV2 (7 # 8) (7 # 8)), (mkV2 (1 # 8) (1 # 8)), (mkV2 (7 # 8) (7 # 8)). repeat (split; [assumption|]). cbn [v2x v2y pW pH C105_pic]. unfold Qle, inject_Z; cbn; lia.
Qed.

(** Refuted: of faces that show the whole picture, from 0 to 1, nothing is looked at, since 1 counts as 0. *)
Theorem C105_whole_refuted : C105_run (C105_pic MNRGBA 3 4) (C105_doc 0 0 0 1) = Some [false].
Proof. vm_compute. reflexivity. Qed.
Print Assumptions C105_whole_refuted.
(** Refuted: pictures with a palette and pictures with 16 bits per channel are taken for opaque. *)
Theorem C105_palette_refuted : C105_run (C105_pic MOther 3 4) (C105_doc 0 0 (1 # 8) (7 # 8)) = Some [false].
Proof. vm_compute. reflexivity. Qed.
Print Assumptions C105_palette_refuted.
(** Refuted: corners at vertices that were used for another material before do not count: both triangles show the pixel, but only the first material is blended. *)
Theorem C105_shared_refuted : C105_run (C105_pic MNRGBA 3 3) (C105_doc 0 1 (1 # 8) (7 # 8)) = Some [true; false].
Proof. vm_compute. reflexivity. Qed.
Print Assumptions C105_shared_refuted.
(** Refuted: the last column and the last row of pixels are not looked at. *)
Theorem C105_edge_refuted : C105_run (C105_pic MNRGBA 3 7) (C105_doc 0 0 0 (255 # 256)) = Some [false].
Proof. vm_compute. reflexivity. Qed.
Print Assumptions C105_edge_refuted.
