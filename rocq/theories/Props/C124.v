(** C124: the contents of objects in FBX files. *)
From Coq Require Import String List ZArith Bool.
From Verif.Model Require Import Num Vec Matrix Codec Fbx FbxDoc FbxRead Fbx2Mqo.
From Verif.Spec Require Import FbxReadSpec FbxContentSpec.
From Verif.Proofs Require Import FbxContentProofs.
From Verif.Props Require Import C111.
Import ListNotations.
Local Open Scope Z_scope.
Local Open Scope list_scope.

(** For all files and all of their objects: points, faces, layers, shapes, weights, matrices, names, kinds and properties are what the nodes say: the first child of a
    name, an array of any type, the last row of a property or that of the template. *)
Theorem C124_contents_partial : forall (T : Type) (N : Num T) f32 f64 of_int local_of root i m, nth_error (kids_at (top root "Objects")) i = Some m ->
  let o := fdObjs (read_doc f32 f64 of_int local_of root) (S i) in
  (node_name m = byt "Geometry" -> exists g, o = Some (OGeom g) /\ geometry_says f32 f64 of_int m g /\ (forall s, object_string root m 1 s -> gKind g = str s)) /\
  (node_name m = byt "Deformer" -> exists f, o = Some (ODef f) /\ deformer_says f32 f64 of_int m f /\ (forall s, object_string root m 1 s -> dfKind f = str s)) /\
  (node_name m = byt "Material" -> exists x, o = Some (OMat x) /\ (forall s, object_string root m 0 s -> fxName x = str s) /\
     (forall n, n <> EmptyString -> values_say f32 f64 of_int root m n (fxProp x n))) /\
  (node_name m = byt "Model" -> exists x p, o = Some (OModel x) /\ (forall s, object_string root m 0 s -> fmName x = str s) /\ (forall s, object_string root m 1 s -> fmKind x = str s) /\
     (forall n, n <> EmptyString -> values_say f32 f64 of_int root m n (p n)) /\ fmLocal x = local_of p /\ fmPivot x = attr_vec (p "ScalingPivot"%string) nzero nzero nzero).
Proof. exact @contents. Qed.
Print Assumptions C124_contents_partial.

(** In files of version 6100 models hold their geometries, in others none do. *)
Theorem C124_held : forall (T : Type) (N : Num T) f32 f64 of_int local_of root i m, nth_error (kids_at (top root "Objects")) i = Some m ->
  let d := read_doc f32 f64 of_int local_of root in
  (version root = 6100 -> node_name m = byt "Model" -> (exists c, child "Vertices" m c) ->
    exists o g, fdHeld d (S i) = [o] /\ fdObjs d o = Some (OGeom g) /\ geometry_says f32 f64 of_int m g /\ (length (kids_at (top root "Objects")) < o)%nat) /\
  (version root <> 6100 \/ node_name m <> byt "Model" \/ childless "Vertices" m -> fdHeld d (S i) = []).
Proof. exact @holding. Qed.
Print Assumptions C124_held.

(** The axes are those of the global settings, x to the right, y up and z to the front without them. *)
Theorem C124_axes : forall (T : Type) (N : Num T) f32 f64 of_int local_of root g, child "GlobalSettings" root g ->
  forall r1 r2 r3 q1 q2 q3 a b c x y z, property_says root g "CoordAxis" r1 -> property_says root g "UpAxis" r2 -> property_says root g "FrontAxis" r3 ->
  property_says root g "CoordAxisSign" q1 -> property_says root g "UpAxisSign" q2 -> property_says root g "FrontAxisSign" q3 ->
  whole_at r1 4 a -> whole_at r2 4 b -> whole_at r3 4 c -> whole_at q1 4 x -> whole_at q2 4 y -> whole_at q3 4 z ->
  fdCoord (read_doc f32 f64 of_int local_of root) = coord_matrix a b c (of_int x) (of_int y) (of_int z).
Proof. exact @axes. Qed.
Print Assumptions C124_axes.
Theorem C124_axes_default : forall (T : Type) (N : Num T) f32 f64 of_int local_of root, childless "GlobalSettings" root -> template root (byt "GlobalSettings") = None ->
  fdCoord (read_doc f32 f64 of_int local_of root) = coord_matrix 0 1 2 none none none.
Proof. exact @axes_default. Qed.
Print Assumptions C124_axes_default.

(** A material with one property twice, one of its template and one of neither; a geometry with points in doubles, faces in 64 bits, texture coordinates and shapes with
    both forms of names; the up axis is z. *)
Definition C124_material : node := nd "Material" [AI64 30; class "red" "Material"; sval ""]
  [nd "Properties70" [] [C111_row "DiffuseColor" [AF64 1; AF64 0; AF64 0]; C111_row "DiffuseColor" [AF64 0; AI32 7; sval "x"]]].
Definition C124_geometry : node := nd "Geometry" [AI64 20; class "" "Geometry"; sval "Mesh"]
  [nd "Vertices" [AF64s [0; 0; 0; 1; 0; 0; 0; 1; 0]] []; nd "PolygonVertexIndex" [AI64s [0; 1; -3]] [];
   nd "LayerElementUV" [AI32 0] [nd "MappingInformationType" [sval "ByPolygonVertex"] []; nd "UV" [AF32s [4; 5; 6; 7]] []; nd "UVIndex" [AI32 1; AI16 0; AI8 1] []];
   nd "LayerElementUV" [AI32 1] []; nd "Vertices" [AF64s [9; 9; 9]] [];
   nd "Shape" [AI64 5; class "smile" "Geometry"; sval "Shape"] [nd "Vertices" [AF32s [1; 2; 3]] []; nd "Indexes" [AI32s [2]] []]; nd "Shape" [sval "blink"] []].
Definition C124_root : node := Node (byt "_FBX_ROOT") []
  [nd "FBXHeaderExtension" [] [nd "FBXVersion" [AI32 7400] []];
   nd "GlobalSettings" [] [nd "Properties70" [] [C111_row "CoordAxis" [AI32 0]; C111_row "CoordAxisSign" [AI32 1]; C111_row "UpAxis" [AI32 2]; C111_row "UpAxisSign" [AI32 1];
     C111_row "FrontAxis" [AI32 1]; C111_row "FrontAxisSign" [AI32 (-1)]]];
   nd "Definitions" [] [nd "ObjectType" [sval "Material"] [nd "PropertyTemplate" [] [nd "Properties70" [] [C111_row "DiffuseColor" [AF64 8; AF64 8; AF64 8]; C111_row "Shininess" [AF64 20]]]];
     nd "ObjectType" [sval "Model"] []];
   nd "Objects" [] [C124_material; C124_geometry]].
Example C124_example :
  match fdObjs (C111_doc C124_root) 1, fdObjs (C111_doc C124_root) 2 with
  | Some (OMat m), Some (OGeom g) =>
      fxProp m "DiffuseColor" = [Some 0; Some 7; None] /\ fxProp m "Shininess" = [Some 20] /\ fxProp m "Opacity" = [] /\
      gVerts g = [mkV3 0 0 0; mkV3 1 0 0; mkV3 0 1 0] /\ gIndex g = [0; 1; -3] /\ lMapping (gUVs g) = "ByPolygonVertex"%string /\ lValues (gUVs g) = [mkV2 4 5; mkV2 6 7] /\
      lIndexes (gUVs g) = [1; 0; 1] /\ map (fun s => (shName s, shVerts s, shIndexes s)) (gShapes g) = [(str (byt "smile" ++ [0; 1] ++ byt "Geometry"), [mkV3 1 2 3], [2]); ("blink"%string, [], [])]
  | _, _ => False
  end /\ fdCoord (C111_doc C124_root) = coord_matrix 0 2 1 1 1 (-1).
Proof. vm_compute. repeat split. Qed.
(** They meet the conditions. *)
Example C124_meets : (exists r, property_says C124_root C124_material "Shininess" r /\ node_attrs r = node_attrs (C111_row "Shininess" [AF64 20])) /\
  has_floats (T := Z) (fun z => z) (fun z => z) (fun z => z) "Vertices" C124_geometry [0; 0; 0; 1; 0; 0; 0; 1; 0] /\ has_ints "PolygonVertexIndex" C124_geometry [0; 1; -3].
Proof.
  split; [|split].
  - exists (C111_row "Shininess" [AF64 20]). split; [|reflexivity]. apply (property_iff C124_root C124_material 77 (tl (byt "Material"))); [discriminate|reflexivity|vm_compute; reflexivity].
  - left. eexists. split; [apply child_iff; vm_compute; reflexivity|]. replace [0; 0; 0; 1; 0; 0; 0; 1; 0] with (map (fun z : Z => z) [0; 0; 0; 1; 0; 0; 0; 1; 0]) by reflexivity. apply fl_double. discriminate.
  - left. eexists. split; [apply child_iff; vm_compute; reflexivity|]. apply il_int64; [discriminate|]. repeat (apply Forall_cons; [split; [discriminate|reflexivity]|]). apply Forall_nil.
Qed.

(** Refuted: an empty array of doubles is read as one number, zero; the deformer below has no weights. *)
Theorem C124_empty_refuted : exists f, fdObjs (C111_doc (C111_file 7400 [nd "Deformer" [AI64 1; class "" "SubDeformer"; sval "Cluster"] [nd "Weights" [AF64s []] []; nd "Indexes" [AI64s []] []]] [])) 1
  = Some (ODef f) /\ dfWeights f = [0] /\ dfIndexes f = [0].
Proof. eexists. split; [vm_compute; reflexivity|]. split; reflexivity. Qed.
Print Assumptions C124_empty_refuted.
(** Refuted: an index that does not fit into 32 bits becomes another point. *)
Theorem C124_wide_refuted : exists f, fdObjs (C111_doc (C111_file 7400 [nd "Deformer" [AI64 1; class "" "SubDeformer"; sval "Cluster"] [nd "Indexes" [AI64s [2 ^ 32 + 5]] []]] [])) 1
  = Some (ODef f) /\ dfIndexes f = [5].
Proof. eexists. split; [vm_compute; reflexivity|]. reflexivity. Qed.
Print Assumptions C124_wide_refuted.
