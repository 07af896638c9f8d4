(** The parts of a glTF document the converters use.  An accessor is the list of values stored
    in it (github.com/qmuntal/gltf and its modeler package are trusted to store and return
    them). *)
From Coq Require Import String List ZArith Bool.
From Verif.Model Require Import Num Vec Matrix.
Import ListNotations.

Section Gltf.
Context {T : Type}.

(** JOINTS_0 and WEIGHTS_0 of one vertex: four slots. *)
Definition slots : Type := list (Z * T).

(** [gltf.Primitive]: attributes, indices, material, morph targets (offsets of POSITION). *)
Record prim := mkPrim {
  gpPos : option (list (vec3 T)); gpUV : option (list (vec2 T)); gpNormals : option (list (vec3 T));
  gpSkin : option (list slots); gpTargets : list (list (vec3 T));
  gpIndices : option (list Z); gpMaterial : option Z }.
(** [gltf.Mesh]; the target names are in its extras. *)
Record gmesh := mkMesh { gmName : string; gmPrims : list prim; gmTargetNames : list string }.
(** [gltf.Node] without rotation, scale and matrix. *)
Record gnode := mkNode {
  gnName : string; gnTrans : vec3 T; gnChildren : list nat; gnMesh : option nat; gnSkin : option nat }.
(** [gltf.Skin]. *)
Record gskin := mkSkin { gsJoints : list nat; gsInverse : list (mat4 T); gsSkeleton : option nat }.
(** [gltf.AlphaMode]; the cutoff is set together with the mode. *)
Inductive galpha : Type := GOpaque | GMask (cutoff : T) | GBlend.
(** [gltf.Material] without textures; [gtUnlit] is the KHR_materials_unlit extension. *)
Record gmat := mkGMat {
  gtName : string; gtColor : vec4 T; gtMetal : T; gtRough : T; gtEmissive : vec3 T;
  gtDouble : bool; gtAlpha : galpha; gtUnlit : bool }.
(** [gltf.Document] with one scene. *)
Record gdoc := mkGDoc {
  gdNodes : list gnode; gdRoots : list nat; gdMeshes : list gmesh; gdSkins : list gskin; gdMats : list gmat }.
End Gltf.
Arguments prim : clear implicits.
Arguments gmesh : clear implicits.
Arguments gnode : clear implicits.
Arguments gskin : clear implicits.
Arguments galpha : clear implicits.
Arguments gmat : clear implicits.
Arguments gdoc : clear implicits.
Arguments slots : clear implicits.
