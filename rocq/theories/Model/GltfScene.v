(** [converter/gltf2mqo.go] on whole scenes: what Gltf.v leaves out of a glTF document (modes of
    primitives, matrices of nodes, the scene, textures and images) and how far the import looks at
    it.  Bones are in Gltf2Mqo.v.  Crashes of the Go program give [None]. *)
From Coq Require Import String List ZArith Bool.
From Verif.Model Require Import Num Vec Matrix Mqo MqoDoc Mmd2Mqo Gltf Gltf2Mqo.
Import ListNotations.
Local Open Scope Z_scope.
Local Open Scope list_scope.

Section Scene.
Context {T : Type} {N : Num T}.

(** [gltf.Primitive] (used in gltf2mqo.go 58-104) with its mode: 0 points, 1 lines, 2 line loop, 3 line
    strip, 4 triangles, 5 triangle strip, 6 triangle fan. *)
Record xprim := mkXPrim { xpPrim : prim T; xpMode : Z }.
(** [gltf.Mesh] (gltf2mqo.go 56-58). *)
Record xmesh := mkXMesh { xmName : string; xmPrims : list xprim }.
(** [gltf.Node] (gltf2mqo.go 134-136) with its local matrix, which is made of its translation, rotation and scale if it has
    no matrix. *)
Record xnode := mkXNode { xnMesh : option nat; xnMatrix : mat4 T; xnChildren : list nat }.
(** [gltf.Material] (gltf2mqo.go 28-54): [xtPbr] says whether there is a PBRMetallicRoughness, [xtTexture] is
    the index in its BaseColorTexture. *)
Record xmat := mkXMat { xtMat : gmat T; xtPbr : bool; xtTexture : option nat }.
(** [gltf.Document] (gltf2mqo.go 50, 127-136): the nodes of its scene, the sources of its textures (which
    may be missing) and the URIs of its images, empty for an image that is kept in a buffer. *)
Record xdoc := mkXDoc {
  xdNodes : list xnode; xdScene : list nat; xdMeshes : list xmesh; xdMats : list xmat;
  xdTextures : list (option nat); xdImages : list string }.

Variables (facet half : T).

(** The assignment of [mat.Texture] (gltf2mqo.go 50). *)
Definition with_texture (m : material T) (t : string) : material T :=
  mkMat (mtName m) (mtUID m) (mtColor m) (mtDiffuse m) (mtAmbient m) (mtEmission m) (mtSpecular m) (mtPower m)
        t (mtBump m) (mtAlpha m) (mtEmissionColor m) (mtDouble m) (mtShader m) (mtEx2 m).
(** The texture of [convertMaterial] (gltf2mqo.go 42, 48-51); [None]: index out of range, or the
    source of the texture is nil. *)
Definition material_texture (d : xdoc) (m : xmat) : option string :=
  if xtPbr m
  then match xtTexture m with
       | None => Some ""%string
       | Some i => match nth_error (xdTextures d) i with
                   | Some (Some s) => nth_error (xdImages d) s
                   | _ => None
                   end
       end
  else Some ""%string.
(** [convertMaterial] (gltf2mqo.go 28-54). *)
Definition import_xmat (d : xdoc) (m : xmat) : option (material T) :=
  option_map (with_texture (import_material (fun _ => xtPbr m) half (xtMat m))) (material_texture d m).
(** [convertMesh] (gltf2mqo.go 56-105): the mode of the primitives is not looked at. *)
Definition import_xmesh (m : xmesh) : option (object T) := import_mesh facet (mkMesh (xmName m) (map xpPrim (xmPrims m)) []).
(** [Convert] (gltf2mqo.go 127-138): all the materials, and one object for each node with a mesh,
    whether it is in the scene or not; the matrix of the node is not looked at. *)
Definition import_scene (d : xdoc) : option (document T) :=
  match all_some (import_xmat d) (xdMats d) with
  | None => None
  | Some ms =>
      option_map (mkDocument ms)
        (all_some (fun i => match nth_error (xdMeshes d) i with Some m => import_xmesh m | None => None end)
           (flat_map (fun n => match xnMesh n with Some i => [i] | None => [] end) (xdNodes d)))
  end.
End Scene.
Arguments xprim : clear implicits.
Arguments xmesh : clear implicits.
Arguments xnode : clear implicits.
Arguments xmat : clear implicits.
Arguments xdoc : clear implicits.
