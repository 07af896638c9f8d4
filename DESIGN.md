# Verification design for modelconv

This document says, for every property in `properties.jsonl`, what is modelled in
Rocq (Coq 8.16.1) and how it is proved, and it states the trusted base.
Section 4 collects the findings (properties that are false of the code).

## 1. Layout

| directory | contents |
|---|---|
| `rocq/theories/Model/` | the model: one Gallina function per Go function, each with file:line citations, no proofs |
| `rocq/theories/Spec/`  | small definitions used only to *state* properties (independent of the model's helpers) |
| `rocq/theories/Proofs/`| lemmas |
| `rocq/theories/Props/` | property theorems only: statement, `exact lemma`, `Print Assumptions`, plus an `Example` showing the hypotheses are met |

Theorem names start with the property id, e.g. `C01_triangulate_...`.
Names ending in `_refuted` are proofs that the code violates the claim;
names ending in `_partial` prove less than the claim.

## 2. Trusted base

* The Coq kernel (8.16.1) and its VM (`vm_compute` is used for concrete witnesses and Examples).
* What `Print Assumptions` lists. Most theorems are closed under the global context.
  Theorems about exact real geometry use the standard library's real numbers and
  therefore list only standard-library axioms
  (`ClassicalDedekindReals.sig_forall_dec`, `ClassicalDedekindReals.sig_not_dec`,
  `FunctionalExtensionality.functional_extensionality_dep`, and `Classical_Prop.classic`
  where a library lemma needs it).
  No axiom, parameter or admitted lemma is introduced by this development.
* The reading of the Go source. The model was written by reading the code; nothing
  is extracted or executed. Each definition cites the lines it models and says where it simplifies.

### Modelling conventions

* `int`: `Z` or `nat`, unbounded, except where the property is about the width of an
  integer (binary codecs), where truncation is written out explicitly.
* `float32` in binary codecs: the raw 32-bit pattern as a number below 2^32, so
  round trips are exact, NaN payloads included.
* `float32` in geometry: exact real numbers (`R`), i.e. rounding error is *not* modelled.
  Where only comparisons matter (ear tests in `Triangulate`) the comparison results are an
  arbitrary oracle, so the theorem holds for any floating-point behaviour.
* `float32` in converters: an arbitrary type with arbitrary operations when only the
  data flow matters; otherwise exact rationals or reals. Witnesses of `_refuted` theorems
  use small integers and powers of two, which `float32` represents exactly.
* Pointers: values are copied; where aliasing matters (`Clone`) an explicit heap is modelled.
* Panics (nil dereference, index out of range) are explicit error values.
* Go maps: association lists or finite functions; where iteration order matters the theorem
  quantifies over every order.
* `log.Fatal` and `os.Exit` are error values.

### Not modelled

File system, zip, zlib, XML (`encoding/xml`), JSON, YAML field decoding, image decoding and
PSD parsing, Shift-JIS and UTF-16 decoding (treated as an arbitrary function of the bytes),
`fmt`'s float formatting and `strconv.ParseFloat` (assumed inverse to one another where a
theorem says so), logging, the `qmuntal/gltf` library (its struct fields are modelled as
records, its buffer writer as "stores the array that was passed").

## 3. Plan per property

| id | modelled | how proved |
|---|---|---|
| C01 | `Triangulate` with the convexity test and `IsInTriangle` as arbitrary predicates of the corner indices | loop invariant: polygon boundary minus clipped ears; telescoping edge counts |
| C02 | `Matrix4` as 16 reals; `Mul`, `Det`, `Inverse`, `Transposed`, `ApplyTo` | ring/field identities |
| C03 | quaternion functions over reals | ring identities, unit-norm hypothesis |
| C04 | `Decompose` with `sqrt` | case analysis on the four branches, field identities |
| C05 | `NewEulerFromMatrix4`/`ToQuaternion` with real sin/cos/asin and an `atan2` defined from `atan` | trigonometry, per order |
| C06 | `SetRotation`/`GetRotation` on top of C05 | refutation by a concrete rotation; positive result for single-axis rotations |
| C07 | `Object.ApplyTransform` | linear algebra over reals |
| C08 | `Face.Flip`, `Object.Triangulate` | list reversal, reuse of C01 |
| C09 | `FixNames` over byte strings with decimal suffixes | invariant over the list; termination of the suffix search by pigeonhole |
| C10 | `FixObjectID` | refutation, plus sufficient condition |
| C11 | `GetWorldTransforms` with abstract transforms | refutation, plus what holds for flat documents |
| C12 | heap model of `Object.Clone` | separation lemma over edit sequences; refutation for normals |
| C13 | `GetVertexIndexByID` | case analysis; refutation for ids below 1 |
| C14 | morph application over exact numbers | list lemmas; refutation of crash freedom |
| C15 | target selection loop of `BoneTransform` | refutation; proof for parent-before-child order |
| C16, C17 | character-level model of `WriteMQO`, `text/scanner` and `Parser`; number formatting is an arbitrary formatter whose output scans as one number | lexer/printer lemma plus round trip by induction; refutations by computed witness |
| C18 | `PreSerialize` | refutation |
| C19-C23 | byte-level model of `PMXWriter` and `PMXParser` | codec composition lemmas; refutations by computed witness |
| C24, C25 | VMD channels and parser | permutation/sortedness; codec lemmas |
| C26, C27 | byte-level FBX parser against an independent encoder | induction on trees with offsets |
| C28 | FBX text printer/tokeniser/parser | round trip on a subset; refutations |
| C29-C32 | FBX document/object/geometry operations | invariants over operation sequences; refutations |
| C33-C35, C64 | `mmd2mqo`: face and morph grouping (both depth-first searches), `convertFaces`, material loop, weights, morph targets; map iteration order is an arbitrary permutation | groups are closed under neighbourhood (invariant of the search with fuel); one invariant over the object list gives faces, weights and targets; refutations by computed witness |
| C36-C38, C65 | `mqo2mmd`: vertex merging by index and texture coordinate, fans, material counts, `setWeights`, morph offsets; bodies without rotation and mass | one invariant over the growing vertex list gives position, normal, weights and offsets of every corner; the result is `proper` in the sense of C33; refutations by computed witness |
| C66 | bone lists of `mqo2mmd` and `mmd2mqo` (without IK and tails of IK) | induction over the linking loop; refutations |
| C67 | `GetSmoothNormals`, `FixhNormals` | accumulation invariant per vertex; unit length over R |
| C39, C40 | `mqo2gltf`: `nodePath` loop, `addBoneNodes`, `addSkin`; without lights, physics bodies, textures and shared geometry | stack invariant against the nearest earlier object of smaller depth; references are a permutation of the nodes; telescoping sums along the bone forest over R |
| C41 | `getWeights` with its renormalisation inside the loop | per-vertex projection of the loop; permutation argument for five weights over R; refutation over Q |
| C42, C68 | `ConvertObject`, material map, morph targets | one invariant over the growing vertex arrays (source index, weights, texture coordinates once assigned never change); primitives against filtered triangles |
| C69 | as C39-C42, crashes are `None` | progress of every loop under the same invariant; computed witnesses |
| C43, C71 | `gltf2mqo`: `convertMesh`, `convertBones`, `Convert`; without textures, node rotations and primitive modes | loop lemmas against an independent reading of the index lists; depth-first invariant of the bone list; computed witnesses |
| C44 | `mqo2gltf` followed by `gltf2mqo` | the export theorem C68 read backwards; grouping by material is a permutation of the triangles |
| C70 | `convertMaterial` of both | case analysis; witnesses over Q |
| C45 | `ApplyTransform` on lists of positions (accessors do not share memory, sparse accessors not modelled) | map lemmas; fold bounds over R; witnesses |
| C46 | `ResetJointMatrix` on translation, rotation and scale of nodes (no `matrix` nodes) | world matrices defined inductively; quaternion identities; pass invariant by depth; witnesses |
| C72 | `FixJointComponentType` on bytes; sizes unbounded instead of uint32 | loop invariant relating old and new views |
| C47, C73 | `applyConfigInternal` bone mappings, `ApplyConfig` fallback and first person, `CheckRequiredBones` (limits reduced to a flag) | loop invariant per bone name; witnesses |
| C48 | spring bone groups; `path.Match` and the map order are parameters | invariant: the registered nodes are those below the roots; witnesses for existing bones and map order |
| C74 | `springLen`, `DetectSpringBones` and its use | recursion lemma; roots of a forest are apart; composition with C48's invariant |
| C75 | `MergePreset`, material settings | association list lemmas |
| C76 | morph mappings, `ExportAllMorph` | list lemmas; crash condition as an equivalence |
| C77 | `ConvertColliders` and its use | list lemmas |
| C49 | `Transform.GetMatrix`, `GetWorldMatrix` (fathers as indices, fuel for the recursion) | ring identities; induction along the fathers against a relation that follows points |
| C50 | `Cube`, `sphereInternal`, `Cylinder`, `Capsule`: indices and texture coordinates | every edge gets a tag (kind, row, place); tags are injective and each kind has its opposite kind; the capsule is the sphere with 9 rows |
| C78 | vertex positions over the reals | surfaces of revolution: the determinant of a triangle is a product of signs; sines of differences |
| C51 | `unity_yaml.go`: the scanner over bytes, positions as remaining input, tags as an association list | the spec writes files from head lines and documents; induction over lines, one step lemma per loop of the scanner |
| C52 | the -hide loops of `main` | subtrees (closure of nearest earlier object of smaller depth) are the runs of greater depth; loop invariant |
| C79 | the -chparent loop of `main` | the map by name is the last bone of the name, which the loop does not change; induction over the settings |
| C80 | -hidemat, -alpha, -unlit, `SetGltfAlphaMode`; seen through `convertMaterial` (Model/Mqo2Gltf.v) | case analysis per value; settings compose |
| C81 | the argument handling of `main` | extensions are unique suffixes |
| C82 | `Document.ApplyTransform` with the plugins (Model/MqoTransform.v, exact reals) and the scale options | local matrices through `decompose_positive`; witnesses by exact computation |
| C83 | `BoneTransform` (Model/MqoTransform.v) | the map of moved points as a list of contributions; their sums are the weights of the bones below, by permutation of the selection of C15 |
| C84 | `BoneAdjustX` | invariant of the loop for the farthest child; the four quadrants of atan2 |
| C85 | `addBoneChannels` (Model/GlbAnim.v, over R) | channels read back through samplers and accessors; rotations by conjugation with the mirror and the turns of the bone |
| C86 | `addMorphChannels` | the table of bytes by its cells; a name determines its mesh and index |
| C87 | `Convert`, `convertObject`, `AddGeometry` (Model/Unity2Mqo.v, over R; references resolved, imports arbitrary) | induction over fuel; the matrix of a path acts as the mirrored Unity place (C49); blocks of objects per visit |
| C88 | materials, cache and in-place tiling of the same | invariant of the cache (GUID, index, scale); slices as a heap |
| C89 | `convertRigidBody` | a path without stretching is one TRS matrix (affine maps equal on points are equal), then C04 and C05 |
| C90 | `extractPackage`, `OpenPackage`, `Close` over a file system as a list of paths, `filepath.Join` on elements (Model/UnityPackage.v) | invariant of cleaning (depth below the start); for the converse a directory with a name that occurs nowhere |
| C91 | the same with `scanPackage` and the lookups | invariant: the disk is what the entries so far say; sorted order of `os.ReadDir` |
| C92 | `loadDocument` (Unity), `OpenAssets`, `scanAssets`, `LoadScene` up to the choice of the file (Model/UnityProject.v) | strings: first occurrence of Assets/, `filepath.Dir`, splitting of joined names; then lookup in the list of meta files |
| C93 | `LoadSceneAsset`, `GetElement2`, `GetTransform`, `GetChildren`, `GetGameObject` (Model/UnityScene.v); what a file describes and a visit: Spec/SceneFileSpec.v | the loop gives exactly the documents; addresses; a depth first walk of a forest meets every node once (Proofs/ForestProofs.v) |
| C94 | `LoadSceneAsset` (prefab instances, modifications, added children), `AddChild`, stripped transforms (Model/UnityScene.v); last modification of a path, instance: Spec/PrefabSpec.v | elements inside of an instance by addresses; modifications by induction (Proofs/ModProofs.v); scenes that agree up to what modifications touch (Proofs/PrefabProofs.v) |
| C95 | the same, with crashes (nil dereference, slice bounds, reflection) and fuel as results | induction on a rank of the files, more fuel gives the same result (Proofs/LoadEnds.v) |
| C96 | `ConvertTo`, `convert`, `convertModel`, `hasGeometryNode`, `convertGeometry`, `convertShape`, `convertDeformer` over arbitrary numbers, with crashes and endless recursion as results (Model/Fbx2Mqo.v); walk of the models, labels of objects: Spec/FbxSceneSpec.v | the conversion is a walk that adds blocks (Proofs/FbxWalk.v); depths of a walk give the tree (Proofs/FbxTree.v); names, numbers, each once (Proofs/FbxObjects.v) |
| C97 | the same; what layers give (FBX SDK): Spec/FbxSceneSpec.v, faces: Spec/FbxMeshSpec.v | faces by induction over the polygons (Proofs/FbxFaces.v); the transform is the product along the chain of parents, triple products and normals (Proofs/FbxPlace.v) |
| C98 | the same | each part gives a result, bones stay numbered within the list (Proofs/FbxSceneTotal.v) |
| C99 | the same; moved vertices and targets: Spec/FbxMeshSpec.v | targets follow the object of their model, an offset moved by the matrix is the difference of moved points (Proofs/FbxShapes.v) |
| C100 | the same; skeleton, bindings, weights: Spec/FbxBoneSpec.v | invariant over the deformers: bones are the models so far, closed towards the scene; the path up to a known model is ready to be added (Proofs/FbxBones.v) |
| C101 | `convertMaterial`, `GetTexture` (Model/Fbx2Mqo.v); what properties say: Spec/FbxMaterialSpec.v | by cases of the properties (Proofs/FbxMaterials.v) |
| C102 | `UpdateMatrix`, `CoordMatrix` over exact reals (Model/FbxMatrix.v); the formula of the SDK on points: Spec/FbxMatrixSpec.v | rotation matrices as turns about axes, product applied to a point (Proofs/FbxMatrices.v) |
| C103 | `textureCache`, `addTexture`, `scaleTexture`, `convertMaterial` with all extensions (Model/Mqo2GltfTextures.v); files and codecs are parameters; slots and images: Spec/TextureSpec.v | invariant of the cache: numbers are positions in the list of names used, pictures are those of files; it grows along slots, extensions, materials (Proofs/TextureProofs.v) |
| C104 | `scaleTexture` (Model/Mqo2GltfTextures.v) over exact rationals | bounds of rounding down (Proofs/TextureProofs.v) |
| C105 | `uvrect`, `hasAlpha`, and the rectangles along the loop of `ConvertObject` (Model/Mqo2GltfTextures.v); pixels in the rectangle of corners: Spec/AlphaSpec.v | invariant: corners done are in the rectangle of their material, known vertices belong to faces done (Proofs/AlphaProofs.v) |
| C106 | `ConvertObject` with shared attributes, and the loop over objects with `nodeMatrix`, caches by key, lights (Model/Mqo2GltfShared.v); what nodes draw, copies: Spec/SharedSpec.v | the loops over corners of two copies run in step and differ by materials and an affine map (Proofs/SharedFaces.v, SharedProofs.v); the cache of a key holds the attributes of its first visible object (Proofs/SharedLoop.v) |
| C107 | lights of `convertObject` and of the loop of `Convert` (Model/Lights.v, Model/Unity2Mqo.v, Model/Mqo2GltfShared.v); meaning of lights in Unity and glTF, places and directions: Spec/LightSpec.v | the walk through the scene (C87) lists the light and the matrix of each object; lights are numbered along the list (Proofs/LightProofs.v) |
| C108 | `ToSingleFile`, `RemoveExtension`, buffers in `saveGltfDocument`, `filepath.Clean` and `Rel` on elements (Model/GltfPack.v; the library's `WriteBufferView` appends to the last buffer with any padding); places of paths, bytes of views: Spec/PackSpec.v | a path and its cleaned form lead to the same place; outside the working directory the searched place is always nearer to the root than the one meant; views are only appended (Proofs/PackProofs.v) |
| C109 | `addPhysicsBody` and its two callers for bones and objects, `ConvertColliders` on the result (Model/GltfPhysics.v over the nodes of Model/Mqo2Gltf.v; nodes with matrices are left out); bodies that belong to a node, shapes in the world: Spec/GltfPhysicsSpec.v | induction over bodies for each node; world positions of joints from C40; colliders from the conversion of C77 (Proofs/GltfPhysicsProofs.v) |
| C110 | `WriteMQX`, `ReadMQX`, `Save`, `SaveMQOZ`, `Load`, `LoadMQOZ` with the types of the three plugins (Model/Mqx.v; encoding/xml on trees with typed values, archives as lists of entries); what must be the same: Spec/MqxSpec.v | attributes are found behind any optional ones; the text comes back by C16, whose domain is kept by new names (Proofs/MqxProofs.v) |
| C111 | `BuildDocument` from the tree of nodes to the documents of C97-C100: objects, templates, layers, deformers, tables of numbers and names, connections (Model/FbxRead.v; values of numbers and the local matrix are parameters); what a connection says: Spec/FbxReadSpec.v | the tables give the only object of a number or name (Proofs/FbxReadProofs.v) |
| C112 | the writer and the parser of C28 with the reader of C111; which trees keep their meaning, and what is the same: Spec/FbxSaveSpec.v | every accessor gives the same value for an attribute and for what its text means (Proofs/FbxSaveProofs.v) |
| C113 | importMesh with its memory and the loop over the new objects (Model/UnityImport.v), on convert_fbx of C96; assets as functions | which objects stand for which models, where, and in which materials: Spec/UnityImportSpec.v; invariant of the memory, walk below the named model, materials in the order of first use (Proofs/UnityImportProofs.v) |
| C114 | saveTexrure and its calls one after another on the disk of UnityPackage.v; the base directory of main (Model/UnityTexture.v) | where a reference leads: Spec/UnityTextureSpec.v; invariant over the calls, names cut at the first underscore |
| C115 | saving .vrm: choice and loading of the configuration, preset, ApplyConfig, ApplyVRMConfig, VRM, ValidateBones on the steps of VrmConfig.v (Model/VrmSave.v); files and decoder as functions | bones, materials and extensions asked for: Spec/VrmSaveSpec.v; theorems of C47, C48, C75, C76 put together, totality of the detection of spring bones |
| C116 | whole glTF scenes: modes, node matrices, scene, textures and images on top of Gltf2Mqo.v (Model/GltfScene.v) | the triangles a scene shows after the glTF specification: Spec/GltfSceneSpec.v; from C43's description of imported meshes; witnesses by computation |
| C117 | LoadMaterial, GetTextureProperty, GetColorProperty and the material part of unity2mqo.go (Model/UnityMaterial.v), on UnityYaml.v, UnityTexture.v and Unity2Mqo.v | files as Unity writes them, first map with a key, standard shader: Spec/UnityMaterialSpec.v; from C51 and C114; witnesses by computation |
| C118 | detectCodePage with readers as lists of chunks, the regular expression as a function, string literals of text/scanner with escapes (Model/MqoCodePage.v); Shift-JIS decoder arbitrary | declaration anywhere in a text, names with slashes: Spec/CodePageSpec.v; induction on texts; witnesses by computation |
| C119 | saveGltfDocument for .gltf and the glTF to glTF branch over a disk of files (Model/GltfSave.v); gltf.Save/Open of the library trusted | separate buffers, only_changed, images_there: Spec/GltfSaveSpec.v; frame lemma of the writes, induction on buffers; witnesses by computation |
| C120 | main with the point maps of the loaders and savers, which are the functions of the converter models (Model/Units.v, exact reals) | distances and signed volumes in millimetres: Spec/UnitSpec.v; all cases are diagonal maps |
| C121 | NewDocument, newID, AddObject, AddConnection and BuildDocument over numbered objects (Model/FbxBuild.v), the cached matrix | same objects, references, parents and materials: Spec/FbxBuildSpec.v; invariant over orderly histories; witnesses by computation |
| C122 | names in MQO files: Fprintf between quotes against scanString, scanEscape and Trim (Model/MqoNames.v on top of MqoCodePage.v) | induction on the fuel of the scanner in both directions: a name is read back iff it is the inside of a literal (inductive `literal`) and does not end in a quote; document level witness by running the text model of C16 |
| C123 | parameters of the glTF shader: the extension table of Model/Mqo2GltfTextures.v and ExtensionsUsed (Model/GltfExts.v) against a separate table of the Khronos extensions with their defaults (Spec/GltfExtSpec.v) | induction over fields, extensions and materials: distinct keys give the value under each key; set equality for ExtensionsUsed under any map order |
| C124 | contents of FBX objects: accessors of nodes and BuildDocument (Model/FbxRead.v) against relations on nodes (Spec/FbxContentSpec.v): first child, last row, template, number lists as inductive relations | kid = first child and row = last row as equivalences; case analysis of array types; transport along nodes with equal children for version 6100 |
| C125 | a run of the command: which reader, writer, motions and options (Model/CliRun.v on top of make_job of C81) against what is asked for (Spec/RunSpec.v) | case analysis of the branches of main with the extension lemmas of C81 |
| C126 | what the nodes of a glTF document draw (Spec/DrawnSpec.v) against the faces of the PMX model it is made from; conversion, transform and export composed | the permutation of faces of C33 carried through Forall2 relations: objects with their source faces, primitives grouped by materials, corners through vertices and weights (C35, C40, C41) |
| C127 | what the nodes of a glTF document draw against the polygons of the FBX document (Spec/SceneDrawnSpec.v); conversion, transform and export composed | C95 and C97 give the objects, triangulation of C43 and the export of C68 the triangles; `doc_drawn` composes the export for any MQO document (`C68_document`) |
| C128 | faces of a PMX model with the materials that own them against the polygons of the FBX document (Spec/FbxPmxSpec.v); conversion, transform and `mqo2mmd` composed | the objects as in C127, fans are dissections, the triangles sorted by material are a permutation of all triangles, `to_mmd_faces` of C36; refutations by computed witness |
| C129 | looks of materials in both formats (Spec/MmdMaterialsSpec.v), Model/MmdMaterials.v for both conversions with the texture lists | induction over the materials; texture lists only grow; refutations by computed witness |
| C130 | the colour of a PMX material at a morph value (Spec/MmdMaterialsSpec.v); conversion (Model/MmdMaterials.v) composed with `apply_material_morph` (Model/MqoDoc.v) | morph materials follow the materials of the model and are never changed, names are split at the first colons, each material is hit at most once; ring over R; refutations by computed witness |
| C131 | ignorable tokens, balanced blocks and unknown items (Spec/SkipSpec.v) in the texts of Model/MqoText.v | induction over balanced token lists; the chunk lemmas of C16 hold at every line, so they compose with `main_ignore`; refutations by computed witness |
| C132 | the IK loop of `convertBones` (Model/MmdIk.v) beside the bones of Model/Mqo2Mmd.v; targets, tails and chains in Spec/MmdIkSpec.v | induction over the bones: the last IK with a target stays; chains by induction over the links with the closed form of the bones of C66; refutations by computed witness |
| C133 | the composition of `import_scene` (Model/GltfScene.v), any moved document and `to_mmd` (Model/Mqo2Mmd.v); faces with owners in Spec/GltfPmxSpec.v | composition of C116 with the face ranges of C36 and the owners of C128; the number of faces by sorting by material; refutations by computed witness |
| C134 | the composition of `convert` (Model/Mmd2Mqo.v), any moved document and `to_mmd` (Model/Mqo2Mmd.v); faces of both models related in Spec/PmxPmxSpec.v | composition of C33 (every face once) with the face ranges of C36 and the owners of C128; places over R by ring; refutations by computed witness |
| C135 | the composition of `convert` (Model/Mmd2Mqo.v), any moved document with the bones that carry the weights, and `to_mmd` (Model/Mqo2Mmd.v); skins in Spec/PmxSkinSpec.v | composition of the stored weights of C35 with C65, through the correspondence of faces of C134; exact numbers over R; refutation by computed witness |
| C136 | the composition of `convert` (Model/Mmd2Mqo.v), any moved document and `to_mmd` (Model/Mqo2Mmd.v); corners and offsets in Spec/PmxMorphSpec.v | names of all objects and sets of `convert` are followed through its loops and shown to be different; then C34 and C37 are composed over the face of the base object; refutations by computed witness |
| C137 | the composition of `from_mmd_bones`, any moved bones and `to_mmd_bones` (Model/Mqo2Mmd.v); what a bone hangs on and its tail in Spec/PmxBonesSpec.v | the map of IDs is shown to invert the shift by one, then the two loops are composed bone by bone; tails by an own induction over the linking loop; refutations by computed witness |
| C138 | both converters of physics with all fields but the limits of joints (Model/MmdPhysics.v), composed over bodies moved in any way; bodies that are alike in Spec/PmxPhysicsSpec.v | field by field through both conversions, with the lemma of C137 for the map of bone IDs; names of shapes by injectivity of decimal numbers; refutations for all bodies, or by computed witness |
| C139 | `add_animation` and its loop (Model/GlbMotions.v) over the channels of Model/GlbAnim.v; what a player shows in Spec/MotionsSpec.v | a simulation between the run on an empty document and the run on any document: the accessors in front only shift the indices in samplers, and reading a channel does not see the shift; appended accessors do not change what can be read |
| C140 | `get_parent`, `scene_world`, `get_components` (Model/UnityParent.v) over the loaded scenes of Model/UnityScene.v; chains of fathers in Spec/UnityParentSpec.v | a reference without an instance is resolved in its own file; induction on the chain of fathers; for instances by C94, which gives the father that loading stores; components by induction on the list |
| C53 | `FixNames` (as C09) | refutation by computed witness; sufficient condition |
| C54 | VMD parser on prefixes (as C25) | starvation lemma: a parser cut inside its bytes leaves nothing for the next count; refutation by computed witness |
| C55-C58 | PMD parser with Shift-JIS decoding and float32 operations as arbitrary functions; `Parse` dispatching on the magic | layout lemma per record, induction on element lists; crash condition exact; refutations by computed witness |
| C59-C61 | same model as C26: position counter, sticky error distinguishing EOF, both kinds of reader, zlib as a function | footer: computed header for every padding and version, position shift lemma; termination: every record consumes a byte or stops; truncation: computed witnesses |
| C62 | text tokeniser with its read-ahead buffer, as in C28 | comment lemma for first lines of 21 bytes or more; computed witnesses for shorter ones |
| C63 | parent pointers set by the connections; recursion with fuel | induction on the chain; loops by induction on fuel |

## 4. Findings

Each finding is a theorem ending in `_refuted` (the witness is inside the proof) or a
weaker theorem; line numbers refer to `/repo`.

* **C06** `mqo/mqo.go:288-295`. `SetRotation` extracts Euler angles in ZXY order, `GetRotation`
  composes them in YXZ order. For q = (1/2,1/2,1/2,1/2) the x axis goes to y, but after a
  set/get it goes to z (`C06_set_get_rotation_refuted`). `C06_set_get_order` says exactly what
  happens: the same three angles are applied in the opposite order. Rotations about one axis survive.
* **C20** PMX joints: the writer uses the bone index width for a joint's body references, the reader
  uses the rigid-body width, so files with different widths do not read back (`C20_joints_refuted`);
  with equal widths they do (`C20_joints_equal_widths`).
* **C21** PMX vertex skinning: the number of weights selects BDEF1/2/4 on save, and the last weight of
  BDEF1/2 is implied, so a single weight other than 1, or two that do not add up to 1, change on reload
  (`C21_one_weight_refuted`, `C21_two_weights_refuted`). What a vertex becomes, and that a second
  save is stable, is `C21_skin_after_save` and `C21_skin_stable`.
* **C22** PMX truncation: read errors inside the file body are never reported; a truncated file loads
  as a document with zero-filled tails (`C22_truncation_refuted`, `C22_never_reported`).
* **C23** PMX index widths: indices are truncated to the header's width. Texture 128 is stored in one
  byte and read back as -128 (`C23_texture_index_refuted`); face corners are stored modulo 65536
  under the default header (`C23_face_index_wraps`).
* PMX, seen while modelling: the local axis of a bone (flag 2048) and the external parent are
  written back as zeros and -1; display groups and bone morphs (type 2) are dropped on load.

* **C10** `mqo/mqo.go:31-37`: objects without id get position+1, which may be taken by an explicit id:
  ids [2, 0] become [2, 2] (`C10_unique_refuted`). `C10_unique_partial` and `C10_unique_condition`
  give the exact condition.
* **C11** `mqo/mqo.go:54`: the stack is popped while `dd <= o.Depth`, i.e. the comparison is inverted. A
  child directly after its parent loses the parent's transform (`C11_world_transforms_refuted`), and an
  object after a deeper one inherits from it (`C11_actual_parent`).
* **C12** `mqo/mqo.go:308-323`: `Clone` drops `Face.UID` and `Face.Normals` (`C12_full_copy_refuted`).
  `Scale`, `Rotation`, `Translation`, `Color` and `VertexByUID` stay shared with the original
  (last conjuncts of `C12_clone_contents`).
* **C13** `mqo/mqo.go:329`: a negative id passes `len >= uid` and yields `uid-1`, which is neither -1 nor
  an index (`C13_negative_refuted`).
* **C14** `mqo/morph_plugin.go:71` tests `m == nil` instead of `t == nil`: a material `$MORPH:name:x` without
  a material `x` is a nil dereference (`C14_no_crash_refuted`, exact condition `C14_material_crash`).
* **C15** `mqo/bone_plugin.go:254-259`: bones listed before their (non-base) parent are not moved
  (`C15_complete_refuted`); the source comment admits it.
* **C18** `mqo/bone_plugin.go:225-233`: `PreSerialize` appends to `p.Obj` without clearing it
  (`C18_save_twice_refuted`).
* **C53** `mqo/mqo.go:65-88`: a generated name can take the name of a later original holder
  (`C53_first_holder_keeps_name_refuted`).

* **C16** `mqo/mqo_writer.go:175-190`: a vertex without registered id is written with id position+1 even if
  another vertex has that id; after reload the id names the wrong vertex (`C16_vertex_ids_refuted`).
  `locking` is written but the reader has no case for it (`C16_lock_refuted`). `EmissionColor` and the
  shader mapping are not written (`C16_material_refuted`). Colour and string parameters are written with
  type `int`, so their value is lost (`C16_color_param_refuted`). Everything else comes back
  (`C16_text_round_trip`).
* **C17** `mqo/mqo_parser.go:72-80`: `readInt` has no case for a minus sign. `M(-1)` reads as 0, the digits are
  taken for the closing bracket, the closing bracket for an unknown attribute, and the following
  attribute for its argument: UVs are lost (`C17_negative_material`, `C17_material_refuted`). If `M(-1)` is last
  on its line, the next line loses its first two tokens (`C17_next_face_refuted`).

* **C54** `mmd/vmd_parser.go:126-142`: only `readInt` records `p.err`, all other reads drop their error. A motion cut
  inside the last four bytes (the value of the last morph key) parses without error and with value 0
  (`C54_truncation_refuted`). All other cuts are reported because a later count or frame number fails
  (`C54_truncation_partial`).

* **C56** `mmd/pmd_parser.go:162,181`: `model.Bones[p.readUint16()]` and `base.Vertex[v.Target]` are not checked. A file
  whose IK entry names a missing bone, or whose morph vertex is outside the base morph, crashes the
  loader (`C56_out_of_range_crashes`; all other well-formed files load).
* **C57** `mmd/pmd_parser.go:114-187`: read errors are never looked at; any prefix loads with zeroed or missing
  elements, or crashes (`C57_never_reported`, `C57_truncation_refuted`).
* **C58** `mmd/pmx_writer.go:153-164`: `Header.Info` of a document from a PMD file is empty, `h.Info[AttrStringEncoding] = 1`
  is out of range: every such document crashes `WritePMX` (`C58_pmd_crashes`). The command line tool converts
  through MQO and does not reach this.

* **C27** `fbx/binary_parser.go:29-34`: `SkipTo` sets `position` and then copies through the counting reader, which adds
  the skipped bytes again. After any real skip (a zlib array larger than the 4096 byte buffer whose checksum
  is not read) `position` is too large and the enclosing node fails with "cannot rewind" on readers
  without `Seek` (`C27_stream_refuted`). The callers in this repository pass files; `fbx.Parse` is exported for any
  `io.Reader`.
* **C59** `fbx/binary_parser.go:251-256`: `Parse` does not stop at the top-level null record, so the footer identification
  is read as a node with end offset 162249978 (32-bit) or 7409768082772311290 (64-bit). Larger 32-bit files
  fail with "cannot rewind" (`C59_large_rejected`), 64-bit files fail wherever `Seek` refuses that offset, such
  as ext4 (`C59_wide_rejected`).
* **C60** `fbx/binary_parser.go:217,232,257`: `io.EOF` anywhere counts as the regular end. Cut files load with missing
  children, nodes with empty names, or zero strings (`C60_truncation_refuted`).

* **C28** `fbx/fbx_node.go` `Dump`, `fbx/text_parser.go`: strings are written with Go quoting but read up to the next quote
  without undoing escapes; raw data is written as a bracketed list that the parser rejects; `1e+06` is
  rejected because `+` ends a number, `1e-05` because a number without a point is taken for an integer. Integral floats come back as integers,
  other integer widths as 64-bit, empty arrays vanish (`C28_refuted` and the `_rejected` theorems).
* **C62** `fbx/text_parser.go:80,103`: a character read too far is appended to the end of the read-ahead buffer instead of the front. As long as the
  21 bytes handed over by format detection are not used up, every pushed-back character is read after them.
  Files whose first line is shorter than 21 bytes are rejected (`C62_short_rejected`) or two nodes
  silently become one (`C62_short_misread`).
* **C29** `fbx/fbx_document.go:104-109,148`: the geometry of a version 6100 model shares its node; `AddObject` of one renumbers
  the other, which is then no longer found under its id (`C29_shared_refuted`).
* **C30** `fbx/fbx_node.go:80`, `fbx/fbx_geometry.go:62`: an empty index array is nil and is taken for a list of single
  numbers, so `PolygonVertexCount` is 1 for a geometry without polygons (`C30_count_refuted`).
* **C31** `fbx/fbx_object.go:58-96`: the two lookups disagree on duplicate names (`C31_duplicate`); entries with fewer than four
  attributes crash `GetProperty`, a missing Properties70 crashes `SetProperty` (`C31_crashes`).
* **C32** `fbx/fbx_geometry.go:102-113`: `setLayerElementNode` ignores `values`; line 129 writes texture coordinates to
  `LayerElementNormal` (`C32_values_lost`, `C32_uv_overwrites_normals`).
* **C63** `fbx/fbx_document.go:131-134`, `fbx/fbx_model.go:74-79`: nothing rejects parent loops; a model connected to itself
  overflows the stack (`C63_cycle`).

* **C34** `converter/mmd2mqo.go:310`: `vmap[mv.Target]` of a vertex no face uses is 0, so the offset is added to vertex 0 of the
  morph base; the same on line 326 for texture coordinates (`C34_unused_vertex_refuted`).
* **C35** `converter/mmd2mqo.go:291`: the second weight of the same bone is added as is, not times 100 as in `setWeight`
  (`C35_twice_refuted`).
* **C64** `converter/mmd2mqo.go:129,294`: `bones[b]` with bone -1 panics, which is how PMX stores a vertex without bones
  (`C64_refuted`); line 253 panics when material counts exceed the number of faces (`C64_too_many_faces`).

* **C37** `converter/mqo2mmd.go:103`: the offset of a PMX morph has no z (`C37_morph_z_refuted`); line 87: normals are not
  mirrored although positions are (`C37_normal_z_refuted`); line 211 writes mode 1 for kinematic bodies while
  `converter/mmd2mqo.go` reads mode 0 as kinematic (`C37_kinematic_refuted`); line 195 mirrors the size (`C37_size_refuted`).
* **C38** `mmd/pmx_writer.go:172` stores a vertex without weights as bone -1 with weight 1, on which
  `converter/mmd2mqo.go:129` panics (`C38_unskinned_refuted`).
* **C65** `converter/mqo2mmd.go:145`: from the fifth weight on weights are dropped, however strong (`C65_strongest_refuted`).
* **C66** `converter/mqo2mmd.go:28`: an unknown parent id is looked up as 0 (`C66_missing_parent_refuted`);
  `converter/mmd2mqo.go:65` can make a bone the child of its own descendant (`C66_cycle_refuted`) and panics for inherit parent
  -1 because only the upper bound is checked (`C66_negative_inherit_refuted`).

* **C39** `converter/mqo2gltf.go:875-888`: `nodePath` is cut to the depth of the object only if it is longer; two siblings at depth
  1 whose parent has no node (a morph target) become parent and child (`C39_sibling_refuted`), likewise after a skipped depth
  (`C39_gap_refuted`).
* **C41** `converter/mqo2gltf.go:259-273`: weights are normalised after every bone, so later weights are compared with enlarged
  ones (`C41_strongest_refuted`).
* **C68** `converter/mqo2gltf.go:629-635`: the search for an assigned vertex compares texture coordinates only, so hard edges are
  smoothed (`C68_normals_refuted`); line 825 skips targets with other vertex counts (`C68_morph_refuted`).
* **C69** `converter/mqo2gltf.go:825` (`objectByName[t.Name]` is nil), line 195 (`bonemap[b.Parent]` is nil) and line 238 (index -1,
  before the check in line 254) crash (`C69_missing_target_refuted`, `C69_missing_parent_refuted`, `C69_missing_vertex_refuted`).

* **C43** `converter/gltf2mqo.go:94`: the indices of a primitive are used unchanged although `obj.Vertexes` already holds the vertices of
  earlier primitives (`C43_offset_refuted`); line 59 skips primitives without indices (`C43_unindexed_refuted`).
* **C70** `converter/gltf2mqo.go:38-39`: `AlphaMode` is stored as `gltf.AlphaMode`, which `IntParam` does not accept, and `AlphaCutoff` is read back
  as `AlphaCutOff` (`C70_alpha_refuted`); the unlit extension is not imported and guessed on export (`C70_unlit_refuted`); without
  `PBRMetallicRoughness` the colour stays zero (`C70_default_refuted`).
* **C71** `converter/gltf2mqo.go:108-112`: the position of the skeleton root is its local translation (`C71_position_refuted`); line 143 ignores skins
  without `skeleton`, which `mqo2gltf` never sets (`C71_lost_refuted`); `bonemap` holds roots only, so nested roots duplicate bones (`C71_nested_refuted`).

* **C45** `gltfutil/gltf_utils.go:85`: `scaleMat` clones a new identity matrix instead of `transformMat`, so node translations, morph offsets and
  inverse bind matrices are not scaled (`C45_scale_refuted`).
* **C46** `gltfutil/gltf_joint.go:59`: ten passes (`C46_deep_refuted`); lines 71-77 ignore the scale of the node (`C46_scale_refuted`); line 62 also
  resets nodes that are not joints (`C46_static_mesh_refuted`); lines 44-46 take the transpose for the inverse (`C46_scaled_bind_refuted`).
* **C72** `gltfutil/gltf_joint.go:117-119`: `accessor.ByteOffset` is not doubled (`C72_offset_refuted`), and the whole view is widened even if it
  holds other attributes (`C72_shared_refuted`).

* **C48** `converter/vrmconfig.go:208-234`: `SecondaryAnimation.BoneGroups` of the document and `bones` of a config group are not registered
  (`C48_existing_refuted`); `matchNodeName` (line 112) ranges over a map, so the roots of a pattern that matches a node and its child differ from run to
  run (`C48_order_refuted`).
* **C73** lines 363-370: the fallback does not check for a mesh (`C73_mesh_refuted`); nothing stops two bones on one node (`C73_shared_refuted`); line
  356 uses -1 for an ignored head and is skipped if the head is found by the fallback below it (`C73_first_person_refuted`).
* **C74** line 426: `parents[i]` is 0 for a node without parent (`C74_top_refuted`); names stand for nodes (`C74_names_refuted`).
* **C75** line 100: write to a nil map, all presets have `materialSettings` (`C75_merge_refuted`); line 194 replaces `mat.Extensions`
  (`C75_extensions_refuted`); line 203 dereferences a missing base colour (`C75_crash`); a preset setting by name beats the user's `*`
  (`C75_user_first_refuted`).
* **C76** line 252: `targetNames` read from a file is `[]interface{}` (`C76_loaded_refuted`); `targets` keeps one target per name
  (`C76_several_refuted`); line 282 dereferences a nil `Mesh` (`C76_crash_refuted`).
* **C77** line 239: colliders are attached by node name (`C77_names_refuted`); boxes are skipped (`C77_box_refuted`).

* **C78** `unity/unity_builtin.go:177-182`: the side of a capsule uses `1 - i/s` and 0..1 where the half spheres use `j/sh` and 0..1/2, 1/2..1: mirrored
  and not continuous (`C78_capsule_texture_refuted`).

* **C51** `unity/unity_yaml.go` `ParseYamlDocuments`: the position is moved past the `---` of the next document before the body is cut out, so every body but
  the last ends with three dashes (`C51_body_refuted`; harmless for YAML, where they end the document).
* **C51** the loop stops three bytes before the end: a last line of one or two characters is not part of the body (`C51_end_refuted`).
* **C51** `getTag` cuts the handle and the `!` after it without looking: the tag `!u` with a declared handle `u` is a slice out of range (`C51_crash_refuted`).

* **C79** `cmd/modelconv/main.go:288`: `boneByName[...]` of an unknown parent is nil and dereferenced (`C79_unknown_refuted`); nothing keeps a bone from becoming
  its own descendant (`C79_cycle_refuted`).
* **C80** `-alpha MAT:mask` and the other modes give a material without a glTF shader a new one with no parameters: the exported cutoff and roughness are 0
  and an unlit (constant) material is lit again (`C80_mask_refuted`, `mqo/mqo.go:156-161`). `-unlit` drops the shader with its alpha mode
  (`C80_unlit_refuted`, `main.go:377-378`).
* **C81** `main.go:169-177`: `-format mqo a.mqo` writes to `a.mqo`; `-format glb a.pmx walk.vmd` writes to `walk.vmd` (`C81_overwrite_refuted`).

* **C82** `mqo/utils.go:33`: the local transform of every object is replaced by M·L, also below a parent that has been scaled: a child at distance 2 ends up
  at 6 after scaling by 2 (`C82_nested_refuted`). It also passes through `SetRotation`, so an object rotated by (0,90,90) degrees is turned by scaling
  (`C82_rotation_refuted`). `mqo/physics_plugin.go:93-102` moves no joints (`C82_joint_refuted`) and turns no shapes (`C82_shape_refuted`, for -rot180). A
  negative scale keeps the order of the vertices of faces but maps normals with the inverse transpose: they point to the other side (`C82_mirror_refuted`).

* **C83** `mqo/bone_plugin.go:280`: weights of an object are also given to the targets of its morphs; a target with weights of its own is counted twice and
  thrown beyond its place (`C83_twice_refuted`). `GetObjectByID` finds no object whose UID is still 0, although weights name it by position
  (`PreSerialize`, `FixObjectID`): bones turn without the mesh (`C83_unnumbered_refuted`).
* **C84** `mqo/bone_plugin.go:340`: for an arm that hangs straight down the angle does not depend on the side: it always ends at -x (`C84_side_refuted`).

* **C85** `converter/glbanim.go:79-95`: the correction for a bone turned otherwise than its parent (`-autotpose`) is multiplied on the right of the key, where it
  only commutes with rotations about z (`C85_turned_refuted`). `converter/glbanim.go:75,152`: translation keys are the absolute position of the bone plus the
  movement, but the translation of a node is relative to its parent: a bone with a position channel flies away by the position of its parent (`C85_place_refuted`).
* **C86** `converter/glbanim.go:213-230`: the keys of the first morph of a mesh (in the random order of a map) are used for all; others with as many keys are played
  at its times (`C86_times_refuted`), others with another number of keys are dropped with a log line (`C86_lost_refuted`). `converter/glbanim.go:198`: a target name
  on two meshes names only the last (`C86_meshes_refuted`). `converter/glbanim.go:228`: `uint8(v * 255)` is not clamped: a weight just over 1 becomes nearly 0 (`C86_over_refuted`).

* **C87** `converter/unity2mqo.go:186-195` with `mqo/mqo.go:288-295`: the local rotation is stored by `SetRotation`, which reads angles with order ZXY and is read back with
  YXZ (C06), so the local axes of a turned object are not those of its mesh (`C87_local_refuted`). `converter/unity2mqo.go:169-171`: all objects of an imported mesh
  are made visible, also the morph targets that `fbx2mqo.go` hides (`C87_hidden_refuted`).
* **C88** `unity/unity_builtin.go:157` with `converter/unity2mqo.go:172-180`: both ends of a cylinder hold the same slice of texture coordinates and it is scaled in place,
  so with a tiling of 2 they repeat 4 times (`C88_cylinder_refuted`). `converter/unity2mqo.go:155`: without materials index 0 is used, which is the first material of
  the scene (`C88_none_refuted`). `converter/unity2mqo.go:98-104`: the cache is by GUID without the file id, so all materials embedded in one FBX file are one
  (`C88_embedded_refuted`). `converter/unity2mqo.go:136-140`: only the scale of a texture is used, not its offset (`C88_offset_refuted`).
* **C89** `converter/unity2mqo.go:231,241,251`: the matrix is for mirrored points (C49) but is applied to the centre of a collider as it is: front and back are exchanged
  (`C89_centre_refuted`). `:232`: `co.Size.Scale(sc.X * 0.5)` (`C89_stretched_refuted`). `:262-278`: mesh colliders with a cube or a sphere ignore the scale of the object, and
  cubes have full instead of half extents (`C89_mesh_refuted`). `:246-255`: `Direction` is never read (`C89_capsule_refuted`). `:224`: angles are for the order ZXY, but
  `mqo/bone_plugin.go:303` reads those of shapes with XYZ (`C89_order_refuted`).

* **C90** `unity/unity_assets.go:202`: `filepath.Join(dst, header.Name)` is not checked: an entry `../../home/me/notes` of a .unitypackage overwrites that file
  (`C90_slip_refuted`). `unity/unity_assets.go:71-74`: if unpacking fails the temporary directory is not removed (`C90_leak_refuted`).
* **C91** `unity/unity_assets.go:212`: `os.Create` needs the directory; archives that contain only files are rejected (`C91_nodirs_refuted`). `unity/unity_assets.go:163`: the
  whole file `pathname` is the path; packages whose pathname has a second line (`00`, written by some versions of Unity) have no asset under the path of the first
  (`C91_line_refuted`).

* **C92** `cmd/modelconv/utils.go:63`: `strings.Index(…, "Assets/")` also matches the end of another name: `/home/GameAssets/p/Assets/s.unity` is looked up as `Assets/p/Assets/s.unity`
  in `/home/GameAssets` and not found (`C92_inside_refuted`). `:61`: any `#` splits the argument, so projects below a directory `C#` cannot be named by path (`C92_hash_refuted`).
  `unity/unity_assets.go:278`: `filepath.Dir("game/Assets/")` is `game/Assets`, so with a slash at the end all paths lack `Assets/` (`C92_slash_refuted`).

* **C93** `unity/unity_components.go:10`: of the transforms only class 4 is known. An object with a `RectTransform` has no transform, so it is not a root, and objects below it are
  reachable from nowhere, also ordinary ones (`C93_rect_refuted`).

* **C94** `unity/unity_scene.go:108`: the components of the root of a prefab are looked up in the prefab itself. If the root comes from another prefab (a variant), they are not there, so the
  instance is not added to its parent; as its father is set it is no root either and is converted nowhere (`C94_variant_refuted`). `:151`: `mod.Value.(string)` is empty for a name like `2`,
  which YAML reads as a number (`C94_name_refuted`). Modifications of `m_Materials.Array.size` are ignored, so that of a material beyond the list of the prefab is too (`C94_size_refuted`).
* **C95** `unity/unity_scene.go:94`: nothing stops at a prefab that (indirectly) contains itself: endless recursion (`C95_itself_refuted`). `:105`: `*prefab.Modification.TransformParent` without
  a check, `:140`: `prop[2][5:len(prop[2])-1]` and a negative index crash (`C95_crash_refuted`).

* **C96** `converter/fbx2mqo.go:170`: models of kind `LimbNode` are skipped with everything below them, so a mesh that is attached to a bone (a sword in a hand) is lost (`C96_limb_refuted`).
  `:110`: both `Model::` in front and `::Model` at the end are cut from any name (`C96_names_refuted`).
* **C97** `converter/fbx2mqo.go:206`: texture coordinates are only read for mapping `ByPolygonVertex` (`C97_uv_refuted`). `:198-200`: the reference type of normals is not looked at, so those with
  `IndexToDirect` are read without their indexes, and faces get too few normals (`C97_normal_refuted`); the mapping by vertex is only known as `ByControlPoint`, while files have `ByVertice`
  (`C97_byvertice_refuted`). `:234`: a model without materials gets material 0, the first of the document (`C97_bare_refuted`). `:258`: faces are always reversed, also if the model is mirrored,
  so that such models are turned inside out against their normals (`C97_mirror_refuted`).
* **C98** `converter/fbx2mqo.go:235`: `materialIDs[matIdx]` with index -1 (a polygon without material) crashes, `:248` `uv[uvIndex[..]]` with -1 or an index out of range, `:340` with a negative
  vertex of a shape (`C98_index_refuted`). `:317`: a deformer bound to the scene has no bone: `bones[-1]` (`C98_bind_refuted`). `fbx/fbx_document.go:177`: an axis above 3 or below 0 crashes
  (`C98_axis_refuted`). Models in a circle: endless recursion (`C98_circle_refuted`).

* **C99** `converter/fbx2mqo.go:334`: names of shapes are taken as they are, so in binary files they end with `::Geometry`, while names of models are cut (`C99_name_refuted`). Shapes with
  the same name in two models (the usual case for a face and its brows) give two objects of this name; the morph sets refer by name and cannot tell them apart (`C99_same_refuted`).

* **C100** `converter/fbx2mqo.go:309`: only `Model::` in front is cut from the names of bones, so in binary files they end with `::Model` (`C100_name_refuted`). `:322`: weights of FBX are parts of
  one, those of MQO percents (`converter/mqo2gltf.go:258` and `converter/mqo2mmd.go:148` multiply by 0.01), but they are not multiplied by 100 (`C100_percent_refuted`). `:77`: with `TargetModelName`
  the function returns before `SetBones` (`C100_target_refuted`).
* **C101** `fbx/fbx_material.go:33-41`: the name of the property is ignored, so a normal map that is connected first becomes the texture (`C101_texture_refuted`). `converter/fbx2mqo.go:97-99`: only
  the red part of colours of light is used (`C101_glow_refuted`). `:92`: the name keeps `::Material` or `Material::` (`C101_name_refuted`).
* **C102** `fbx/fbx_model.go:54-65`: rotation pivots, scaling pivots and offsets are not applied (`C102_pivot_refuted`), nor is `RotationOrder` (`C102_order_refuted`). `fbx/fbx_document.go:169`:
  `UnitScaleFactor` is not read (only for Unity scenes), so documents in metres come out a hundred times smaller than the same in centimetres (`C102_unit_refuted`).

* **C103** `converter/mqo2gltf.go:123`: `getImage` joins the directory and the name also if the name is an absolute path, in contrast to `addTexture` (`:370`), so such textures are lost if they have to be
  encoded, and never count as transparent (`C103_absolute_refuted`).
* **C104** `converter/mqo2gltf.go:339-342`: only the width is compared with the limit (`C104_height_refuted`). `:374-393`: PNG and JPEG files are copied whatever their resolution
  unless `-texReCompress` or `-texBytesThreshold` is given, so the default limit of 4096 has no effect on them (`C104_copied_refuted`).
* **C105** `converter/mqo2gltf.go:76-77,82-83`: the coordinate 1 becomes 0, so the rectangle of faces that show the whole picture is empty, and an empty picture is opaque (`C105_whole_refuted`).
  `:320-328`: other colour models, palettes among them, count as opaque (`C105_palette_refuted`). `:635-637`: a corner that reuses a vertex is not added to the rectangle, also if the vertex
  was made for another material (`C105_shared_refuted`). `:314-315`: the end of the rectangle is rounded down and excluded (`C105_edge_refuted`).

* **C106** `converter/mqo2gltf.go:841,863-866`: vertices are scaled, but the matrix of a copy is made from unscaled transforms, so copies are displaced by (scale - 1) times the image of the
  point that the first copy has at the origin (`C106_place_refuted`, `C106_offset` gives the vector). `:713-722`: index accessors are taken by position, so a copy with fewer materials loses
  faces (`C106_lost_refuted`) and one with more crashes (`C106_crash_refuted`). `:862`: objects of which a material is not exported keep their own vertices, but get the matrix nonetheless
  (`C106_twice_refuted`).

* **C107** `converter/unity2mqo.go:200-201`: the angles of spot lights are written beside the type, in degrees and whole, but glTF reads half angles in radians from the object `spot`, so all
  spot lights have 90 degrees (`C107_cone_refuted`, `C107_others`). `:187`: area lights become spot lights (`C107_area_refuted`). `unity/unity_components.go:191`: `m_Enabled` is not read
  (`C107_off_refuted`). `converter/unity2mqo.go:172` and `converter/mqo2gltf.go:835`: visibility means the renderer too, so that light is lost with it (`C107_renderer_refuted`).
  `converter/mqo2gltf.go:862`: the vertices of a mesh are at their place already when its node gets the matrix of the light (`C107_mesh_refuted`; with the usual scale of 1000 the mesh is 1000 times
  as large as well). `:765`: without the hierarchy of objects only objects with faces are exported (`C107_ignored_refuted`).

* **C108** `gltfutil/gltf_utils.go:55`: `filepath.Rel(srcDir, m.URI)` should be `filepath.Join`. For a document in another directory than the working one the file searched is never the one beside the
  document, for any path without dots (`C108_elsewhere_refuted`); a file of the same name at the wrong place is taken instead (`C108_picture_refuted`), and with an absolute directory no picture is found at
  all (`C108_absolute_refuted`); the error is only logged. Addresses are not unescaped (`C108_encoded_refuted`). `:50-52`: the addresses of all buffers are cleared, but a .glb file can have only one
  buffer without address (`C108_buffers_refuted`). `cmd/modelconv/main.go:86-90`: new names of buffers are not compared with those of other buffers (`C108_names_refuted`). `gltfutil/gltf_utils.go:21-47`:
  meshes, primitives, textures, images, buffers and views keep the extension, and it stays in `extensionsUsed` (`C108_extension_refuted`).

* **C109** `converter/mqo2gltf.go:943`: rotations of shapes are not exported, so documents that differ only in them give the same result (`C109_rotation_refuted`). `:951-954`: further bodies of a node lose
  group and mask (`C109_group_refuted`), and one fixed body fixes all, whose shapes then are colliders too (`C109_mixed_refuted`). `:797-804,891-898`: a body with a bone and an object is exported to both
  nodes with its whole mass (`C109_twice_refuted`). Bodies of objects that get no node, and bodies without target, are lost (`C109_lost_refuted`).

* **C110** `mqo/mqx_parser.go:9-13`: the physics plugin is written, but not read, so all rigid bodies and joints are lost when a saved document is loaded, whatever the files are (`C110_physics_refuted`).
  `mqo/mqo_writer.go:238`: the error of creating the .mqx file is dropped; the plugins are lost, or those of an older file are loaded (`C110_silent_refuted`). `mqo/mqo_parser.go:417`: entries are compared
  with their folder (`C110_folder_refuted`); `:430`: the extension is compared with its case, unlike in the program (`C110_case_refuted`). `mqo/mqo_writer.go:278`: `FixNames` renames objects but not the
  morphs that refer to them, so a morph moves another object after saving (`C110_morph_refuted`); `SaveMQOZ` does not rename.

* **C111** `fbx/fbx_document.go:85`: the scene is known only by the name that binary files use, so a text file of version 6100, which says "Model::Scene", converts to nothing (`C111_text_refuted`);
  `fbx/fbx_object.go:61`: only Properties70 is read, so models of version 6100 are all at the origin (`C111_properties_refuted`). `fbx/fbx_document.go:114`: an object without a number replaces the scene
  in the table (`C111_zero_refuted`), and the later of two objects with a number replaces the first (`C111_twice_refuted`). `:120-131`: identifiers that are no integers are read as 0, so the scene
  becomes its own child, and the conversion does not end (`C111_loop_refuted`).

* **C112** `fbx/fbx_node.go` (`Dump`) writes names as "Class::name", which the text parser keeps as they are, while the rest of the tool expects the order of binary files: converting FBX to FBX renames
  materials (`C112_materials_refuted`) and bones (`C112_bones_refuted`), models cannot be chosen by name (`fbx/fbx_model.go:91-100`, `C112_target_refuted`), and files of version 6100 become empty
  (`C112_old_refuted`). `fbx/fbx_node.go:82-100`: an empty array of float64 or int64 is read as one zero; the saved file has none (`C112_weights_refuted`).

* **C113** `converter/unity2mqo.go:359-365`, `unity/unity_assets.go:42-47`: if the meta file has no name for the number of the mesh (newer versions of Unity write `internalIDToNameTable` instead), the name is empty
  and the whole FBX file is imported for each object (`C113_unnamed_refuted`); the name is looked up only among the models directly below the scene, in the form of binary files, and nothing is reported
  (`C113_nested_refuted`, `C113_text_refuted`; `fbx/fbx_model.go:91-100`). `unity2mqo.go:340`: ".FBX" is not supported (`C113_suffix_refuted`).
  `converter/fbx2mqo.go:128-151,234-236`: a mesh that only uses the second material of its file, in an object with one material, gets material 0 of the document (`C113_material_refuted`), and so do all models
  below (`C113_below_refuted`). `unity2mqo.go:168-170` shows the hidden objects of blend shapes (`C113_shape_refuted`). `fbx2mqo.go:85-87` replaces the bones of files imported before (`C113_bones_refuted`).
  `unity2mqo.go:367`: the key for shared geometry does not depend on the materials (`C113_key_refuted`; C106 shows that faces are then lost or the tool crashes) and joins identifier and number without a
  separator (`C113_collision_refuted`). `unity2mqo.go:339,356`: an asset with an empty identifier crashes (`C113_empty_refuted`).

* **C114** `converter/unity2mqo.go:310-312`: a saved texture that exists is never replaced, so that a changed texture is not seen (`C114_stale_refuted`), and a file of which the copy failed half way is taken to be
  complete by the next run (`C114_cut_refuted`). `unity2mqo.go:306-308`: the name in the document is relative to the directory above `Assets`, but the document is by default written beside the scene
  (`cmd/modelconv/main.go:177`), where the reference leads nowhere (`C114_output_refuted`). Identifier and name are joined by an underscore, which the directories of a package may contain
  (`C114_underscore_refuted`). `main.go:385-386` does not check the index: the argument `city.unity`, a directory that the loader opens as assets, panics after the conversion (`C114_panic_refuted`).

* **C115** `converter/vrmconfig.go:302-303,318` with `cmd/modelconv/main.go:94-98`: saving a .vrm file again, for instance to scale it, replaces its metadata (author, licence) by empty ones and removes all bones, without
  an error (`C115_again_refuted`); a misspelt name of a configuration is only logged (`C115_unknown_refuted`). `vrmconfig.go:98-101`: `c.MaterialSettings` is nil if the configuration has none, and all three presets of the
  program have a setting, so that a configuration with just `"preset": "mmd"` panics (`C115_crash_refuted`). `vrmconfig.go:97-107`: the preset of a preset and its flags are ignored (`C115_nested_refuted`).
  `vrmconfig.go:86,323`: the preset is looked for in the working directory, not beside the configuration (`C115_beside_refuted`). `vrmconfig.go:233`: a second run with the same configuration appends the same
  groups again (`C115_twice_refuted`).

* **C116** `converter/gltf2mqo.go:134-138`: translation, rotation, scale and matrix of the nodes are ignored, so that all meshes are put at the origin (`C116_place_refuted`), and nodes outside the scene are shown
  (`C116_outside_refuted`). `gltf2mqo.go:58-94`: the mode of a primitive is ignored: strips and fans are read as lists of triangles (`C116_strip_refuted`), lines and points become triangles (`C116_lines_refuted`).
  `gltf2mqo.go:89-92`: primitives with the default material get the first material (`C116_default_refuted`). `gltf2mqo.go:50`: the texture is the URI of the image, which is empty for pictures in a buffer, as in
  every .glb and .vrm file (`C116_embedded_refuted`); a texture without source, as with the WebP extension, dereferences nil (`C116_source_refuted`).

* **C117** `unity/unity_material.go:89-98`: a document without a tag is decoded without checking that it has a Material, which succeeds with an empty one (`C117_untyped_refuted`); the file ID of the reference is not
  used, so that all references to a file with several materials get the first (`C117_second_refuted`), and a decoding error is skipped silently and the next material of the file is taken (`C117_broken_refuted`).
  `converter/unity2mqo.go:123-128`: the colour of the emission is used although the keyword _EMISSION is not set (`C117_glow_refuted`). `unity2mqo.go:120-122`: alpha is used although the mode is opaque
  (`C117_opaque_refuted`).

* **C118** `mqo/mqo_parser.go:334-336`: backslashes are replaced only in Shift-JIS files. In UTF-8 files text/scanner takes them for escapes: a texture `tex\eye.png` is a scanner error, and `Parse` fails for the whole
  file (`C118_escape_refuted`); `tex\new.png` keeps its backslash, which no Unix path has (`C118_kept_refuted`); a name that ends in a backslash swallows the text up to the next quote (`C118_end_refuted`).
  `mqo_parser.go:331-332`: the declaration is looked for in the result of a single Read, which may return less than 128 bytes, for instance from a compressed entry of an .mqoz file (`C118_chunk_refuted`), and not
  behind the first 128 bytes (`C118_late_refuted`).

* **C119** `cmd/modelconv/main.go:85-90`: only buffers without address get a name of their own. `modelconv -scale 2 a.gltf b.gltf` writes the scaled data into `a.bin`, the data of the input: `a.gltf` is scaled as
  well, and running the same command again scales twice (`C119_same_refuted`); two inputs with buffers of the same name converted into one directory share one file (`C119_shared_refuted`). A buffer with a `data:`
  address is saved with its old address: the scaling of the data is lost without a message, for every such document and every change (`C119_embedded_refuted`). Images beside the input are not copied
  (`C119_picture_refuted`). A buffer address equal to the output name destroys the output (`C119_own_refuted`).

* **C120** `converter/gltf2mqo.go:70` takes metres for millimetres, although `mqo2gltf.go:150` divides by 1000: every glTF or VRM model becomes a thousandth of its size in MQO and PMX, and MQO to glTF to MQO shrinks a
  model by 1000 (`C120_gltf_refuted`, `C120_metre_refuted`). `fbx/fbx_document.go:169-181` does not look at UnitScaleFactor: the size is right only for documents in millimetres (`C120_fbx_refuted`; `unity2mqo.go:359`
  does look at it). `main.go:200-206`: the default scale of MMD models is 80, so that `-scale 2` makes a model 40 times smaller than no option (`C120_scale_refuted`); `main.go:240-250` ignores every scale
  (`C120_fbx_scale_refuted`); `glbanim.go:36` has 80 built in: with `-scale 40` bones move twice as far as they should (`C120_motion_refuted`).

* **C121** `fbx/fbx_document.go:143-160`: `AddObject` does not append to `Materials`, and `AddConnection` does not set `Parent`: for every history of calls both stay as they were (`C121_memory_refuted`), while the written file
  has them (`C121_materials`, `C121_parent`, `C121_lists_refuted`); `GetWorldMatrix` of a new model thus lacks its parents. `AddConnection` writes the id of the moment: connected before `AddObject`, the child has id 0,
  which is the scene, and the file says that the scene is a child of itself (`C121_order_refuted`). `fbx_model.go:67-72`: `SetTranslation` after `GetMatrix` has no effect on `GetMatrix` (`C121_moved_refuted`).
* **C122** `mqo/mqo_writer.go` `WriteMQO`: names are printed between quotes as they are, but read as Go string literals. An object called `12" disc` makes the saved file unreadable
  (`C122_quote_refuted`), so does `face\eye` (`C122_backslash_refuted`); `say \"` comes back as `say \` (`C122_trimmed_refuted`); a name with a quote, braces and line ends is loaded as two objects
  (`C122_objects_refuted`). All importers pass names on as they are, e.g. those of glTF meshes (`C122_any_name`), so such a conversion reports success and leaves a file that cannot be opened.
* **C123** `converter/mqo2gltf.go` `convertMaterial`: numbers that are 0 are left out, but for `specularFactor` a missing number means 1 and for `ior` 1.5, so a material whose specular reflections
  are turned off gets them in full (`C123_zero_refuted`). Metalness 0 with roughness 1, the usual matte material, is exported as unlit even if `Extensions.Unlit` is false (`C123_unlit_refuted`).
  A colour parameter of fewer than three numbers makes `c[0:3]` panic (`C123_color_refuted`; the parser always makes four).
* **C124** `fbx/fbx_node.go` `GetInt32Array`/`GetFloat32Array`: an empty array of doubles or int64 becomes nil, is then taken for a list of single numbers, and gives one 0. A cluster without points
  so has weight 0 for point 0 (`C124_empty_refuted`); if its indexes are an empty int32 array, the lengths differ and the cluster is reported as broken. Indexes of 64 bits are cut to 32 (`C124_wide_refuted`).
* **C125** `cmd/modelconv/main.go`: `mqo.Save` and `mqo.Load` look for the suffix `.mqoz` in small letters, whatever format `main` has found: `-format mqoz a.pmx out` and `OUT.MQOZ` give plain text,
  `A.MQOZ` is read as text, `-format mqo a.pmx out.mqoz` gives an archive (`C125_archive_refuted`). Inputs after the first that are no motions, and motions for MQO, PMX or from glTF, are ignored silently
  (`C125_inputs_refuted`). From glTF to glTF `-hide`, `-alpha`, … do nothing, from FBX to FBX not even `-scale` (`C125_options_refuted`). `-format GLB` is unsupported (`C125_capitals_refuted`).
  `pack.unitypackage#Assets/a.unity` without an output goes to `pack.unitypackage#Assets/a.mqo`, whose directory does not exist (`C125_place_refuted`).
* **C126** `converter/mqo2gltf.go:747-766`: objects are morph targets by name, so a PMX morph named like a mesh object (`M_` and the name of a material) takes that object out of the glTF document, with all its faces
  (`C126_name_refuted`). `mqo/utils.go:18-24`: normals are multiplied by the inverse transposed matrix and not normalised; after scaling by k they have length 1/k and are exported so (`C126_normal_length`, `C126_unit_refuted`),
  with the factor 80 for MMD models always; glTF asks for unit vectors.
* **C117** `unity/unity_material.go:82-88`, `unity/unity_yaml.go`: a material file in which a document starts with a tag of one word (`--- !u &100`) panics in the parser of the documents (see C51), and this is the only way a material lookup crashes (`C117_crash`, `C117_crash_refuted`).
* **C119** `cmd/modelconv/main.go:84-90` with the glTF library: saving writes no file for a buffer without data, but the document refers to it: opening the saved document fails, or reads an older file of that name (`C119_empty_refuted`).
* **C127** `converter/mqo2gltf.go:610-614` with `converter/fbx2mqo.go:228-236`: an FBX document without materials draws nothing in glTF: its faces have material 0, which does not exist, and faces without a material are left out
  (`C127_bare_refuted`). `converter/mqo2gltf.go:747-766`: a shape with the name of its model takes the model out of the glTF document (`C127_name_refuted`).
* **C121** `fbx/fbx_document.go:143-155`: `AddObject` writes a new id into the node of an object that comes from another document; the node is shared, so the other document, whose table and connections have the old id, is broken (`C121_shared_refuted`).
* **C128** `converter/mqo2mmd.go:109-113` (marked as a TODO): polygons become fans around their first corner, so a polygon that is not convex (allowed in FBX and MQO) covers area outside of itself in PMX and one of its faces is turned over; the glTF export divides the same polygon
  correctly (`C128_concave_refuted`). `converter/mqo2mmd.go:56-75`: only faces of materials of the document are written, so an FBX document without materials gives a PMX model without faces (`C128_bare_refuted`). A shape with the name of its model takes the model out (`C128_name_refuted`).
* **C129** `converter/mmd2mqo.go:38-40`: a texture number beyond the texture list is an index out of range (`C129_crash_refuted`). `converter/mqo2mmd.go:165-174`: the flags stay 0 and the edge scale 0, so double sided materials and edges are lost in PMX,
  though the other direction reads both (`C129_sides_refuted`, `C129_edge_refuted`).
* **C130** `converter/mmd2mqo.go:338-340`: morph entries with target -1 (all materials) are dropped (`C130_all_refuted`), and targets beyond the materials may hit the materials of earlier morphs, because the list grows. Line 351 writes the shininess of the entry, but
  `mqo/morph_plugin.go:62-78` only morphs colours (`C130_power_refuted`) and finds materials by name, so the last of several equal names is changed (`C130_name_refuted`); morph `a` with a morph `a:b` is a nil dereference (`C130_colon_refuted`).
* **C131** `mqo/mqo_parser.go:345-385`: unknown chunks are not skipped as blocks, only token by token, so an object (or `Eof`) inside of an unknown chunk is read as one of the document (`C131_chunk_refuted`). `mqo/mqo_parser.go:152-165`: the same for the arguments of unknown
  items (`C131_word_refuted`). Lines 112-119: an unknown attribute ends at its first closing bracket (`C131_nested_refuted`).
* **C132** `converter/mmd2mqo.go:85`: an IK whose target is -1 or too large panics (`C132_target_refuted`); the second IK with the same target replaces the first (`C132_same_refuted`). Line 82 tests `TailID > 0`, so bone 0 is never a tip (`C132_tip_refuted`). Line 86 counts
  the links, so a chain that leaves out a bone (`C132_gap_refuted`) or passes a bone with inherited rotation, lines 63-72 (`C132_inherit_refuted`), moves other bones.
* **C133** `converter/mqo2mmd.go:57-75`: primitives without material get number 0 (`converter/gltf2mqo.go`), and a document without materials loses all its faces in the PMX model (`C133_bare_refuted`). The place of a node is lost on the way as in C116 (`C133_place_refuted`).
* **C134** `converter/mqo2mmd.go:38-56`, `converter/mmd2mqo.go:233-338`: a PMX model with a morph named as a mesh object (for example `M_skin`) loses the faces of that object when it is saved as PMX (`C134_name_refuted`). Vertices that no face uses are dropped, so the numbers of the others change (`C134_vertices_refuted`).
* **C135** `converter/mmd2mqo.go:287-296`: the wrong sum of weights of a bone that is named twice (C35) reaches the PMX model that is saved (`C135_twice_refuted`).
* **C136** `converter/mqo2mmd.go:94-108` after `converter/mmd2mqo.go:276-335`: a PMX model that is saved as PMX loses the z of every morph offset (`C136_z_refuted`), one of two morphs with the same name (`C136_name_refuted`), and its morphs of texture coordinates, which come back as vertex morphs with offsets of zero (`C136_uv_refuted`).
* **C137** `converter/mmd2mqo.go:57-75` and `converter/mqo2mmd.go:26-33`: a PMX model that is saved as PMX gets its last child as the tail of every bone in place of the tail it had (`C137_tail_refuted`), a bone that takes the rotation of a known bone is hung on that bone (`C137_parent_refuted`), and inherited rotation is lost, also where the parent is kept (`C137_inherit_refuted`).
* **C138** `converter/mqo2mmd.go:210-212` against `converter/mmd2mqo.go:380`: mode 0 of PMX is read as kinematic and kinematic is written as mode 1, so every rigid body of a PMX model saved as PMX changes its mode (`C138_mode_refuted`). `mqo2mmd.go:195`: the size is mirrored as if it were a place, and the transformation in between has made it positive, so boxes get a negative depth (`C138_size_refuted`). `mqo2mmd.go:125-129`: joints are not written (`C138_joints_refuted`). `mqo2mmd.go:205`: bone -1 is looked up as ID 0, which the map does not have, and becomes bone 0 (`C138_free_refuted`).
* **C140** `GetParent` (unity_components.go 110-114, marked TODO in the source) resolves `m_Father` in the scene of the transform. Loading stores in the root transform of a prefab instance the id of its parent in the outer scene (unity_scene.go 105-106), but the transform still belongs to the scene of the prefab. So the parent of an instance is not found, and its world matrix lacks everything above the instance. If the prefab happens to have a transform with that id, this one is taken; if it is the root itself, `GetWorldMatrix` recurses without end. The converters do not call `GetWorldMatrix` of Unity transforms at present; they go down by `GetChildren`, which C93 and C94 cover.
