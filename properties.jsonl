{"id": "C01", "title": "Triangulating a polygon neither loses nor invents surface", "statement": "For every polygon with n>=3 corners geom.Triangulate terminates and returns exactly n-2 triangles; every triangle names three different corners of the polygon; and the triangles glue together to the polygon: the oriented edges of all triangles cancel to exactly the oriented boundary of the input polygon, so no part is missing, doubled or flipped. With fewer than 3 corners it returns nothing.", "quantifier": "every polygon size and every arrangement of corner coordinates (convex, concave, self-intersecting, degenerate, any outcome of the floating-point ear tests)", "why_tests_cant": "A test fixes a few polygons; the ear test has exponentially many outcomes and the fallback branch is reached only by self-intersecting input.", "anchors": ["geom/utils.go: Triangulate, IsInTriangle"]}
{"id": "C02", "title": "Matrix algebra used everywhere is sound", "statement": "For exact arithmetic: A.Mul(B) applied to a point is A applied to (B applied to the point) for every affine B; Mul is associative with NewMatrix4 as identity; m.Inverse() is a two-sided inverse whenever Det is non-zero and the zero matrix otherwise; Det is multiplicative; Transposed is an involution that reverses products.", "quantifier": "all 4x4 real matrices and all points", "why_tests_cant": "Sixteen free real coefficients; a single transposed index in the 96-term adjugate is invisible on the sparse matrices used in tests.", "anchors": ["geom/matrix4.go: Mul, Det, Inverse, Transposed, NewMatrix4", "geom/vector3.go: Matrix4.ApplyTo"]}
{"id": "C03", "title": "Quaternion rotation, matrix rotation and TRS agree", "statement": "For exact arithmetic and unit quaternions: q.ApplyTo preserves lengths and dot products, (p.Mul q).ApplyTo v = p.ApplyTo(q.ApplyTo v), q.Inverse undoes q, NewRotationMatrix4FromQuaternion(q) moves every point exactly as q.ApplyTo, and NewTRSMatrix4(t,r,s) maps v to t + r.ApplyTo(s*v).", "quantifier": "all unit quaternions, all points, all translations and scales", "why_tests_cant": "Sign errors in single products survive tests on axis-aligned rotations; the claim is a polynomial identity over 7+ variables.", "anchors": ["geom/quaternion.go: Mul, Inverse, ApplyTo", "geom/matrix4.go: NewRotationMatrix4FromQuaternion, NewTRSMatrix4"]}
{"id": "C04", "title": "Decompose is a section of NewTRSMatrix4", "statement": "For exact arithmetic, decomposing any matrix built from a translation, a unit rotation and a scale with no zero component (including mirrored scales) and recomposing it with NewTRSMatrix4 gives the same matrix, and the rotation returned is a unit quaternion.", "quantifier": "all translations, unit quaternions and scales with non-zero components, in all four branches of the quaternion extraction", "why_tests_cant": "Four data-dependent branches with square roots; the rarely taken branches need trace<=0 rotations combined with mirroring.", "anchors": ["geom/matrix4.go: Decompose, NewTRSMatrix4"]}
{"id": "C05", "title": "Euler angles extracted from a rotation describe that rotation", "statement": "For exact arithmetic, for each of the four rotation orders, NewEulerFromMatrix4 followed by ToQuaternion yields the rotation it was given whenever the middle angle is outside the gimbal guard band; ToQuaternion always yields a unit quaternion equal to the product of the three axis rotations in the order's sequence.", "quantifier": "all rotations outside the guard band, all four orders, all angles", "why_tests_cant": "Involves four different formulas with asin/atan2 quadrant logic; tests sample a few angles.", "anchors": ["geom/euler.go: NewEulerFromMatrix4, NewEulerFromQuaternion, EulerAngles.ToQuaternion"]}
{"id": "C06", "title": "Setting an object's rotation and reading it back gives the same rotation", "statement": "After obj.SetRotation(q), obj.GetRotation() represents the same rotation as q (and hence SetLocalTransform followed by GetLocalTransform is the identity on TRS matrices).", "quantifier": "all unit quaternions", "why_tests_cant": "Agrees on every single-axis rotation, so the usual test values cannot reveal the difference.", "anchors": ["mqo/mqo.go: Object.SetRotation, GetRotation, SetLocalTransform, GetLocalTransform"]}
{"id": "C07", "title": "Transforming an MQO object moves geometry consistently", "statement": "obj.ApplyTransform(A) then ApplyTransform(B) places every vertex where ApplyTransform(B*A) does; vertex count, faces, UVs, materials are untouched; and for an invertible affine transform every face normal that was perpendicular to an edge stays perpendicular to the transformed edge.", "quantifier": "all objects, all invertible affine transforms (rotation, shear, non-uniform scale, mirror)", "why_tests_cant": "Non-uniform scale and shear with normals are a universally quantified geometric statement.", "anchors": ["mqo/utils.go: Object.ApplyTransform"]}
{"id": "C08", "title": "Flipping and triangulating faces keeps per-corner attributes attached", "statement": "Face.Flip reverses the corner cycle, keeps every corner's UV and normal with its vertex, and is an involution; Object.Triangulate produces only triangles, exactly max(0,n-2) per n-gon, each triangle's corner carrying the UV, normal and material of the source corner, with the boundary of every polygon preserved, in face order.", "quantifier": "all objects with any number of faces of any arity, with or without UVs and normals", "why_tests_cant": "Correspondence between three parallel arrays for unbounded arity.", "anchors": ["mqo/mqo.go: Face.Flip", "mqo/utils.go: Object.Triangulate"]}
{"id": "C09", "title": "FixNames makes object and material names unique and is minimal", "statement": "After doc.FixNames all object names are pairwise different and all material names are pairwise different; an entry is renamed exactly when an earlier entry carries its name by then, and it gets its old name plus the smallest free suffix _k (k>=2); order, count and everything else is unchanged; running it again changes nothing; the search for a free suffix always ends.", "quantifier": "all lists of names, including names that already look like generated ones (a, a, a_2, a_2)", "why_tests_cant": "Collisions between generated and pre-existing names depend on unbounded combinations.", "anchors": ["mqo/mqo.go: Document.FixNames"]}
{"id": "C10", "title": "FixObjectID gives every object a unique id", "statement": "After doc.FixObjectID every object has a non-zero UID, objects that had one keep it, and no two objects share a UID, so doc.GetObjectByID(o.UID) returns o.", "quantifier": "all documents", "why_tests_cant": "Needs a document mixing explicit and missing ids in a particular arrangement.", "anchors": ["mqo/mqo.go: FixObjectID, GetObjectByID"]}
{"id": "C100", "title": "The skeleton of an FBX document becomes bones with the same weights", "statement": "There is one bone for each model that a converted mesh is bound to and for each model above such a one, under its name, below the bone of its parent and placed where it was when the mesh was bound. A vertex is bound to the same bones with the same share as in the document, also if a single model is converted.", "quantifier": "all documents, skeletons, deformers and options", "why_tests_cant": "Deformers come in any order, share bones, and name models at any depth, so bones are made on demand along paths of any length.", "anchors": ["converter/fbx2mqo.go: convertDeformer", "mqo/bone_plugin.go: SetVertexWeight", "fbx/fbx_geometry.go: GetDeformers"]}
{"id": "C101", "title": "Materials of a converted FBX document look as in the document", "statement": "Each material of an FBX document becomes one with its name, its diffuse colour and opacity, its specular, ambient and emissive colour, and the texture of its diffuse colour.", "quantifier": "all documents and materials", "why_tests_cant": "Properties are optional, fall back to templates, and textures are connected in any order.", "anchors": ["converter/fbx2mqo.go: convertMaterial", "fbx/fbx_material.go: GetTexture", "fbx/fbx_object.go: GetProperty"]}
{"id": "C102", "title": "FBX models and axes are placed as the FBX SDK says", "statement": "The matrix of a model moves points as the transformation formula of the FBX SDK says, for all its properties, and the matrix of a document turns its axes into X, Y and Z and its unit into the unit of the result.", "quantifier": "all properties of models and settings", "why_tests_cant": "Angles, pivots, orders and signs combine freely; matrices are products of trigonometric functions.", "anchors": ["fbx/fbx_model.go: UpdateMatrix", "fbx/fbx_document.go: CoordMatrix", "geom/euler.go: ToQuaternion"]}
{"id": "C103", "title": "Textures of exported glTF documents are the files that materials name", "statement": "Each slot of an exported material, including those of extensions, shows the picture of the file that the MQO material names there: as a copy of the file or encoded again, with its type and name. A file is stored once, however many materials use it, and a slot is empty only if nothing is named or the picture cannot be read or encoded.", "quantifier": "all lists of materials, files, codecs and options", "why_tests_cant": "Materials share textures in any pattern through a cache, files may be missing, of any type and size, and six extensions can be on or off.", "anchors": ["converter/mqo2gltf.go: addTexture", "converter/mqo2gltf.go: tryAddTexture", "converter/mqo2gltf.go: getImage", "converter/mqo2gltf.go: scaleTexture", "converter/mqo2gltf.go: convertMaterial"]}
{"id": "C104", "title": "Textures that are encoded again keep within the resolution limit", "statement": "An encoded texture is scaled as asked, and its sides are not longer than the limit.", "quantifier": "all sizes, scales and limits", "why_tests_cant": "Width, height, scale and limit are arbitrary numbers, rounded twice.", "anchors": ["converter/mqo2gltf.go: scaleTexture", "converter/mqo2gltf.go: addTexture"]}
{"id": "C105", "title": "Materials with transparent textures are blended, others not", "statement": "With the option to detect it, a material is blended if and only if its colour or a pixel of its texture that its faces show is not opaque.", "quantifier": "all documents, pictures and options", "why_tests_cant": "The pixels that count depend on texture coordinates of all faces of all objects, and on vertices that faces share.", "anchors": ["converter/mqo2gltf.go: hasAlpha", "converter/mqo2gltf.go: newUVRectFromPoint", "converter/mqo2gltf.go: Add", "converter/mqo2gltf.go: ConvertObject"]}
{"id": "C106", "title": "Reusing geometry does not change what an exported glTF document draws", "statement": "With -gltfReuseGeometry every node draws the same triangles at the same places in the same materials and texture coordinates as without, and is skinned to the same joints.", "quantifier": "all documents whose objects with equal keys are copies, all transforms and scales", "why_tests_cant": "Copies come in any number, order and placement, with other materials than the first, some hidden, mixed with other objects; the scale is arbitrary.", "anchors": ["converter/mqo2gltf.go: ConvertObject", "converter/mqo2gltf.go: Convert"]}
{"id": "C107", "title": "Lights of Unity scenes are in the exported glTF document", "statement": "Each light of a Unity scene that shines is listed once in the exported document, belongs to the node of its object, has the type, colour, range and cone it has in Unity by the rules of KHR_lights_punctual, and is at its place, shining in its direction. Lights do not change what else is drawn.", "quantifier": "all scenes, transforms, scales and lights", "why_tests_cant": "Scenes are trees of any shape with any transforms and components; numbers of lights depend on all objects before them.", "anchors": ["converter/unity2mqo.go: convertObject", "converter/mqo2gltf.go: Convert", "geom/matrix4.go: TranslationScale"]}
{"id": "C108", "title": "A .glb file contains everything that the document refers to", "statement": "Saving a glTF document as .glb or .vrm puts the pictures that it names, found beside the document, into the file with the right type, and leaves nothing outside it; data already in the document stays as it is. Saved as .gltf, every buffer has a file of its own. An extension that is removed is in no part of the document, all others stay.", "quantifier": "all documents, directories, file systems, relative addresses and alignments of buffers", "why_tests_cant": "The result depends on the directory the program is started in relative to the document, on arbitrary paths with dots, and on all earlier images in the buffer.", "anchors": ["gltfutil/gltf_utils.go: ToSingleFile", "gltfutil/gltf_utils.go: RemoveExtension", "cmd/modelconv/main.go: saveGltfDocument"]}
{"id": "C109", "title": "Physics bodies reach the nodes of their bones and objects", "statement": "With physics exported, every node of the glTF document has exactly the rigid bodies of its bone or object: all shapes, of the same size, place and direction in the world, the masses summed, with their groups and masks, and fixed only if the body is. The round shapes of fixed bodies, and no others, become colliders of an avatar at the same place.", "quantifier": "all documents, hierarchies of bones, scales and lists of bodies and shapes", "why_tests_cant": "Places of shapes are relative to nodes that are themselves relative to parents; several bodies on one node meet only in rare models, and the order of bodies matters.", "anchors": ["converter/mqo2gltf.go: addPhysicsBody", "converter/mqo2gltf.go: Convert", "converter/vrmconfig.go: ConvertColliders"]}
{"id": "C11", "title": "World transforms follow the object hierarchy", "statement": "GetWorldTransforms assigns every object the product of the local transforms of its ancestors (the nearest preceding objects of smaller depth) and its own.", "quantifier": "all documents with any nesting", "why_tests_cant": "Stack discipline over arbitrary depth sequences.", "anchors": ["mqo/mqo.go: GetWorldTransforms"]}
{"id": "C110", "title": "Bones, morphs and physics come back when a saved document is loaded", "statement": "A document saved as .mqo, with its .mqx file beside it, or as .mqoz is loaded with the same bones (weights, parents, poses, IK), morphs and rigid bodies; saving reports an error if a part cannot be written, morphs still refer to the same objects, and no other file changes.", "quantifier": "all documents of the text format, plugins, paths and contents of the file system", "why_tests_cant": "The plugins are written and read by reflection on many optional fields; which of them are missing, and what files are there already, varies freely.", "anchors": ["mqo/mqx_writer.go: WriteMQX", "mqo/mqx_parser.go: ReadMQX", "mqo/mqo_writer.go: WriteMQO, Save, SaveMQOZ", "mqo/mqo_parser.go: Parse, Load, LoadMQOZ"]}
{"id": "C111", "title": "Objects of an FBX file are connected as the file says", "statement": "In the document read from an FBX file every object has the type of its node, the materials are in the order of the file, and an object refers to another if and only if a connection of the file says so, by number or, in version 6100, by name; models have the properties that the file gives them.", "quantifier": "all trees of nodes: any objects, numbers, names, connections and versions", "why_tests_cant": "Identifiers are looked up in maps that later objects overwrite, and missing or mistyped ones are silently read as the number of the scene.", "anchors": ["fbx/fbx_document.go: BuildDocument", "fbx/fbx_object.go: GetProperty", "fbx/fbx_geometry.go: Init, GetLayerElement", "fbx/fbx_node.go: ToInt64, ToString"]}
{"id": "C112", "title": "An FBX file that is saved again is the same document", "statement": "Converting an FBX file to FBX writes a file that is loaded as the same document: objects of the same types, names, geometry, layers, weights, properties and matrices, the same connections, materials and axes, so that it converts to the same model.", "quantifier": "all trees of nodes, with any attributes and versions", "why_tests_cant": "The text form changes types of numbers, the order of names and classes, and empty arrays, and whether that shows depends on which accessor reads the attribute later.", "anchors": ["cmd/modelconv/main.go: main (FBX to FBX)", "fbx/fbx.go: Load, Save, Write", "fbx/fbx_node.go: Dump", "fbx/text_parser.go: Parse", "fbx/fbx_document.go: BuildDocument"]}
{"id": "C113", "title": "A mesh of a Unity scene comes from the model that it names", "statement": "An object of a Unity scene that refers to a mesh of an FBX file gets the model that the meta file names for the reference, with what is below it, in the place of the object and with the materials of its renderer, no matter which files were read before; imports with the same key for shared geometry are the same mesh.", "quantifier": "all sequences of references, assets, meta files and FBX documents", "why_tests_cant": "The result depends on the order of imports through the file that is kept in memory, on names and nesting in the file, and on how materials are numbered in each mesh.", "anchors": ["converter/unity2mqo.go: importMesh, convertObject", "unity/unity_assets.go: GetRecycleNameByFileID", "converter/fbx2mqo.go: ConvertTo, convertModel", "fbx/fbx_model.go: FindChildModel"]}
{"id": "C114", "title": "Textures of a Unity scene are saved where the document refers to", "statement": "After the conversion of a Unity scene every texture that could be read is in a file with the content of its asset, the name in the document leads to this file, assets with different identifiers have different files, nothing else on the disk changes, and the program looks for the textures in the directory in which it saved them.", "quantifier": "for every disk, every list of textures of the materials, every content of the assets and every form of the argument", "why_tests_cant": "The result depends on what is on the disk already, on names that coincide only for some identifiers, on reads that fail half way and on the directory of the output; a test starts with an empty directory and a few textures.", "anchors": ["converter/unity2mqo.go:305-325", "converter/unity2mqo.go:131-148", "cmd/modelconv/main.go:382-390", "cmd/modelconv/utils.go:60-69"]}
{"id": "C115", "title": "A .vrm file has the settings of the configuration", "statement": "When a document is saved as .vrm, the configuration of the command line, of the file beside the model or of the preset for MMD models is used; the file then has its metadata, the bones that its mappings and then those of its preset say, each at most once, one property per material, the extensions it uses listed once, and exactly the missing required bones are reported; what the document had before is kept, and saving does not crash.", "quantifier": "for every document with or without the VRM extension, every configuration, preset, set of files and flags", "why_tests_cant": "The result combines a document, a configuration, a preset and what an earlier run left in the file; the crash depends on the absence of a field, and lost metadata are not visible in the picture of the model.", "anchors": ["converter/vrmconfig.go:69-107", "converter/vrmconfig.go:300-373", "converter/vrmconfig.go:479-493", "vrm/vrm_extension.go:27-57", "cmd/modelconv/main.go:93-113", "cmd/modelconv/main.go:185-199"]}
{"id": "C116", "title": "An imported glTF scene shows what the scene shows", "statement": "The MQO document made from a glTF document shows exactly the triangles that the scene of the glTF document shows, with their materials and at the places its nodes put them, and every textured material refers to the picture of its texture.", "quantifier": "for every glTF document: nodes with any matrices and hierarchy, primitives of any mode, materials with any textures and images", "why_tests_cant": "Test models are usually one mesh of triangles at the origin with external pictures; modes, matrices, nodes outside the scene and embedded pictures are each ignored without a message, and the crash depends on a missing optional field.", "anchors": ["converter/gltf2mqo.go:28-54", "converter/gltf2mqo.go:56-105", "converter/gltf2mqo.go:127-138"]}
{"id": "C117", "title": "A material of a Unity scene looks like the material in its file", "statement": "LoadMaterial gives the material of the file that the reference names, and the material of the document made from it has its name, its colour, its emission if it is switched on, its tiling, and textures that lead to the contents of the assets of its main texture and its normal map.", "quantifier": "for every material file, decoded or not, every set of assets, state of the disk and option to save textures", "why_tests_cant": "Which document of a file is taken depends on types, order and decoding errors of all of them, and the keywords and modes that switch properties on and off are in other parts of the file.", "anchors": ["unity/unity_material.go:10-101", "converter/unity2mqo.go:108-153", "converter/unity2mqo.go:305-325", "unity/unity_yaml.go:25-91"]}
{"id": "C118", "title": "An MQO file is read in its code page and its file names are understood", "statement": "A file that declares UTF-8 is read as it is and any other file as Shift-JIS, however the bytes arrive; a name in quotes is read without an error as the name with slashes for backslashes, and reading goes on behind its closing quote.", "quantifier": "for every text, every way in which Read splits it, every name without quotes and line ends, and every Shift-JIS decoder", "why_tests_cant": "Which bytes the first Read returns depends on the reader, and a backslash is harmless or an error depending on the character after it and on the code page.", "anchors": ["mqo/mqo_parser.go:43-53", "mqo/mqo_parser.go:82-85", "mqo/mqo_parser.go:330-341", "mqo/mqo_parser.go:386-388"]}
{"id": "C119", "title": "A document saved as .gltf loads with the data it was saved with, and no other file changes", "statement": "Opening a .gltf file just saved gives the buffer data, views and images that were saved; of all files on the disk only the output and the files of its buffers are written; the input file still loads with its old data, other outputs too; images that the input could find the output can find.", "quantifier": "for every document, every disk, every change of the data and every pair of input and output places", "why_tests_cant": "Whether a file is overwritten depends on the buffer names inside the input and on the directories chosen; a test in two clean directories sees none of it.", "anchors": ["cmd/modelconv/main.go:84-90", "cmd/modelconv/main.go:223-237", "gltfutil/gltf_utils.go:17-19"]}
{"id": "C12", "title": "A cloned object is an independent full copy", "statement": "Object.Clone returns an object equal to the original in every face attribute and vertex, and later edits of vertices, face corners or UVs of either one never show through the other.", "quantifier": "all objects and all later sequences of edits on either copy", "why_tests_cant": "Aliasing only shows after particular mutation sequences.", "anchors": ["mqo/mqo.go: Object.Clone"]}
{"id": "C120", "title": "A conversion keeps the size of a model in the units of its formats", "statement": "With the units of the README (MQO 1 mm, MMD 80 mm, glTF 1 m) and the unit that an FBX document states, every length of the output in millimetres is the length in the input times the -scale that was given (1 if none), and nothing is turned inside out.", "quantifier": "for every pair of points (and every tetrahedron), every pair of input and output formats, every -scale and -rot180", "why_tests_cant": "The scale is decided in four places (default of the option, each loader, each saver, the animation); a test looks at one pair of formats and cannot see the others.", "anchors": ["cmd/modelconv/main.go:200-219", "cmd/modelconv/main.go:224-262", "converter/mqo2gltf.go:150", "converter/mqo2mmd.go:15", "converter/gltf2mqo.go:70", "fbx/fbx_document.go:169-181", "README.md:109-115"]}
{"id": "C121", "title": "An FBX document put together in memory is the document that is loaded from its file", "statement": "After any sequence of making, adding and connecting objects, the document has the same objects by id, the same references in the same order, the same parents of models and the same materials as the document loaded from what it writes; the matrix of a model is that of its properties.", "quantifier": "for every sequence of NewModel/NewMaterial/…, AddObject and AddConnection on a new document", "why_tests_cant": "The effect depends on the whole history of calls: ids are given late, and the two representations (objects and raw nodes) are updated by different code.", "anchors": ["fbx/fbx_document.go:20-63", "fbx/fbx_document.go:65-141", "fbx/fbx_document.go:143-167", "fbx/fbx_model.go:54-72"]}
{"id": "C122", "title": "Names in a document come back from its MQO file", "statement": "For every document: the name of every object, material, shader and texture that WriteMQO writes is read back by Parse as the same name (textures: with slashes), and what follows it in the file is read as it was written.", "quantifier": "all names (all sequences of bytes, valid UTF-8 where they are not ASCII) and all texts that follow them in the file", "why_tests_cant": "Tests save names made of letters and digits. Names come from other formats, in which every character is allowed, and which of them survive depends on the interplay of Fprintf without quoting, the escapes of text/scanner and strings.Trim.", "anchors": ["mqo/mqo_writer.go:46", "mqo/mqo_writer.go:74-96", "mqo/mqo_writer.go:132", "mqo/mqo_parser.go:82-85", "converter/gltf2mqo.go:57", "converter/mmd2mqo.go:256", "converter/fbx2mqo.go:110"]}
{"id": "C123", "title": "Parameters of the glTF shader keep their meaning in the exported document", "statement": "For every material with the glTF shader: each Khronos extension is in the exported material exactly if its parameter turns it on; its numbers and colours, with the defaults of glTF for those that are missing, are those of the parameters; metalness, roughness and transparency are those of the parameters; the material is unlit only if that is asked for. ExtensionsUsed lists exactly the extensions in use.", "quantifier": "all lists of materials, parameter values, texture files, codecs and map orders", "why_tests_cant": "The meaning of a missing entry differs from extension to extension, so leaving out zeros is right for six numbers and wrong for others; tests compare with what the converter writes, not with what a viewer shows.", "anchors": ["converter/mqo2gltf.go:434-583", "converter/mqo2gltf.go:901-922", "mqo/mqo.go:191-227"]}
{"id": "C124", "title": "Objects of an FBX file have the contents their nodes say", "statement": "For every FBX file and every object in it: the points, faces, layers, shapes, weights and bind matrices, names, kinds, and properties of the object in the document are those of its node: the first child of a name, arrays of any number type or single numbers, the last row of a property, or that of the template of the object type. Models of version 6100 hold the geometry in their node. The axes are those of the global settings.", "quantifier": "all node trees, versions, object positions, property names and number types", "why_tests_cant": "FBX allows arrays of six types, single numbers, two forms of shape names, templates and repeated rows; example files show one combination each.", "anchors": ["fbx/fbx_node.go:40-118", "fbx/fbx_node.go:163-261", "fbx/fbx_object.go:59-75", "fbx/fbx_document.go:64-116", "fbx/fbx_document.go:169-181", "fbx/fbx_geometry.go:59-240"]}
{"id": "C125", "title": "A run writes the format that is asked for, from everything that is given", "statement": "For all arguments: the output has the format named by -format, else by the extension of the output in any case, else .glb for MQO inputs and .mqo for others; every supported pair of formats is converted; the input is read in the format of its name; all inputs and all options are used; without an output argument the result is beside the input.", "quantifier": "all values of -format and all lists of arguments", "why_tests_cant": "There are no tests of the command; the format is decided in four places (main, saveDocument, saveGltfDocument, mqo.Save) with different rules for capitals.", "anchors": ["cmd/modelconv/main.go:77-152", "cmd/modelconv/main.go:154-265", "cmd/modelconv/utils.go:29-95", "mqo/mqo_writer.go:269-280", "mqo/mqo_parser.go:429-440"]}
{"id": "C126", "title": "A PMX model saved as glTF shows the faces of the model", "statement": "For all models: the triangles that the nodes of the glTF document draw are the faces of the PMX model, each once, with the material that owns it, the front still in front, corners at the mirrored, transformed and scaled places, with texture coordinates, unit normals and the bones that move them with their weights.", "quantifier": "all PMX models of triangles whose materials cover the faces, all orders of the maps, all transforms in between, all options", "why_tests_cant": "Tests look at converted sample files at most; a face can be lost at any of the stages (splitting by materials, moving morph faces to bases, renumbering vertices and joints, excluding objects) for one name or index only.", "anchors": ["converter/mmd2mqo.go:215-371", "mqo/utils.go:9-53", "converter/mqo2gltf.go:560-700", "converter/mqo2gltf.go:740-900"]}
{"id": "C127", "title": "An FBX document saved as glTF shows the polygons of the document", "statement": "For all scene trees: the triangles that the nodes of the glTF document draw are pieces of the polygons of the models of the FBX document; the pieces of every polygon with n corners are its dissection into n - 2 triangles with the same side in front, at the places that the matrices of the models above give, with texture coordinates, normals and material of the polygon; and the export does not fail.", "quantifier": "all FBX documents of scene trees with full layers, all options without target or replaced materials, all transforms in between, all export options", "why_tests_cant": "A polygon can be lost, turned or painted differently at any stage (polygons from negative indexes, reversed order, layers, materials by number, triangulation, groups by material, shared vertices) for one combination of layer mappings only.", "anchors": ["converter/fbx2mqo.go:108-260", "mqo/utils.go:9-53", "converter/mqo2gltf.go:560-700", "converter/mqo2gltf.go:740-900"]}
{"id": "C128", "title": "An FBX document saved as PMX shows the polygons of the document", "statement": "For all scene trees: the faces of the PMX model are pieces of the polygons of the models of the FBX document; the pieces of every polygon with n corners are its dissection into n - 2 triangles inside of it with the same side in front, at the places that the matrices of the models above give (scaled and mirrored), with the texture coordinates of the polygon and in the face range of its material; and the conversion does not fail.", "quantifier": "all FBX documents of scene trees with full layers, all options without target or replaced materials, all transforms in between, all bones and morph lists", "why_tests_cant": "A polygon can be lost, turned, divided wrongly or painted differently at any stage (polygons from negative indexes, reversed order, layers, materials by number, fans, face ranges, shared vertices) for one shape or one combination of layer mappings only.", "anchors": ["converter/fbx2mqo.go:108-260", "mqo/utils.go:9-53", "converter/mqo2mmd.go:55-132"]}
{"id": "C129", "title": "Materials keep their look between PMX models and MQO documents", "statement": "Converting a PMX model to MQO or an MQO document to PMX never crashes and keeps of every material the name, colour, shininess, texture file, whether both sides show and whether it has an edge; converting there and back gives materials that look alike.", "quantifier": "all lists of materials and all texture lists, with texture numbers in or out of range, missing textures, textures used several times", "why_tests_cant": "Texture numbers are positions in a list that grows with the materials; a shift shows only for documents with several materials of which some have no texture, and out of range numbers only occur in damaged files.", "anchors": ["converter/mmd2mqo.go:29-50", "converter/mmd2mqo.go:248-250", "converter/mqo2mmd.go:117-122", "converter/mqo2mmd.go:165-174"]}
{"id": "C13", "title": "Vertex ids resolve to valid indices or to -1", "statement": "GetVertexIndexByID(uid) returns the registered index for a registered uid; otherwise uid-1 when that is a valid vertex index and -1 when not.", "quantifier": "all objects and all integer ids", "why_tests_cant": "Boundary ids (0, negative, len+1) against arbitrary uid maps.", "anchors": ["mqo/mqo.go: GetVertexIndexByID"]}
{"id": "C130", "title": "Material morphs of PMX models change the colours as the model says", "statement": "When a material morph of a PMX model is applied with value v to the converted MQO document, every material the morph is about gets the colour c + d*v (adding entries) or c*(1 + (d-1)*v) (multiplying entries), its other parts are morphed in the same way, other materials stay, and nothing crashes.", "quantifier": "all PMX models, all lists of morphs with any entries, all values", "why_tests_cant": "Morph entries become materials found again by name: prefixes, colons, equal names and the order of the list matter, so errors need particular names or several morphs.", "anchors": ["converter/mmd2mqo.go:336-354", "mqo/morph_plugin.go:50-78"]}
{"id": "C131", "title": "Unknown parts of an MQO text change nothing", "statement": "For every document: chunks, items and attributes the parser does not know (background images, thumbnails, weights of other programs, nested blocks) inserted between the known ones are passed over exactly, so the document read is the one without them.", "quantifier": "all documents of the format, all places between chunks, items and attributes, all balanced blocks of any depth", "why_tests_cant": "MQO files of other programs contain chunks of any kind; skipping goes wrong only for certain nestings, words that look like names, or brackets in values.", "anchors": ["mqo/mqo_parser.go:105-165", "mqo/mqo_parser.go:339-385"]}
{"id": "C132", "title": "IK chains of a PMX model are at the same bones of the MQO document", "statement": "For every PMX model: every IK becomes the IK of the bone that is its target, with the name of the IK bone, the bone at its tail as tip and as many bones as the chain has, and the chain found from the target upwards is the target and the links.", "quantifier": "all bone lists, all targets, links, tails and parents", "why_tests_cant": "Test models have one IK per leg with links along the parents; missing targets, shared targets, the first bone as tip and links with gaps occur in no test.", "anchors": ["converter/mmd2mqo.go:52-93", "mqo/bone_plugin.go:177-183"]}
{"id": "C133", "title": "A glTF scene saved as PMX shows the triangles of the scene", "statement": "For every glTF scene: the PMX model that the command makes of it has one face for every triangle of the scene, with the material of the triangle, at its place (moved as the command says, scaled and mirrored), with the front in front, and no other face.", "quantifier": "all glTF documents, all transformations in between, all scales, bones and morph sets", "why_tests_cant": "The way from glTF to PMX goes through two converters that each reverse and regroup faces; errors of the two can hide or add up only in combination, which no test covers.", "anchors": ["converter/gltf2mqo.go:56-138", "converter/mqo2mmd.go:18-132"]}
{"id": "C134", "title": "A PMX model saved as PMX again has the same faces", "statement": "For every PMX model: the PMX model that the command makes of it has every face of the first model once and no other face. Each face keeps its material, the order of its corners, and their places and texture coordinates (up to the transformation and the scale in between).", "quantifier": "all PMX models that are read, all orders of map iteration, all transformations in between, all scales and bones", "why_tests_cant": "The way splits the model into objects by morph groups in the order of a Go map, mirrors and reverses every face, and then does so again; a single file tests one grouping and one order only.", "anchors": ["converter/mmd2mqo.go:95-117", "converter/mmd2mqo.go:233-338", "converter/mqo2mmd.go:18-132", "cmd/modelconv/utils.go:97-103"]}
{"id": "C135", "title": "A PMX model saved as PMX again has the same skin", "statement": "For every PMX model: every corner of every face of the PMX model that the command makes of it has the bones and weights that the corner had in the first model.", "quantifier": "all PMX models that are read, all orders of map iteration, all transformations in between, all bones that carry the weights", "why_tests_cant": "Weights go through two vertex numberings, a change to percent and back and a Go map of random order; which vertex gets which weight is only right if all of them fit together for every model.", "anchors": ["converter/mmd2mqo.go:119-133", "converter/mmd2mqo.go:270-300", "converter/mqo2mmd.go:134-153", "mqo/bone_plugin.go:152-165"]}
{"id": "C136", "title": "A PMX model saved as PMX again has the same vertex morphs", "statement": "For every PMX model: every vertex morph of the PMX model that the command makes of it moves the corners that the morph of this name moved in the first model, by the same offsets (up to the transformation and the scale in between), and no others.", "quantifier": "all PMX models that are read, all morphs and faces, all orders of map iteration, all transformations in between", "why_tests_cant": "Morphs become objects that are found again by name, with vertices in a new order; which vertex gets which offset depends on how the faces fall into groups, for every model differently.", "anchors": ["converter/mmd2mqo.go:276-335", "converter/mqo2mmd.go:42-56", "converter/mqo2mmd.go:94-108"]}
{"id": "C137", "title": "A PMX model saved as PMX again has the same bones", "statement": "For every PMX model whose parents are bones or -1: the PMX model that the command makes of it has the same bones in the same order, with name, place (up to the transformation and the scale in between), parent, tail and inherited rotation.", "quantifier": "all PMX models, all bones, all lists of known bone names and thresholds, all transformations in between", "why_tests_cant": "IDs are shifted by one, looked up in a map and shifted back for every bone; the parent depends on inherited rotation and on a list of names, for every skeleton differently.", "anchors": ["converter/mmd2mqo.go:52-75", "converter/mqo2mmd.go:18-34", "converter/mqo2mmd.go:155-163"]}
{"id": "C138", "title": "A PMX model saved as PMX again has the same physics", "statement": "For every PMX model: the PMX model that the command makes of it has the same rigid bodies in the same order, with name, bone, group, shape, size, place (up to the transformation and the scale in between), mass, damping and mode, and the same joints; a physics body with several shapes becomes one rigid body for every shape, with different names.", "quantifier": "all PMX models with any rigid bodies and joints, all transformations in between, all physics bodies with any number of shapes", "why_tests_cant": "Fifteen fields go through two conversions with tables of shape names, a map of bone IDs and a mirror; the tests of the repository have no model with physics.", "anchors": ["converter/mmd2mqo.go:356-405", "converter/mqo2mmd.go:125-129", "converter/mqo2mmd.go:176-216"]}
{"id": "C139", "title": "Every motion given becomes an animation of its own", "statement": "For every glTF document and every list of motions that are added to it: the animations of the document are those it had, showing what they showed, followed in order by one animation for every motion that moves something, with its name and exactly the channels (node, path, times, values) that it has when it is the only motion; accessors that the document had stay as they are, and adding fails only if one of the motions fails alone.", "quantifier": "all documents with any accessors and animations, all bones and nodes, all lists of motions with any channels, every order of map iteration", "why_tests_cant": "Samplers refer to accessors by index in one growing list shared by all motions, and keys are shared between channels; whether each index still means the right data depends on all motions before it. There is no test with a motion.", "anchors": ["converter/glbanim.go:35-181", "converter/glbanim.go:183-251", "converter/glbanim.go:253-262", "cmd/modelconv/main.go:136-144"]}
{"id": "C14", "title": "Applying a morph moves exactly the base mesh towards the target", "statement": "MorphPlugin.Apply(doc,name,v) moves each base object's vertices to base+v*(target-base) for morphs of that name (identity at v=0, target at v=1), leaves objects not referenced by the morph untouched, never crashes, and reports whether anything was updated.", "quantifier": "all documents, morph lists and values", "why_tests_cant": "Interplay of several targets of one base, missing objects and mismatched vertex counts.", "anchors": ["mqo/morph_plugin.go: MorphPlugin.Apply, ApplyMaterialMorph, MorphTargetList.Apply"]}
{"id": "C140", "title": "The parent of a transform in a Unity scene is the one that has it as a child", "statement": "In every loaded Unity scene a transform that is a child of another one has that one as its parent, so that its world matrix is the product of the matrices of all transforms above it, the outermost first; asking an object for components of a type gives those it has, in order, or the first of them.", "quantifier": "all scenes and prefabs, all transforms and objects, all file ids", "why_tests_cant": "Children and parents are stored separately and looked up by ids that are only unique within one file; a scene can nest prefabs to any depth, and the repository has no test of a scene with an instance.", "anchors": ["unity/unity.go:23-34", "unity/unity.go:85-114", "unity/unity_components.go:68-114", "unity/unity_scene.go:99-114"]}
{"id": "C15", "title": "Rotating a bone rotates exactly its descendants", "statement": "BoneTransform(base, rot, fn) calls fn on base and on every bone that has base among its ancestors, on no other bone, and on each at most once.", "quantifier": "all bone forests in any listing order", "why_tests_cant": "Requires particular orderings of unbounded trees.", "anchors": ["mqo/bone_plugin.go: Document.BoneTransform"]}
{"id": "C16", "title": "An MQO document written as text is read back unchanged", "statement": "For documents in the text format's domain (names without quotes or line breaks, non-negative integers, finite numbers), Parser.Parse of WriteMQO's output yields the same materials' textual attributes, objects, vertices, vertex ids, faces, material indices, UVs and normals.", "quantifier": "all documents in the stated domain", "why_tests_cant": "Round trip over unbounded nested structures with optional fields.", "anchors": ["mqo/mqo_writer.go: WriteMQO", "mqo/mqo_parser.go: Parser.Parse, readObject, procAttrs, procArray"]}
{"id": "C17", "title": "Faces without a material survive saving to MQO", "statement": "A face whose Material is -1 (no material) written with WriteMQO is read back with Material -1 and with its UVs.", "quantifier": "all faces", "why_tests_cant": "Negative numbers are absent from ordinary fixtures.", "anchors": ["mqo/mqo_writer.go: WriteMQO", "mqo/mqo_parser.go: readInt, procAttrs"]}
{"id": "C18", "title": "Saving a document does not change what is saved next", "statement": "Serialising the same document twice produces the same plugin data (PreSerialize is idempotent).", "quantifier": "all documents with skinned objects", "why_tests_cant": "Needs two saves of one in-memory document.", "anchors": ["mqo/bone_plugin.go: BonePlugin.PreSerialize"]}
{"id": "C19", "title": "PMX files written are read back identically", "statement": "For every PMX document whose indices fit the header's index widths and whose vertex weights are in PMX's normal form, parsing the bytes produced by WritePMX returns the document (header, names, vertices, faces, textures, materials, bones with IK, morphs, rigid bodies), for every combination of index widths 1, 2, 4.", "quantifier": "all documents in range, all index-width combinations, any counts", "why_tests_cant": "Unbounded nested binary structures; off-by-one field widths desynchronise everything after them.", "anchors": ["mmd/pmx_writer.go: PMXWriter.Write and helpers", "mmd/pmx_parser.go: PMXParser.Parse and helpers", "mmd/base_parser.go"]}
{"id": "C20", "title": "PMX joints survive a save with the default header", "statement": "A document created with NewDocument that has joints is read back from WritePMX's output with the same joints.", "quantifier": "all joints", "why_tests_cant": "No fixture has joints; writer and parser disagree only when two width fields differ.", "anchors": ["mmd/pmx_writer.go: writeJoint", "mmd/pmx_parser.go: readJoint", "mmd/mmd.go: NewDocument"]}
{"id": "C21", "title": "Vertex skinning survives a PMX save", "statement": "Writing a vertex with 1 to 4 weights and reading it back yields the same bone/weight list; saving and loading again changes nothing more.", "quantifier": "all vertices with 0..4 influences and arbitrary weights", "why_tests_cant": "Silent normalisation depends on weight values.", "anchors": ["mmd/pmx_writer.go: writeVertex", "mmd/pmx_parser.go: readVertex"]}
{"id": "C22", "title": "Truncated model files are reported", "statement": "Parsing a proper prefix of a valid PMX file returns an error instead of a silently different document.", "quantifier": "all valid files and all cut points", "why_tests_cant": "Every cut point of every file.", "anchors": ["mmd/base_parser.go", "mmd/pmx_parser.go: Parse"]}
{"id": "C23", "title": "Indices too large for the file are not silently changed", "statement": "Saving a document as PMX either preserves every face, texture and bone index or reports an error.", "quantifier": "all documents, in particular those with more elements than the header's index width can address", "why_tests_cant": "Needs models with more than 127 textures or 65535 vertices.", "anchors": ["mmd/pmx_writer.go: writeIndex, writeVInt", "mmd/mmd.go: NewDocument", "converter/mqo2mmd.go: Convert"]}
{"id": "C24", "title": "VMD animation channels contain every sample once, in time order", "statement": "GetBoneChannels/GetMorphChannels return one channel per distinct target, whose frames are non-decreasing and whose (frame,value) pairs are exactly the samples of that target, none lost or duplicated, with all arrays of a channel equally long.", "quantifier": "all sample lists in any order, any sort permutation of equal frames", "why_tests_cant": "Any interleaving of targets and frames.", "anchors": ["mmd/vmd_parser.go: GetBoneChannels, GetMorphChannels"]}
{"id": "C25", "title": "VMD files are decoded field by field", "statement": "Parsing the byte layout of any VMD motion (name, bone samples, morph samples) returns exactly those samples; a wrong magic is rejected.", "quantifier": "all motions with any number of samples", "why_tests_cant": "Unbounded counts and fixed-width string padding.", "anchors": ["mmd/vmd_parser.go: VMDParser.Parse, readString"]}
{"id": "C26", "title": "FBX binary node trees are decoded exactly", "statement": "Parsing the byte layout of any node tree, for the 32-bit (version < 7500) and 64-bit formats, returns that tree: names, scalar and array attributes, children order and nesting.", "quantifier": "all finite node trees with raw-encoded properties, both versions", "why_tests_cant": "End offsets and nested null records interact at every depth.", "anchors": ["fbx/binary_parser.go: readNode, readProp, readPropArray, Parse"]}
{"id": "C27", "title": "FBX parsing does not depend on the reader supporting Seek", "statement": "Parsing the same bytes from a plain stream and from a seekable file gives the same result.", "quantifier": "all byte strings", "why_tests_cant": "Tests use files, which are seekable.", "anchors": ["fbx/binary_parser.go: positionReader.SkipTo, readNode"]}
{"id": "C28", "title": "FBX text written by Dump is read back", "statement": "Writing a node tree as FBX text and parsing it returns the same tree for attributes in the text format's domain.", "quantifier": "all node trees", "why_tests_cant": "Tokeniser and printer are separate ad-hoc grammars.", "anchors": ["fbx/fbx_node.go: Node.Dump, Attribute.String", "fbx/text_parser.go"]}
{"id": "C29", "title": "FBX object ids stay unique while adding objects", "statement": "Starting from any document, after any sequence of AddObject calls every added object has a non-zero id that looks up to that object, ids already in use are never reassigned, and adding the same object twice does not duplicate it.", "quantifier": "all documents and all sequences of additions, including objects that carry clashing ids", "why_tests_cant": "Sequences of operations.", "anchors": ["fbx/fbx_document.go: newID, AddObject"]}
{"id": "C30", "title": "FBX polygon index encoding is reversible", "statement": "Geometry built from vertex-index polygons and initialised from its encoded PolygonVertexIndex array yields the same polygons.", "quantifier": "all lists of non-empty polygons with indices below 2^31", "why_tests_cant": "Complement encoding over all indices and arities.", "anchors": ["fbx/fbx_geometry.go: NewGeometry, Init"]}
{"id": "C31", "title": "FBX properties behave like a map", "statement": "After SetProperty(name,v), GetProperty(name) returns v and other properties are unchanged, whether or not properties were read before.", "quantifier": "all objects and operation sequences", "why_tests_cant": "Lazy cache and backing nodes can disagree after certain sequences.", "anchors": ["fbx/fbx_object.go: GetProperty, SetProperty"]}
{"id": "C32", "title": "FBX layer data set on a geometry can be read back", "statement": "After SetLayerElementNormal/UVIndexed/MaterialIndex the corresponding GetLayerElement accessor returns the values that were set.", "quantifier": "all geometries and value arrays", "why_tests_cant": "Only exporter code exercises it.", "anchors": ["fbx/fbx_geometry.go: setLayerElementNode, SetLayerElement*, GetLayerElement*"]}
{"id": "C33", "title": "PMX to MQO keeps every face, in place, with its material", "statement": "Converting a PMX model whose materials cover all faces puts every face into exactly one generated mesh object, with its own material index, and with the corner positions of the source mirrored in Z.", "quantifier": "all PMX models with consistent material ranges, with any vertex sharing and any morphs", "why_tests_cant": "Partition by connectivity and morph groups depends on the whole mesh.", "anchors": ["converter/mmd2mqo.go: genMorphGroup, newFg, convertFaces, Convert"]}
{"id": "C34", "title": "PMX vertex morphs only move their own vertices", "statement": "In the converted document the morph target objects differ from their base object exactly at the images of the vertices listed in the PMX morph, by the mirrored offset.", "quantifier": "all PMX models and morphs", "why_tests_cant": "Needs morphs that mention vertices not used by any face.", "anchors": ["converter/mmd2mqo.go: Convert, genMorphGroup"]}
{"id": "C35", "title": "PMX bone weights are kept as percentages", "statement": "Every vertex of every generated object has, for each bone, a weight equal to 100 times the sum of its PMX weights for that bone, attached to the object and vertex it belongs to.", "quantifier": "all models and weights, including a vertex listing the same bone twice", "why_tests_cant": "Two code paths compute the same thing differently.", "anchors": ["converter/mmd2mqo.go: setWeight, Convert"]}
{"id": "C36", "title": "MQO to PMX writes consistent material face ranges", "statement": "The PMX document produced has sum of material face counts equal to three times the number of faces; the k-th material's range holds exactly the fan triangles of the faces using it; every face index addresses an emitted vertex whose position is the source vertex scaled and mirrored.", "quantifier": "all MQO documents with valid indices", "why_tests_cant": "Ranges over all materials, objects and face arities.", "anchors": ["converter/mqo2mmd.go: Convert"]}
{"id": "C37", "title": "MQO to PMX to MQO keeps morphs, normals and physics modes", "statement": "Morph offsets, normals and the kinematic flag survive converting to PMX and back.", "quantifier": "all documents", "why_tests_cant": "Component-wise omissions are invisible for planar morphs.", "anchors": ["converter/mqo2mmd.go: Convert, convertBody", "converter/mmd2mqo.go: Convert"]}
{"id": "C38", "title": "A PMX saved by the tool can be loaded by the tool", "statement": "Converting any valid MQO document to PMX, saving, loading and converting back to MQO does not crash.", "quantifier": "all valid MQO documents", "why_tests_cant": "Needs unskinned vertices in a saved file.", "anchors": ["converter/mqo2mmd.go", "mmd/pmx_writer.go: writeVertex", "mmd/pmx_parser.go: readVertex", "converter/mmd2mqo.go: setWeight"]}
{"id": "C39", "title": "The exported glTF node graph is a forest that mirrors the object tree", "statement": "In the exported glTF every object node is referenced exactly once, either as a scene root or as a child of an earlier node, and it is the child of the node of its parent object.", "quantifier": "all object depth sequences", "why_tests_cant": "Stack discipline over arbitrary depth sequences.", "anchors": ["converter/mqo2gltf.go: Convert"]}
{"id": "C40", "title": "Exported skeletons bind without deformation", "statement": "For exact arithmetic, the exported joint nodes' accumulated translations equal the scaled bone positions, and joint world matrix times its inverse bind matrix is the identity, so the rest pose is undeformed.", "quantifier": "all bone forests in any order", "why_tests_cant": "Depends on chains of arbitrary length.", "anchors": ["converter/mqo2gltf.go: addBoneNodes, addSkin"]}
{"id": "C41", "title": "Exported vertex influences are bounded, valid and the strongest ones", "statement": "Each exported vertex has at most four joint influences, every joint index is valid, vertices with at most four influences keep all of them, and with more than four the strongest four are kept and normalised.", "quantifier": "all weight assignments", "why_tests_cant": "Needs vertices with more than four influences in particular orders.", "anchors": ["converter/mqo2gltf.go: getWeights"]}
{"id": "C42", "title": "Exported primitives reference the right material", "statement": "Every exported primitive's material index is valid and refers to the glTF material created from the MQO material used by its faces.", "quantifier": "all documents with any visible/hidden/unused materials", "why_tests_cant": "Renumbering computed in two places.", "anchors": ["converter/mqo2gltf.go: Convert, ConvertObject, checkMaterials"]}
{"id": "C43", "title": "glTF meshes with several primitives import correctly", "statement": "Importing a glTF mesh places every triangle's corners at the positions its own primitive gives.", "quantifier": "all meshes with any number of primitives", "why_tests_cant": "Single-primitive fixtures cannot show it.", "anchors": ["converter/gltf2mqo.go: convertMesh"]}
{"id": "C44", "title": "Winding survives MQO to glTF to MQO", "statement": "Exporting a triangle and importing it again yields the same oriented triangle (up to rotation of its corners).", "quantifier": "all triangles", "why_tests_cant": "Two reversals in different files must cancel.", "anchors": ["converter/mqo2gltf.go: ConvertObject", "converter/gltf2mqo.go: convertMesh"]}
{"id": "C45", "title": "Scaling a glTF document scales everything", "statement": "gltfutil.ApplyTransform with a uniform scale scales mesh positions, node translations, morph offsets and inverse bind translations by the same factor.", "quantifier": "all documents and factors", "why_tests_cant": "Only visible with skinned or nested models.", "anchors": ["gltfutil/gltf_utils.go: ApplyTransform"]}
{"id": "C46", "title": "Resetting joint rotations keeps joint positions", "statement": "ResetJointMatrix removes all joint rotations without moving any joint in world space.", "quantifier": "all joint hierarchies in any node order", "why_tests_cant": "Bounded number of passes versus unbounded depth.", "anchors": ["gltfutil/gltf_joint.go: ResetJointMatrix"]}
{"id": "C47", "title": "VRM humanoid bones are assigned at most once", "statement": "Applying a VRM config assigns each humanoid bone name to at most one node, never assigns an ignored bone, gives user mappings priority, and CheckRequiredBones returns exactly the required bones that are missing.", "quantifier": "all documents and configs", "why_tests_cant": "Combination of mappings, ignore rules and fallbacks.", "anchors": ["converter/vrmconfig.go: applyConfigInternal, ApplyConfig, MergePreset", "vrm/vrm.go: CheckRequiredBones"]}
{"id": "C48", "title": "Spring bone groups never overlap", "statement": "No node ends up under the roots of two registered spring-bone roots.", "quantifier": "all node forests and config patterns", "why_tests_cant": "Subtree relations over arbitrary trees.", "anchors": ["converter/vrmconfig.go: findReursive, registerReursive, applyConfigInternal"]}
{"id": "C49", "title": "Unity transforms are converted to the right-handed system", "statement": "For exact arithmetic, Transform.GetMatrix equals the Unity local matrix conjugated by the Z mirror, so world matrices compose along parents.", "quantifier": "all translations, rotations and scales", "why_tests_cant": "Sign conventions over 10 variables.", "anchors": ["unity/unity_components.go: Transform.GetMatrix, GetWorldMatrix"]}
{"id": "C50", "title": "Unity built-in meshes are closed surfaces", "statement": "The generated sphere, cylinder and capsule have only valid indices, and every directed edge is matched by exactly one opposite edge (closed, consistently oriented), for every tessellation that encloses a volume; the cube as well. Every face has as many texture coordinates as vertices.", "quantifier": "all segment counts from three, all row counts from two (fewer do not enclose a volume)", "why_tests_cant": "Tessellation parameters are unbounded; wrap-around and pole indices.", "anchors": ["unity/unity_builtin.go: Cube, Sphere, sphereInternal, Cylinder, Capsule"]}
{"id": "C51", "title": "Unity scene files are split into their documents", "statement": "ParseYamlDocuments returns one entry per document with its tag, id and complete body.", "quantifier": "all scene files", "why_tests_cant": "Scanner boundary conditions at line ends and end of file.", "anchors": ["unity/unity_yaml.go: ParseYamlDocuments, getTag, readToken, nextLine"]}
{"id": "C52", "title": "Hiding an object on the command line hides exactly its subtree", "statement": "The -hide option makes invisible exactly the objects matching the pattern and their descendants.", "quantifier": "all object lists, depths and patterns", "why_tests_cant": "Contiguous-run logic over arbitrary depth sequences.", "anchors": ["cmd/modelconv/main.go: main (hide)"]}
{"id": "C53", "title": "FixNames lets the first holder of a name keep it", "statement": "An object whose name does not occur among the names before it in the original document is not renamed by doc.FixNames.", "quantifier": "all lists of names, including names that look like generated ones", "why_tests_cant": "Needs a generated name to collide with a later original name.", "anchors": ["mqo/mqo.go: Document.FixNames"]}
{"id": "C54", "title": "Truncated VMD motions are reported", "statement": "Parsing a proper prefix of a VMD file returns an error (or a non-nil error beside the animation), never a silently incomplete motion.", "quantifier": "all motions and all cut positions", "why_tests_cant": "Every cut position of every file; a few fixed cuts miss the ones inside unchecked fields.", "anchors": ["mmd/vmd_parser.go: VMDParser.Parse", "mmd/base_parser.go: readInt, read"]}
{"id": "C55", "title": "PMD files are decoded field by field", "statement": "Parsing the byte layout of any PMD model whose indices are in range returns that model: vertices with weights w and 1-w, faces, materials with their texture table, bones with all IK links, and morphs whose vertices are looked up through the base morph.", "quantifier": "all models with any number of elements, any texture fields and IK entries", "why_tests_cant": "Unbounded counts, overlapping IK entries, texture fields with and without sphere maps, base morph indirection.", "anchors": ["mmd/pmd_parser.go: PMDParser.Parse, readVertex, readMaterial, readBone, readMorph", "mmd/pmx_parser.go: Parse"]}
{"id": "C56", "title": "Loading a PMD file does not crash", "statement": "Parse returns a document or an error for every PMD file, also when IK entries or morphs refer to missing bones or vertices.", "quantifier": "all PMD files", "why_tests_cant": "Sample files are well formed.", "anchors": ["mmd/pmd_parser.go: PMDParser.Parse, readVertex, readMaterial, readBone, readMorph", "mmd/pmx_parser.go: Parse"]}
{"id": "C57", "title": "Truncated PMD files are reported", "statement": "Parsing a proper prefix of a PMD file returns an error.", "quantifier": "all models, all cut positions", "why_tests_cant": "Every cut position of every file.", "anchors": ["mmd/pmd_parser.go: PMDParser.Parse, readVertex, readMaterial, readBone, readMorph", "mmd/pmx_parser.go: Parse"]}
{"id": "C58", "title": "A loaded model can be saved", "statement": "WritePMX succeeds on every document returned by Parse.", "quantifier": "all PMX and PMD files", "why_tests_cant": "All combinations of file contents and header.", "anchors": ["mmd/pmd_parser.go: PMDParser.Parse, readVertex, readMaterial, readBone, readMorph", "mmd/pmx_parser.go: Parse", "mmd/pmx_writer.go: WritePMX, writeHeader"]}
{"id": "C59", "title": "The FBX footer does not disturb parsing", "statement": "Appending the footer that FBX writers put after the last null record does not change the parsed tree.", "quantifier": "all node trees, both widths, all paddings, files of any size", "why_tests_cant": "Depends on the file size and on the file system accepting huge offsets.", "anchors": ["fbx/binary_parser.go: readNode, readProp, readPropArray, Parse", "fbx/binary_parser.go: positionReader.SkipTo"]}
{"id": "C60", "title": "Truncated FBX files are reported", "statement": "Parsing a proper prefix of a binary FBX file returns an error.", "quantifier": "all node trees, all cut positions", "why_tests_cant": "Every cut position of every file.", "anchors": ["fbx/binary_parser.go: readNode, readProp, readPropArray, Parse"]}
{"id": "C61", "title": "The FBX parsers terminate", "statement": "Parsing any byte string as binary or text FBX ends, with a tree or an error, after a number of steps bounded by the input length, whatever offsets and counts the file claims.", "quantifier": "all byte strings, seekable and plain readers, any decompressor behaviour", "why_tests_cant": "Offsets may point backwards, past the end or into the middle of records; text may be unclosed anywhere.", "anchors": ["fbx/binary_parser.go: readNode, readProp, readPropArray, Parse", "fbx/text_parser.go: Parse"]}
{"id": "C62", "title": "FBX text files mean the same whatever their first comment says", "statement": "Replacing the text of the comment on the first line of an FBX text file does not change the parsed tree.", "quantifier": "all file bodies, all comments", "why_tests_cant": "Depends on how the comment length interacts with the 21 bytes read ahead for format detection.", "anchors": ["fbx/text_parser.go: read, getToken", "fbx/binary_parser.go: Parse"]}
{"id": "C63", "title": "FBX world matrices are products along the parent chain", "statement": "GetWorldMatrix of every model in a document is the product of the local matrices from the root of its chain of parents down to it.", "quantifier": "all connection lists, all matrix types", "why_tests_cant": "Unbounded depth; files may connect models in a loop.", "anchors": ["fbx/fbx_model.go: GetWorldMatrix", "fbx/fbx_document.go: BuildDocument"]}
{"id": "C64", "title": "PMX to MQO conversion does not crash", "statement": "Converting a PMX model whose faces and morphs have valid vertex indices ends without an index panic.", "quantifier": "all PMX models with valid faces and morphs, any bones, weights and material counts", "why_tests_cant": "Needs vertices without bones and material counts that do not match the faces.", "anchors": ["converter/mmd2mqo.go: Convert, setWeight, genMorphGroup"]}
{"id": "C65", "title": "MQO to PMX keeps the strongest weights", "statement": "A PMX vertex keeps all weights of its MQO vertex if there are at most four, and otherwise the four strongest.", "quantifier": "all documents, bones and weights", "why_tests_cant": "Needs vertices with five or more weights in ascending order.", "anchors": ["converter/mqo2mmd.go: setWeights"]}
{"id": "C66", "title": "The bone tree survives MQO to PMX and PMX to MQO", "statement": "Bones keep names, positions and parents in both directions, bones without a parent stay roots, and a forest of bones stays a forest.", "quantifier": "all bone lists in any order and all inherited rotations", "why_tests_cant": "Parents are renumbered in two directions and rewired by inherited rotation; cycles need particular combinations.", "anchors": ["converter/mqo2mmd.go: Convert, convertBone", "converter/mmd2mqo.go: convertBones"]}
{"id": "C67", "title": "Smooth normals are the normalised sums of corner normals", "statement": "GetSmoothNormals gives every vertex the normalised sum of the normals at all corners that use it, of length one, and FixhNormals completes exactly the faces that lack normals.", "quantifier": "all objects with valid indices", "why_tests_cant": "Wrap-around of neighbours and accumulation over arbitrary meshes.", "anchors": ["mqo/utils.go: GetSmoothNormals, FixhNormals"]}
{"id": "C68", "title": "Exported glTF meshes draw the visible objects", "statement": "Node i of the glTF document draws exported object i: every triangle of a visible object is drawn once, turned over, with the scaled position, texture coordinate, normal, weights and morph offsets of its corners; hidden objects have no mesh.", "quantifier": "all documents with valid indices", "why_tests_cant": "Vertices are duplicated and shared depending on texture coordinates seen so far, over arbitrary meshes.", "anchors": ["converter/mqo2gltf.go: ConvertObject, Convert"]}
{"id": "C69", "title": "glTF export does not crash", "statement": "Exporting a document to glTF returns a document, whatever the document refers to.", "quantifier": "all documents", "why_tests_cant": "Needs dangling names and ids of every kind.", "anchors": ["converter/mqo2gltf.go: Convert, addBoneNodes, getWeights"]}
{"id": "C70", "title": "Materials survive glTF to MQO to glTF", "statement": "Importing a glTF material and exporting it again keeps its name, colour, metallic and roughness factors, emission, sidedness, alpha mode and lighting model.", "quantifier": "all materials", "why_tests_cant": "Values are passed through loosely typed parameter maps; only some combinations lose them.", "anchors": ["converter/gltf2mqo.go: convertMaterial", "converter/mqo2gltf.go: convertMaterial"]}
{"id": "C71", "title": "glTF skeletons are imported", "statement": "Every node at or below a skeleton root becomes exactly one bone, named, numbered and connected like the nodes, at the position of its node.", "quantifier": "all node forests and skins", "why_tests_cant": "Recursive numbering and sums over arbitrary trees.", "anchors": ["converter/gltf2mqo.go: convertBones, Convert"]}
{"id": "C72", "title": "Widening joint indices keeps them", "statement": "FixJointComponentType turns byte joint indices into uint16 and changes no joint index and no other data.", "quantifier": "all documents, buffer layouts and sharing of views and accessors", "why_tests_cant": "Depends on offsets, strides and sharing between accessors.", "anchors": ["gltfutil/gltf_joint.go: FixJointComponentType"]}
{"id": "C73", "title": "Humanoid bones are distinct bone nodes and the first person bone is the head", "statement": "Every humanoid bone a VRM config writes refers to a node without mesh, two bones never share a node, and FirstPersonBone is the node of the head bone whenever there is one.", "quantifier": "all documents and configs", "why_tests_cant": "Depends on combinations of mappings, fallbacks and node kinds.", "anchors": ["converter/vrmconfig.go: applyConfigInternal, ApplyConfig"]}
{"id": "C74", "title": "Spring bones are detected at the start of every swinging chain", "statement": "DetectSpringBones adds exactly the nodes that start a chain of dynamic bodies, and applying the config makes each of them a spring bone root.", "quantifier": "all node forests with physics bodies", "why_tests_cant": "Recursive condition over arbitrary trees, composed with the overlap check.", "anchors": ["converter/vrmconfig.go: springLen, DetectSpringBones, applyConfigInternal"]}
{"id": "C75", "title": "Material settings change only what they say", "statement": "A material setting of a VRM config changes exactly the named aspects of exactly the materials it is in force for, user settings win over the preset, and nothing crashes.", "quantifier": "all materials, settings and presets", "why_tests_cant": "Combination of defaults, wildcards and presets.", "anchors": ["converter/vrmconfig.go: MergePreset, applyConfigInternal"]}
{"id": "C76", "title": "Morph targets reach the blend shape groups", "statement": "A morph mapping drives every target of its name, and with exportAllMorph every morph target is driven by some blend shape group; nothing crashes.", "quantifier": "all meshes, nodes and mappings", "why_tests_cant": "Depends on names shared between meshes and on how the document was made.", "anchors": ["converter/vrmconfig.go: applyConfigInternal, ApplyConfig"]}
{"id": "C77", "title": "Static bodies become colliders of their own node", "statement": "Every static physics body gives a collider group with one collider per shape, attached to the node of the body.", "quantifier": "all nodes and shapes", "why_tests_cant": "Depends on equal node names.", "anchors": ["converter/vrmconfig.go: ConvertColliders, applyConfigInternal"]}
{"id": "C78", "title": "Unity built-in meshes have the stated shape, face outwards, and carry a continuous texture", "statement": "All vertices of the built-in sphere, cylinder, capsule and cube lie on the named surface, all faces are turned outwards, and the texture of sphere and capsule is continuous except at the seam and the poles.", "quantifier": "all segment and row counts", "why_tests_cant": "Trigonometric positions for unbounded tessellations; orientation of every triangle.", "anchors": ["unity/unity_builtin.go: Cube, sphereInternal, Cylinder, Capsule"]}
{"id": "C79", "title": "Bones get the parents named on the command line", "statement": "The -chparent option gives every named bone the named parent and changes nothing else; the bones stay a forest.", "quantifier": "all bone lists and settings", "why_tests_cant": "Names that do not exist or occur twice, settings that close a cycle.", "anchors": ["cmd/modelconv/main.go: main (chparent)"]}
{"id": "C80", "title": "Material options change only the named materials and only what they say", "statement": "-hidemat, -alpha and -unlit change exactly the materials whose name matches; a hidden material is not exported; an alpha mode or value appears in the exported material; nothing else about the material changes.", "quantifier": "all material lists, patterns and values", "why_tests_cant": "Interactions of options through renamed materials and replaced shaders.", "anchors": ["cmd/modelconv/main.go: main (hidemat, alpha, unlit)", "mqo/mqo.go: SetGltfAlphaMode", "converter/mqo2gltf.go: convertMaterial"]}
{"id": "C81", "title": "The input files are never overwritten", "statement": "Without an output argument the result is written beside the input under another name, in a format that can be written; with one, to that file. No input is overwritten.", "quantifier": "all file names, formats and argument lists", "why_tests_cant": "File names with dots in directories, without or with unusual extensions.", "anchors": ["cmd/modelconv/main.go: main, defaultOutputExt, saveDocument"]}
{"id": "C82", "title": "Scaling a document scales everything in it", "statement": "Document.ApplyTransform with the matrix of -scale, -scaleX/Y/Z and -rot180 moves vertices, bones, local transforms, normals and physics of the document together, and loses nothing.", "quantifier": "all documents and scale factors", "why_tests_cant": "Nested and rotated objects, mirrored axes and joints appear together only in rare models.", "anchors": ["mqo/utils.go: Document.ApplyTransform", "mqo/bone_plugin.go: BonePlugin.ApplyTransform", "mqo/physics_plugin.go: PhysicsPlugin.ApplyTransform", "cmd/modelconv/main.go: main (scale)"]}
{"id": "C83", "title": "Turning a bone turns what hangs on it", "statement": "Document.BoneTransform turns the bone, all bones below it and their colliders rigidly about the position of the bone; a vertex moves by the part of its weights that belongs to these bones; nothing else changes.", "quantifier": "all documents, bones, weights, morphs and rotations", "why_tests_cant": "Shared vertices, morph targets and colliders have to agree for every weight distribution.", "anchors": ["mqo/bone_plugin.go: BoneTransform"]}
{"id": "C84", "title": "-autotpose makes arms level", "statement": "BoneAdjustX turns a bone about the z axis so that its farthest child is level with it, keeping its distance and depth and stretched away from the body; doing it again changes nothing.", "quantifier": "all documents and bones", "why_tests_cant": "All directions of the arm, ties between children.", "anchors": ["mqo/bone_plugin.go: BoneAdjustX", "cmd/modelconv/main.go: main (autotpose)"]}
{"id": "C85", "title": "A motion of bones is exported as it is played", "statement": "AddAnimationTpGlb writes, for every channel of a bone that exists, rotation and translation channels with the frames in seconds that move the model as the motion moves it in MMD, also after -autotpose and -rot180; channels that do nothing are left out.", "quantifier": "all documents, bones, motions and turns of bones", "why_tests_cant": "The correction depends on the turns of the bone and of its parent and on the axis of the motion.", "anchors": ["converter/glbanim.go: addBoneChannels", "converter/glbanim.go: AddAnimationTpGlb"]}
{"id": "C86", "title": "A motion of morphs is exported as it is played", "statement": "addMorphChannels writes one weights channel for every mesh with morphs in the motion: the weight of every target at every key, as a byte within 1/255, and 0 for targets that are not in the motion.", "quantifier": "all documents, target names, motions and weights", "why_tests_cant": "Sharing of keys between the morphs of a mesh and of names between meshes depends on the motion and on the order of maps.", "anchors": ["converter/glbanim.go: addMorphChannels"]}
{"id": "C87", "title": "A Unity scene becomes the tree of its objects", "statement": "Convert visits the objects of a scene depth first and writes one object each, with its depth, a unique id, its local transform, its visibility with its ancestors, and its built-in mesh at the mirrored and scaled place that Unity gives it; objects of imported meshes follow. The local transforms composed lead to the same places. It ends if nothing is its own descendant.", "quantifier": "all scenes, transforms, scales, materials and imports", "why_tests_cant": "Transforms compose along paths of any length with any rotations, and the numbering depends on what was imported before.", "anchors": ["converter/unity2mqo.go: Convert", "converter/unity2mqo.go: convertObject", "converter/unity2mqo.go: importMesh", "converter/unity2mqo.go: AddGeometry"]}
{"id": "C88", "title": "Meshes of a Unity scene have their materials", "statement": "The faces of a mesh have the material of its renderer, with the color, textures and emission of the file, each file once, and texture coordinates are scaled by its tiling.", "quantifier": "all scenes and materials", "why_tests_cant": "Materials are cached between objects, and slices of texture coordinates are scaled in place.", "anchors": ["converter/unity2mqo.go: convertObject", "unity/unity_builtin.go: Cylinder"]}
{"id": "C89", "title": "Colliders of a Unity scene become rigid bodies", "statement": "With the physics option every object with colliders gets one body, attached to it, with the mass of its rigid body and one shape for each collider at its place, with its size and axes.", "quantifier": "all scenes, colliders and transforms", "why_tests_cant": "Sizes and axes come from the decomposition of a product of transforms.", "anchors": ["converter/unity2mqo.go: convertRigidBody"]}
{"id": "C90", "title": "Opening a Unity package writes only into its own directory", "statement": "OpenPackage unpacks an archive into a fresh temporary directory: nothing outside of it changes, and after Close (or after an error) everything is as before.", "quantifier": "all archives, file systems and temporary directories", "why_tests_cant": "The archive is an input from anybody, and its names are arbitrary strings.", "anchors": ["unity/unity_assets.go: OpenPackage", "unity/unity_assets.go: extractPackage", "unity/unity_assets.go: Close"]}
{"id": "C91", "title": "The assets of a Unity package are found", "statement": "Every directory of the archive with a file pathname is an asset: GetAsset finds it by the name of the directory, GetAssetByPath and Open by its path, Open gives the content of its file asset, GetMetaFile reads its asset.meta. Archives whose files come after their directories can be opened.", "quantifier": "all archives and file systems", "why_tests_cant": "Entries can repeat, come in any order and have any names.", "anchors": ["unity/unity_assets.go: scanPackage", "unity/unity_assets.go: extractPackage", "unity/unity_assets.go: Open", "unity/unity_assets.go: GetAssetByPath"]}
{"id": "C92", "title": "The Unity scene named on the command line is loaded", "statement": "For the path of a scene in a Unity project, the project is found from its directory Assets, its assets are those with a meta file, and the file with this path is the scene. Without a path the only scene is taken.", "quantifier": "all disks, working directories, projects and paths, absolute or relative", "why_tests_cant": "Directories can have any names, also ones that look like parts of the pattern.", "anchors": ["cmd/modelconv/utils.go: loadDocument", "unity/unity_assets.go: scanAssets", "unity/unity_assets.go: loadMetaFile", "unity/unity_scene.go: LoadScene"]}
{"id": "C93", "title": "Loading a Unity scene keeps its tree of objects", "statement": "For a scene file without prefabs whose objects and transforms refer to each other consistently, every object is visited exactly once, at the depth given by its fathers; roots come in the order of the file and children in the order their parent lists them; names, positions and components are those of the file.", "quantifier": "all scene files that describe trees, with any number of objects and other documents in any order", "why_tests_cant": "There are arbitrarily many objects, in any order, with references forwards and backwards.", "anchors": ["unity/unity_scene.go: LoadSceneAsset", "unity/unity.go: GetElement2", "unity/unity.go: GetTransform", "unity/unity_components.go: GetChildren", "unity/unity_components.go: GetGameObject"]}
{"id": "C94", "title": "Prefab instances appear in the scene as the scene modifies them", "statement": "An instance of a prefab in a scene holds the objects of the prefab, connected as in the prefab file. Positions, rotations, scales, names, active flags and materials are those of the last modification of the instance, else those of the prefab, independently of other instances. The root of the prefab is a root of the scene or a child of the transform that the instance names as its parent, which can be in another instance, and is not repeated if the parent also lists it.", "quantifier": "all projects, scenes, prefabs, instances and lists of modifications", "why_tests_cant": "Modifications come in any number and order, for any of the objects, and prefabs can be nested.", "anchors": ["unity/unity_scene.go: LoadSceneAsset", "unity/unity_components.go: AddChild", "unity/unity_components.go: GetChildren", "unity/unity.go: GetTransform"]}
{"id": "C95", "title": "Loading a Unity scene ends with a scene", "statement": "A scene file of a project is loaded: loading ends, without a crash, and missing prefabs are left out without an error.", "quantifier": "all projects and scenes", "why_tests_cant": "Prefabs can contain prefabs to any depth, and modifications name anything.", "anchors": ["unity/unity_scene.go: LoadSceneAsset"]}
{"id": "C96", "title": "Objects of a converted FBX document are its models with their tree", "statement": "Converting an FBX document to MQO adds one object for each model that has a mesh or is below such a model, under its name and below the object of its parent, and a hidden object for each of its blend shapes. Objects are numbered by position. No mesh is lost.", "quantifier": "all documents, options and documents that are added to", "why_tests_cant": "Models form trees of any shape, mixed with bones, and connections come in any order.", "anchors": ["converter/fbx2mqo.go: convert", "converter/fbx2mqo.go: convertModel", "converter/fbx2mqo.go: hasGeometryNode", "fbx/fbx_model.go: GetChildModels"]}
{"id": "C97", "title": "Meshes of a converted FBX document look as in the document", "statement": "The vertices of each object are those of the geometry of its model, placed by the matrix of the model in the world and by the axes of the document. It has a face for each polygon, with its vertices in the other order, the texture coordinates, normals and material that the layers of the geometry give to the corners and the polygon, and normals point to the front of the faces if they do in the document.", "quantifier": "all documents, geometries, layers and trees of models", "why_tests_cant": "Layers combine mappings and reference types with indexes of any kind, polygons have any number of corners, and matrices are multiplied along the tree.", "anchors": ["converter/fbx2mqo.go: convertGeometry", "converter/fbx2mqo.go: convertModel", "fbx/fbx_model.go: GetWorldMatrix", "fbx/fbx_geometry.go: LayerElement"]}
{"id": "C98", "title": "Every FBX document is converted", "statement": "Converting an FBX document that can be read ends, without a crash, with any options.", "quantifier": "all documents and options", "why_tests_cant": "Crashes depend on indexes and connections in files that other programs write.", "anchors": ["converter/fbx2mqo.go: convert", "converter/fbx2mqo.go: convertGeometry", "converter/fbx2mqo.go: convertShape", "converter/fbx2mqo.go: convertDeformer", "fbx/fbx_document.go: CoordMatrix"]}
{"id": "C99", "title": "Blend shapes of an FBX document become morph targets", "statement": "Each blend shape of a model becomes a hidden object with the faces of the model, whose vertices are those of the model moved by the offsets of the shape in the space of the model, and the morph set of the model names these objects, each by the name of its shape.", "quantifier": "all documents, trees of models and shapes", "why_tests_cant": "Shapes are reached over deformers and channels or are kept in the geometry, list vertices in any order, and their offsets are moved by matrices along the tree.", "anchors": ["converter/fbx2mqo.go: convertShape", "converter/fbx2mqo.go: convertGeometry", "converter/fbx2mqo.go: convertModel"]}
