-Q theories Verif
theories/Model/Num.v
theories/Model/NumR.v
theories/Model/Vec.v
theories/Model/Triangulate.v
theories/Spec/Surface.v
theories/Proofs/SurfaceLemmas.v
theories/Proofs/TriangulateProofs.v
theories/Props/C01.v
theories/Model/Codec.v
theories/Model/Pmx.v
theories/Spec/PmxSpec.v
theories/Proofs/CodecLemmas.v
theories/Proofs/PmxProofs.v
theories/Props/C19.v
theories/Props/C20.v
theories/Props/C21.v
theories/Props/C22.v
theories/Props/C23.v
theories/Model/Matrix.v
theories/Model/Euler.v
theories/Spec/GeomSpec.v
theories/Proofs/MatrixLemmas.v
theories/Proofs/DecomposeProofs.v
theories/Proofs/EulerProofs.v
theories/Proofs/RotationProofs.v
theories/Model/Mqo.v
theories/Spec/MqoSpec.v
theories/Proofs/MqoObjProofs.v
theories/Props/C02.v
theories/Props/C03.v
theories/Props/C04.v
theories/Props/C05.v
theories/Props/C06.v
theories/Props/C07.v
theories/Props/C08.v
theories/Model/MqoDoc.v
theories/Spec/DocSpec.v
theories/Proofs/MqoDocProofs.v
theories/Proofs/MorphProofs.v
theories/Proofs/MorphBase.v
theories/Model/MqoClone.v
theories/Spec/HeapSpec.v
theories/Proofs/CloneProofs.v
theories/Spec/BoneSpec.v
theories/Proofs/BoneProofs.v
theories/Props/C09.v
theories/Props/C10.v
theories/Props/C11.v
theories/Props/C12.v
theories/Props/C13.v
theories/Props/C14.v
theories/Props/C15.v
theories/Props/C18.v
theories/Props/C53.v
theories/Model/MqoText.v
theories/Model/MqoLex.v
theories/Spec/TextSpec.v
theories/Proofs/MqoTextProofs.v
theories/Proofs/MqoLexProofs.v
theories/Proofs/MqoTextMore.v
theories/Props/C16.v
theories/Props/C17.v
theories/Model/Vmd.v
theories/Spec/VmdSpec.v
theories/Proofs/VmdProofs.v
theories/Props/C24.v
theories/Props/C25.v
theories/Props/C54.v
theories/Model/Pmd.v
theories/Spec/PmdSpec.v
theories/Proofs/PmdProofs.v
theories/Props/C55.v
theories/Props/C56.v
theories/Props/C57.v
theories/Props/C58.v
theories/Model/Fbx.v
theories/Spec/FbxSpec.v
theories/Proofs/FbxProofs.v
theories/Proofs/FbxTotal.v
theories/Proofs/FbxLayout.v
theories/Props/C26.v
theories/Props/C27.v
theories/Props/C59.v
theories/Props/C60.v
theories/Props/C61.v
theories/Model/FbxText.v
theories/Spec/FbxTextSpec.v
theories/Proofs/FbxTextProofs.v
theories/Proofs/FbxTextTop.v
theories/Props/C28.v
theories/Props/C62.v
theories/Model/FbxDoc.v
theories/Spec/FbxDocSpec.v
theories/Proofs/FbxDocProofs.v
theories/Props/C29.v
theories/Props/C30.v
theories/Props/C31.v
theories/Props/C32.v
theories/Props/C63.v
theories/Model/Mmd2Mqo.v
theories/Spec/MmdConvSpec.v
theories/Proofs/Grouping.v
theories/Proofs/Mmd2MqoGroups.v
theories/Proofs/Mmd2MqoFaces.v
theories/Proofs/Mmd2MqoProofs.v
theories/Props/C33.v
theories/Props/C34.v
theories/Props/C35.v
theories/Props/C64.v
theories/Model/Normals.v
theories/Model/Mqo2Mmd.v
theories/Spec/NormalsSpec.v
theories/Spec/Mqo2MmdSpec.v
theories/Proofs/NormalsProofs.v
theories/Proofs/Mqo2MmdProofs.v
theories/Proofs/Mqo2MmdTop.v
theories/Proofs/Mqo2MmdBones.v
theories/Props/C36.v
theories/Props/C37.v
theories/Props/C38.v
theories/Props/C65.v
theories/Props/C66.v
theories/Props/C67.v
theories/Model/Gltf.v
theories/Model/Mqo2Gltf.v
theories/Spec/GltfSpec.v
theories/Proofs/GltfGraph.v
theories/Proofs/GltfMesh.v
theories/Proofs/GltfWeights.v
theories/Proofs/GltfTop.v
theories/Proofs/GltfDoc.v
theories/Proofs/GltfTotal.v
theories/Proofs/GltfProps.v
theories/Props/C39.v
theories/Props/C40.v
theories/Props/C41.v
theories/Props/C42.v
theories/Props/C68.v
theories/Props/C69.v
theories/Model/Gltf2Mqo.v
theories/Spec/Gltf2MqoSpec.v
theories/Proofs/Gltf2MqoProofs.v
theories/Props/C43.v
theories/Props/C44.v
theories/Props/C70.v
theories/Props/C71.v
theories/Model/GltfUtil.v
theories/Spec/GltfUtilSpec.v
theories/Proofs/GltfUtilProofs.v
theories/Proofs/GltfUtilAcc.v
theories/Proofs/GltfUtilJoint.v
theories/Props/C45.v
theories/Props/C46.v
theories/Props/C72.v
theories/Model/VrmConfig.v
theories/Spec/VrmSpec.v
theories/Proofs/VrmBones.v
theories/Proofs/VrmSprings.v
theories/Proofs/VrmRest.v
theories/Props/C47.v
theories/Props/C48.v
theories/Props/C73.v
theories/Props/C74.v
theories/Props/C75.v
theories/Props/C76.v
theories/Props/C77.v
theories/Model/Unity.v
theories/Model/UnityShape.v
theories/Spec/UnitySpec.v
theories/Spec/ShapeSpec.v
theories/Proofs/UnityProofs.v
theories/Proofs/UnityMesh.v
theories/Proofs/UnityShapeProofs.v
theories/Props/C49.v
theories/Props/C50.v
theories/Props/C78.v
theories/Model/UnityYaml.v
theories/Spec/YamlSpec.v
theories/Proofs/YamlProofs.v
theories/Props/C51.v
theories/Model/Cli.v
theories/Spec/CliSpec.v
theories/Proofs/CliProofs.v
theories/Proofs/CliMat.v
theories/Proofs/CliNames.v
theories/Props/C52.v
theories/Props/C79.v
theories/Props/C80.v
theories/Props/C81.v
theories/Model/MqoTransform.v
theories/Spec/TransformSpec.v
theories/Proofs/TransformProofs.v
theories/Props/C82.v
theories/Proofs/BoneTurnSums.v
theories/Proofs/BoneTurnProofs.v
theories/Proofs/LevelProofs.v
theories/Proofs/TposeProofs.v
theories/Props/C83.v
theories/Props/C84.v
theories/Model/GlbAnim.v
theories/Spec/AnimSpec.v
theories/Proofs/AnimProofs.v
theories/Proofs/AnimMorph.v
theories/Props/C85.v
theories/Props/C86.v
theories/Model/Unity2Mqo.v
theories/Spec/SceneSpec.v
theories/Spec/ColliderSpec.v
theories/Proofs/SceneProofs.v
theories/Proofs/SceneMore.v
theories/Proofs/SceneBodies.v
theories/Props/C87.v
theories/Props/C88.v
theories/Props/C89.v
theories/Model/UnityPackage.v
theories/Spec/PackageSpec.v
theories/Proofs/PackageProofs.v
theories/Props/C90.v
theories/Props/C91.v
theories/Model/UnityProject.v
theories/Spec/ProjectSpec.v
theories/Proofs/ProjectProofs.v
theories/Props/C92.v
theories/Model/UnityScene.v
theories/Spec/SceneFileSpec.v
theories/Proofs/ForestProofs.v
theories/Proofs/LoadProofs.v
theories/Props/C93.v
theories/Spec/PrefabSpec.v
theories/Proofs/ModProofs.v
theories/Proofs/PrefabProofs.v
theories/Props/C94.v
theories/Proofs/LoadEnds.v
theories/Props/C95.v
theories/Model/Fbx2Mqo.v
theories/Spec/FbxSceneSpec.v
theories/Spec/FbxMeshSpec.v
theories/Proofs/FbxWalk.v
theories/Proofs/FbxTree.v
theories/Proofs/FbxObjects.v
theories/Proofs/FbxFaces.v
theories/Proofs/FbxPlace.v
theories/Props/C96.v
theories/Props/C97.v
theories/Props/C98.v
theories/Proofs/FbxSceneTotal.v
theories/Proofs/FbxShapes.v
theories/Props/C99.v
theories/Spec/FbxBoneSpec.v
theories/Proofs/FbxBones.v
theories/Props/C100.v
theories/Spec/FbxMaterialSpec.v
theories/Proofs/FbxMaterials.v
theories/Props/C101.v
theories/Model/FbxMatrix.v
theories/Spec/FbxMatrixSpec.v
theories/Proofs/FbxMatrices.v
theories/Props/C102.v
theories/Model/Mqo2GltfTextures.v
theories/Spec/TextureSpec.v
theories/Proofs/TextureProofs.v
theories/Props/C103.v
theories/Props/C104.v
theories/Spec/AlphaSpec.v
theories/Proofs/AlphaProofs.v
theories/Props/C105.v
theories/Model/Mqo2GltfShared.v
theories/Spec/SharedSpec.v
theories/Proofs/SharedFaces.v
theories/Proofs/SharedProofs.v
theories/Proofs/SharedLoop.v
theories/Props/C106.v
theories/Model/Lights.v
theories/Spec/LightSpec.v
theories/Proofs/LightProofs.v
theories/Props/C107.v
theories/Model/GltfPack.v
theories/Spec/PackSpec.v
theories/Proofs/PackProofs.v
theories/Props/C108.v
theories/Model/GltfPhysics.v
theories/Spec/GltfPhysicsSpec.v
theories/Proofs/GltfPhysicsProofs.v
theories/Props/C109.v
theories/Model/Mqx.v
theories/Spec/MqxSpec.v
theories/Proofs/MqxProofs.v
theories/Props/C110.v
theories/Model/FbxRead.v
theories/Spec/FbxReadSpec.v
theories/Proofs/FbxReadProofs.v
theories/Props/C111.v
theories/Spec/FbxSaveSpec.v
theories/Proofs/FbxSaveProofs.v
theories/Props/C112.v
theories/Model/UnityImport.v
theories/Spec/UnityImportSpec.v
theories/Proofs/UnityImportProofs.v
theories/Props/C113.v
theories/Model/UnityTexture.v
theories/Spec/UnityTextureSpec.v
theories/Proofs/UnityTextureProofs.v
theories/Props/C114.v
theories/Model/VrmSave.v
theories/Spec/VrmSaveSpec.v
theories/Proofs/VrmSaveProofs.v
theories/Props/C115.v
theories/Model/GltfScene.v
theories/Spec/GltfSceneSpec.v
theories/Proofs/GltfSceneProofs.v
theories/Props/C116.v
theories/Model/UnityMaterial.v
theories/Spec/UnityMaterialSpec.v
theories/Proofs/UnityMaterialProofs.v
theories/Props/C117.v
theories/Model/MqoCodePage.v
theories/Spec/CodePageSpec.v
theories/Proofs/CodePageProofs.v
theories/Props/C118.v
theories/Model/GltfSave.v
theories/Spec/GltfSaveSpec.v
theories/Proofs/GltfSaveProofs.v
theories/Props/C119.v
theories/Model/Units.v
theories/Spec/UnitSpec.v
theories/Proofs/UnitProofs.v
theories/Props/C120.v
theories/Model/FbxBuild.v
theories/Spec/FbxBuildSpec.v
theories/Proofs/FbxBuildProofs.v
theories/Props/C121.v
theories/Model/MqoNames.v
theories/Spec/NameSpec.v
theories/Proofs/NameProofs.v
theories/Props/C122.v
theories/Model/GltfExts.v
theories/Spec/GltfExtSpec.v
theories/Proofs/GltfExtProofs.v
theories/Props/C123.v
theories/Spec/FbxContentSpec.v
theories/Proofs/FbxContentProofs.v
theories/Props/C124.v
theories/Model/CliRun.v
theories/Spec/RunSpec.v
theories/Proofs/RunProofs.v
theories/Props/C125.v
theories/Spec/DrawnSpec.v
theories/Proofs/DrawnConv.v
theories/Proofs/DrawnLemmas.v
theories/Proofs/DrawnProofs.v
theories/Props/C126.v
theories/Proofs/VrmSaveParts.v
theories/Spec/SceneDrawnSpec.v
theories/Proofs/DrawnDoc.v
theories/Proofs/DrawnFbx.v
theories/Props/C127.v
theories/Spec/FbxPmxSpec.v
theories/Proofs/FbxPmx.v
theories/Props/C128.v
theories/Model/MmdMaterials.v
theories/Spec/MmdMaterialsSpec.v
theories/Proofs/MmdMaterials.v
theories/Props/C129.v
theories/Props/C130.v
theories/Spec/SkipSpec.v
theories/Proofs/MqoSkip.v
theories/Props/C131.v
theories/Model/MmdIk.v
theories/Spec/MmdIkSpec.v
theories/Proofs/MmdIk.v
theories/Props/C132.v
theories/Spec/GltfPmxSpec.v
theories/Proofs/GltfPmx.v
theories/Props/C133.v
theories/Spec/PmxPmxSpec.v
theories/Proofs/PmxPmx.v
theories/Props/C134.v
theories/Spec/MqxPhysicsSpec.v
theories/Proofs/MqxPhysics.v
theories/Proofs/FbxShort.v
theories/Spec/PmxSkinSpec.v
theories/Proofs/PmxSkin.v
theories/Props/C135.v
theories/Spec/PmxMorphSpec.v
theories/Proofs/PmxMorph.v
theories/Props/C136.v
theories/Spec/PmxBonesSpec.v
theories/Proofs/PmxBones.v
theories/Props/C137.v
theories/Model/MmdPhysics.v
theories/Spec/PmxPhysicsSpec.v
theories/Proofs/PmxPhysics.v
theories/Props/C138.v
theories/Model/GlbMotions.v
theories/Spec/MotionsSpec.v
theories/Proofs/MotionsProofs.v
theories/Props/C139.v
theories/Model/UnityParent.v
theories/Spec/UnityParentSpec.v
theories/Proofs/UnityParentProofs.v
theories/Props/C140.v
