(** C101: materials of an FBX document. *)
From Coq Require Import String Ascii List ZArith Bool.
From Verif.Model Require Import Num Vec Matrix Mqo MqoDoc Fbx2Mqo.
From Verif.Spec Require Import FbxSceneSpec FbxMaterialSpec.
From Verif.Proofs Require Import FbxMaterials.
Import ListNotations.
Local Open Scope string_scope.
Local Open Scope list_scope.
Local Open Scope Z_scope.

(** The materials of the document become those of the result, in order, with colours, factors, and the file of their texture if they have no more than one. *)
Theorem C101_materials_partial : forall (T : Type) (N : Num T) tenth facet (d : fdoc T) fuel op objs base st mats, opOverride op = None -> convert_fbx tenth facet d fuel op objs base = FOk (st, mats) -> Forall2 (material_is tenth d) (fdMats d) mats.
Proof. intros T N. exact fbx_materials. Qed.
Print Assumptions C101_materials_partial.

(** A material with textures; the connections are given with the property of the material that they name. *)
Definition C101_prop (emi : list (option Z)) (n : string) : list (option Z) :=
  if String.eqb n "DiffuseColor" then [Some 2; Some 3; Some 4] else if String.eqb n "Opacity" then [Some 5] else if String.eqb n "SpecularColor" then [Some 6; Some 6; Some 6] else if String.eqb n "SpecularFactor" then [Some 7]
  else if String.eqb n "EmissiveColor" then emi else if String.eqb n "EmissiveFactor" then [Some 1] else [].
Definition C101_doc (nm : string) (emi : list (option Z)) (conns : list (nat * nat * string)) : fdoc Z :=
  mkFD (nth_error [OModel (mkFM (binary_name "Scene") "" mat_id (mkV3 0 0 0)); OMat (mkFMat nm (C101_prop emi)); OOther "Texture" "normal.png"; OOther "Texture" "skin.png"]) (fun _ => []) (map fst conns) 0%nat [1%nat] (Some mat_id).
Definition C101_op : foption Z := mkFOpt false false false 0 None "" None.
Definition C101_of (d : fdoc Z) : option (material Z) := match convert_fbx 10 0 d 1 C101_op [] 0 with FOk (_, [m]) => Some m | _ => None end.
Example C101_example : exists m, C101_of (C101_doc "skin" [] [((3, 1)%nat, "DiffuseColor")]) = Some m /\
  mtName m = "skin" /\ mtColor m = mkV4 2 3 4 5 /\ mtDiffuse m = 1 /\ mtSpecular m = 42 /\ mtEmission m = 0 /\ mtTexture m = "skin.png".
Proof. eexists. split; [vm_compute; reflexivity|]. repeat split. Qed.

(** Refuted: the texture is the first that is connected, to whatever property. *)
Theorem C101_texture_refuted : exists m, C101_of (C101_doc "skin" [] [((2, 1)%nat, "NormalMap"); ((3, 1)%nat, "DiffuseColor")]) = Some m /\ mtTexture m = "normal.png".
Proof. eexists. split; [vm_compute; reflexivity|]. reflexivity. Qed.
Print Assumptions C101_texture_refuted.
(** Refuted: of emissive (and specular and ambient) colours only the red part is read, so a blue light does not shine; the field for its colour stays empty. *)
Theorem C101_glow_refuted : exists m, C101_of (C101_doc "lamp" [Some 0; Some 0; Some 9] []) = Some m /\ mtEmission m = 0 /\ mtEmissionColor m = None.
Proof. eexists. split; [vm_compute; reflexivity|]. split; reflexivity. Qed.
Print Assumptions C101_glow_refuted.
(** Refuted: names keep the type, in binary files and in text files. *)
Theorem C101_name_refuted : (exists m, C101_of (C101_doc ("skin" ++ String "000" (String "001" "Material")) [] []) = Some m /\ mtName m = "skin::Material") /\
  (exists m, C101_of (C101_doc "Material::skin" [] []) = Some m /\ mtName m = "Material::skin").
Proof. split; (eexists; split; [vm_compute; reflexivity|reflexivity]). Qed.
Print Assumptions C101_name_refuted.
