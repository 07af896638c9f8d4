(** C123: parameters of glTF materials in exported documents. *)
From Coq Require Import String List ZArith QArith Bool Permutation.
From Verif.Model Require Import Num Vec Mqo MqoDoc Gltf Mqo2Gltf Mqo2GltfTextures GltfExts.
From Verif.Spec Require Import TextureSpec GltfExtSpec.
From Verif.Proofs Require Import GltfExtProofs.
From Verif Require Props.C103.
Import ListNotations.
Local Open Scope list_scope.

(** For all lists of materials, files and codecs: an extension is there exactly if its parameter turns it on, and then its numbers mean what the parameters say,
    if those are not zero or zero is what a missing number means; parameters that are not given mean the defaults of glTF. *)
Theorem C123_numbers_partial : forall file decode_tga decode resample png jpeg join opts o99 rough ms st ts st',
  convert_tmats file decode_tga decode resample png jpeg join opts o99 rough st ms = Some (ts, st') ->
  Forall2 (fun p t => forall e, gltf_shader (fst p) e -> forall flag x key k def, In (flag, x, key, k, def) extension_numbers ->
    if turned_on e flag
    then present t x /\ (forall v, number_given e k = Some v -> writable v def -> same_number (number_of t x key def) (Some v)) /\
         (number_given e k = None -> number_of t x key def = def)
    else ~ present t x) ms ts.
Proof. exact ext_numbers. Qed.
Print Assumptions C123_numbers_partial.

(** Colours are the red, green and blue of the parameters. *)
Theorem C123_colors_partial : forall file decode_tga decode resample png jpeg join opts o99 rough ms st ts st',
  convert_tmats file decode_tga decode resample png jpeg join opts o99 rough st ms = Some (ts, st') ->
  Forall2 (fun p t => forall e, gltf_shader (fst p) e -> forall flag x key k, In (flag, x, key, k) extension_colors ->
    if turned_on e flag then present t x /\ entry t x key = match color_given e k with Some (r :: g :: b :: _) => Some (XColor [r; g; b]) | _ => None end else ~ present t x) ms ts.
Proof. exact ext_colors. Qed.
Print Assumptions C123_colors_partial.

(** Other shaders have none of them. *)
Theorem C123_none : forall file decode_tga decode resample png jpeg join opts o99 rough ms st ts st',
  convert_tmats file decode_tga decode resample png jpeg join opts o99 rough st ms = Some (ts, st') ->
  Forall2 (fun p t => (forall e, ~ gltf_shader (fst p) e) -> tmExts t = []) ms ts.
Proof. exact ext_none. Qed.
Print Assumptions C123_none.

(** Metalness, roughness, the mode of transparency and its limit are the parameters. *)
Theorem C123_factors : forall file decode_tga decode resample png jpeg join opts o99 rough ms st ts st',
  convert_tmats file decode_tga decode resample png jpeg join opts o99 rough st ms = Some (ts, st') ->
  Forall2 (fun p t => forall e, gltf_shader (fst p) e ->
    gtName (tmMat t) = mtName (fst p) /\ gtColor (tmMat t) = mtColor (fst p) /\ gtDouble (tmMat t) = mtDouble (fst p) /\
    (forall v, number_given e "Metallic" = Some v -> gtMetal (tmMat t) = v) /\ (forall v, number_given e "Roughness" = Some v -> gtRough (tmMat t) = v) /\
    (forall v, value "AlphaMode"%string (exParams e) = Some (PInt v) ->
       (v = 1%Z -> gtAlpha (tmMat t) = GOpaque) /\ (v = 3%Z -> gtAlpha (tmMat t) = GBlend) /\
       (v = 2%Z -> forall c, number_given e "AlphaCutOff" = Some c -> gtAlpha (tmMat t) = GMask c)) /\
    (turned_on e "Extensions.Unlit" = true -> gtUnlit (tmMat t) = true)) ms ts.
Proof. exact base_factors. Qed.
Print Assumptions C123_factors.

(** The document lists the extensions that are used, and no others, once each. *)
Theorem C123_used : forall order lights physics ts, (forall l, Permutation l (order l)) ->
  NoDup (extensions_used order lights physics ts) /\
  (forall x, In x (extensions_used order lights physics ts) <->
    (exists t, In t ts /\ (In x (map fst (tmExts t)) \/ x = "KHR_materials_unlit"%string /\ gtUnlit (tmMat t) = true)) \/
    (x = "KHR_lights_punctual"%string /\ lights = true) \/ (x = "BLENDER_physics"%string /\ physics = true)).
Proof. exact used_listed. Qed.
Print Assumptions C123_used.

(** A material with coat, volume and specular extension, an unlit one and an old one. *)
Definition C123_mat (nm : string) (ps : list (string * param Q)) : material Q * option uvrect :=
  (C103.C103_mat nm "" "" (Some (mkEx2 "hlsl" "glTF" ps [] [])), None).
Definition C123_mats : list (material Q * option uvrect) :=
  [C123_mat "a" [("Metallic", PFloat (1 # 4)); ("Roughness", PFloat (1 # 2)); ("AlphaMode", PInt 2); ("AlphaCutOff", PFloat (1 # 3));
     ("Extensions.Clearcoat", PBool true); ("Extensions.ClearcoatFactor", PFloat (3 # 4)); ("Extensions.ClearcoatRoughnessFactor", PFloat 0);
     ("Extensions.Volume", PBool true); ("Extensions.AttenuationColor", PColor [1; 1 # 2; 0; 1]); ("Extensions.AttenuationDistance", PFloat 7);
     ("Extensions.SpecularExt", PBool true); ("Extensions.Sheen", PBool false)];
   C123_mat "b" [("Metallic", PFloat (1 # 4)); ("Extensions.Unlit", PBool true)];
   (C103.C103_mat "c" "" "" None, None)]%string%Q.
Example C123_example : exists ts st, C103.C103_run C123_mats = Some (ts, st) /\
  map tmExts ts = [[("KHR_materials_specular", []); ("KHR_materials_clearcoat", [("clearcoatFactor", XNum (3 # 4))]);
                    ("KHR_materials_volume", [("attenuationDistance", XNum 7); ("attenuationColor", XColor [1; 1 # 2; 0])])]; []; []]%string%Q /\
  map (fun t => (gtMetal (tmMat t), gtAlpha (tmMat t), gtUnlit (tmMat t))) ts = [(1 # 4, GMask (1 # 3), false); (1 # 4, GOpaque, true); (0, GOpaque, false)]%Q /\
  extensions_used (@rev string) true false ts = ["KHR_materials_unlit"; "KHR_materials_volume"; "KHR_materials_clearcoat"; "KHR_materials_specular"; "KHR_lights_punctual"]%string.
Proof. do 2 eexists. split; [vm_compute; reflexivity|]. repeat split. Qed.

(** Refuted: a specular factor of zero, no reflections, is left out, which means one, full reflections. *)
Theorem C123_zero_refuted : exists e ts st, gltf_shader (fst (C123_mat "a" (exParams e))) e /\ turned_on e "Extensions.SpecularExt" = true /\
  number_given e "Extensions.SpecularFactor" = Some 0%Q /\ C103.C103_run [C123_mat "a" (exParams e)] = Some (ts, st) /\
  map (fun t => number_of t "KHR_materials_specular" "specularFactor" (Some 1%Q)) ts = [Some 1%Q].
Proof.
  exists (mkEx2 "hlsl" "glTF" [("Extensions.SpecularExt", PBool true); ("Extensions.SpecularFactor", PFloat 0)]%string%Q [] []).
  do 2 eexists. split; [split; reflexivity|]. do 2 (split; [reflexivity|]). split; [vm_compute; reflexivity|reflexivity].
Qed.
Print Assumptions C123_zero_refuted.

(** Refuted: a rough material that is not a metal is exported as unlit, although the extension is turned off. *)
Theorem C123_unlit_refuted : exists e ts st, gltf_shader (fst (C123_mat "a" (exParams e))) e /\ value "Extensions.Unlit"%string (exParams e) = Some (PBool false) /\
  number_given e "Metallic" = Some 0%Q /\ number_given e "Roughness" = Some 1%Q /\ C103.C103_run [C123_mat "a" (exParams e)] = Some (ts, st) /\
  map (fun t => gtUnlit (tmMat t)) ts = [true].
Proof.
  exists (mkEx2 "hlsl" "glTF" [("Extensions.Unlit", PBool false); ("Metallic", PFloat 0); ("Roughness", PFloat 1)]%string%Q [] []).
  do 2 eexists. split; [split; reflexivity|]. do 3 (split; [reflexivity|]). split; [vm_compute; reflexivity|reflexivity].
Qed.
Print Assumptions C123_unlit_refuted.

(** Refuted: a colour of two numbers crashes the export. *)
Theorem C123_color_refuted :
  C103.C103_run [C123_mat "a" [("Extensions.Sheen", PBool true); ("Extensions.SheenColorFactor", PColor [1; 1])]%string%Q] = None.
Proof. reflexivity. Qed.
Print Assumptions C123_color_refuted.
