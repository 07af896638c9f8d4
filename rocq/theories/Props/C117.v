(** C117: A material of a Unity scene looks like the material in its file. *)
From Coq Require Import String Ascii List ZArith Reals Bool Lia Lra.
From Verif.Model Require Import Num NumR Vec Matrix Mqo MqoDoc UnityYaml UnityPackage UnityProject UnityTexture Unity2Mqo UnityMaterial.
From Verif Require Import Spec.YamlSpec Spec.UnityTextureSpec Spec.ProjectSpec Spec.UnityMaterialSpec Proofs.UnityMaterialProofs.
Import ListNotations.
Local Open Scope string_scope.
Local Open Scope list_scope.

(** In a file as Unity writes them, whose documents before the first material have other types, this material is found. *)
Theorem C117_load_partial : forall (asset : string -> option string) read decode hs ds d m guid p,
  Forall head_ok hs -> Forall sdoc_ok ds -> long_end ds -> first_is hs ds d ->
  decode (sdoc_body d) = Some m -> decode (sdoc_body d ++ list_ascii_of_string "---") = Some m ->
  asset guid = Some p -> read p = Some (file_text hs ds) -> load_material asset read decode guid = LMaterial m.
Proof. exact load_first. Qed.
Print Assumptions C117_load_partial.

(** It has the name, colour and emission of the file, and the tiling of its texture. *)
Theorem C117_look_partial : forall asset save open src fs m guid fs1 u, use_material asset save open src fs m = (fs1, u) ->
  let r := make_material (fun _ => Some u) guid in
  mtName (fst r) = fmName m /\
  (forall c, gives (fmColors m) "_Color" (Some c) -> mtColor (fst r) = c) /\
  (lacks (fmColors m) "_Color" -> mtColor (fst r) = mkV4 1 1 1 1)%R /\
  (forall k, gives (fmColors m) "_EmissionColor" (Some k) ->
     mtEmissionColor (fst r) = None /\ (qx k = 0 /\ qy k = 0 /\ qz k = 0)%R \/
     mtEmissionColor (fst r) = Some (mkV3 (qx k) (qy k) (qz k)) /\ ~ (qx k = 0 /\ qy k = 0 /\ qz k = 0)%R) /\
  (lacks (fmColors m) "_EmissionColor" -> mtEmissionColor (fst r) = None) /\
  (lacks (fmTex m) "_MainTex" -> mtTexture (fst r) = "" /\ snd r = None) /\
  (forall t x, shows_asset asset m "_MainTex" t x -> snd r = Some (teScale t)) /\
  (lacks (fmTex m) "_BumpMap" -> mtBump (fst r) = "").
Proof. exact colors_used. Qed.
Print Assumptions C117_look_partial.

(** References that say nothing are no textures, and nothing is written for them. *)
Theorem C117_invalid : forall asset save open src fs m guid fs1 u, use_material asset save open src fs m = (fs1, u) ->
  let r := make_material (fun _ => Some u) guid in
  (no_texture m "_MainTex" -> mtTexture (fst r) = "" /\ snd r = None) /\ (no_texture m "_BumpMap" -> mtBump (fst r) = "") /\
  (no_texture m "_MainTex" -> no_texture m "_BumpMap" -> fs1 = fs).
Proof. exact invalid_unused. Qed.
Print Assumptions C117_invalid.

(** Its textures lead to the contents of their assets. *)
Theorem C117_textures_partial : forall asset open src fs m guid fs1 u t1 x1 d1 w1, use_material asset true open src fs m = (fs1, u) ->
  stat fs src = Some FDir -> (forall d, stat fs (src ++ ["saved_textures"]) <> Some (FFile d)) ->
  shows_asset asset m "_MainTex" t1 x1 -> asset_ok x1 -> stat fs (expected src x1) = None -> open (slashed (snd x1)) = Some (d1, w1) ->
  let r := make_material (fun _ => Some u) guid in
  (lacks (fmTex m) "_BumpMap" -> leads fs1 src (mtTexture (fst r)) d1) /\
  (forall t2 x2 d2 w2, shows_asset asset m "_BumpMap" t2 x2 -> asset_ok x2 -> stat fs (expected src x2) = None -> open (slashed (snd x2)) = Some (d2, w2) ->
     (fst x1 = fst x2 -> snd x1 = snd x2) -> leads fs1 src (mtTexture (fst r)) d1 /\ leads fs1 src (mtBump (fst r)) d2).
Proof. exact textures_used. Qed.
Print Assumptions C117_textures_partial.

Local Open Scope R_scope.
Definition text (s : string) : bytes := list_ascii_of_string s.
Definition n : string := String nl EmptyString.
Definition no_fs : fsys := [].
(** A decoder for the texts below: documents of materials, with the letter after the key, and others. *)
Definition colored (name : string) (c : vec4 R) : fmat := mkFM name "" [] [] [[("_Color", Some c)]].
Definition red : fmat := colored "red" (mkV4 1 0 0 1).
Definition blue : fmat := colored "blue" (mkV4 0 0 1 1).
Definition decode0 (b : bytes) : option fmat :=
  match prefix "Material: r" (string_of_list_ascii b), prefix "Material: b" (string_of_list_ascii b), prefix "Material: ?" (string_of_list_ascii b) with
  | true, _, _ => Some red | _, true, _ => Some blue | _, _, true => None | _, _, _ => Some zero_fmat
  end.
Definition header : string := ("%YAML 1.1" ++ n ++ "%TAG !u! tag:unity3d.com,2011:" ++ n)%string.

(** A document without a type and without a material is taken for a material with no name and no properties. *)
Theorem C117_untyped_refuted : exists read, read "m.mat" = Some (text (header ++ "---" ++ n ++ "note: 1" ++ n ++ "--- !u!21 &2100000" ++ n ++ "Material: red" ++ n)) /\
  decode0 (text ("Material: red" ++ n)) = Some red /\ load_material (fun _ => Some "m.mat") read decode0 "g" = LMaterial zero_fmat.
Proof. exists (fun _ => Some (text (header ++ "---" ++ n ++ "note: 1" ++ n ++ "--- !u!21 &2100000" ++ n ++ "Material: red" ++ n))). repeat split. Qed.
Print Assumptions C117_untyped_refuted.

(** Of several materials in one file all references get the first one, and a material that cannot be decoded is replaced by another one. *)
Theorem C117_second_refuted : exists read, read "m.asset" = Some (text (header ++ "--- !u!21 &1" ++ n ++ "Material: red" ++ n ++ "--- !u!21 &2" ++ n ++ "Material: blue" ++ n)) /\
  forall r : uref, load_material (fun _ => Some "m.asset") read decode0 (rGUID r) = LMaterial red.
Proof. exists (fun _ => Some (text (header ++ "--- !u!21 &1" ++ n ++ "Material: red" ++ n ++ "--- !u!21 &2" ++ n ++ "Material: blue" ++ n))). repeat split. Qed.
Print Assumptions C117_second_refuted.
Theorem C117_broken_refuted : exists read, read "m.asset" = Some (text (header ++ "--- !u!21 &1" ++ n ++ "Material: ?" ++ n ++ "--- !u!21 &2" ++ n ++ "Material: blue" ++ n)) /\
  decode0 (text ("Material: ?" ++ n)) = None /\ load_material (fun _ => Some "m.asset") read decode0 "g" = LMaterial blue.
Proof. exists (fun _ => Some (text (header ++ "--- !u!21 &1" ++ n ++ "Material: ?" ++ n ++ "--- !u!21 &2" ++ n ++ "Material: blue" ++ n))). repeat split. Qed.
Print Assumptions C117_broken_refuted.

(** A document with a tag of one word crashes the program, and this is the only way. *)
Theorem C117_crash : forall asset read decode save open src fs guid, scene_material asset read decode save open src fs guid = None <->
  exists p b, asset guid = Some p /\ read p = Some b /\ parse_yaml_documents b = None.
Proof. exact material_crash. Qed.
Print Assumptions C117_crash.
Theorem C117_crash_refuted : exists b, b = text ("%TAG !u! tag:unity3d.com,2011:" ++ n ++ "--- !u &100" ++ n) /\
  forall decode save open src fs, scene_material (fun _ => Some "m.mat") (fun _ => Some b) decode save open src fs "g" = None.
Proof. eexists. split; [reflexivity|]. intros decode save open src fs. apply C117_crash. exists "m.mat". eexists. split; [reflexivity|]. split; [reflexivity|vm_compute; reflexivity]. Qed.
Print Assumptions C117_crash_refuted.

(** An emission that is switched off shines. *)
Theorem C117_glow_refuted : exists m, forall asset save open src fs fs1 u guid, use_material asset save open src fs m = (fs1, u) ->
  mtEmissionColor (fst (make_material (fun _ => Some u) guid)) = Some (mkV3 1 0 0) /\ ~ true_emission m (mtEmissionColor (fst (make_material (fun _ => Some u) guid))).
Proof.
  exists (mkFM "lamp" "_NORMALMAP" [] [] [[("_EmissionColor", Some (mkV4 1 0 0 1))]]). intros asset save open src fs fs1 u guid H.
  destruct (colors_used _ _ _ _ _ _ guid _ _ H) as (_ & _ & _ & E & _).
  destruct (E (mkV4 1 0 0 1)) as [[_ (C & _)]|[-> _]].
  - exists [], [], [], []. repeat split; intros x X; exact X.
  - cbn [qx] in C. lra.
  - split; [reflexivity|]. intros [(a & b & K & _) _]. cbn [fmKeywords] in K.
    repeat (destruct a as [|? a]; cbn in K; [discriminate|injection K as _ K; clear - K]). all: destruct a; discriminate.
Qed.
Print Assumptions C117_glow_refuted.

(** An opaque material whose colour has alpha 0 disappears. *)
Theorem C117_opaque_refuted : exists m, forall asset save open src fs fs1 u guid, use_material asset save open src fs m = (fs1, u) ->
  mtColor (fst (make_material (fun _ => Some u) guid)) = mkV4 1 1 1 0 /\ ~ true_color m (mtColor (fst (make_material (fun _ => Some u) guid))).
Proof.
  exists (mkFM "wall" "" [] [[("_Mode", 0)]] [[("_Color", Some (mkV4 1 1 1 0))]]). intros asset save open src fs fs1 u guid H.
  destruct (colors_used _ _ _ _ _ _ guid _ _ H) as (_ & E & _). rewrite (E (mkV4 1 1 1 0)).
  - split; [reflexivity|]. intros (k & _ & [[_ C]|[C _]]).
    + injection C as _ _ _ C. lra.
    + apply C. exists [], [], [], []. repeat split; intros x X; exact X.
  - exists [], [], [], []. repeat split; intros x X; exact X.
Qed.
Print Assumptions C117_opaque_refuted.

(** A file with a document of another type before its material, and a material with two textures. *)
Definition file_head : list head_line := [Other (text "%YAML 1.1"); Directive (text "u") (text "tag:unity3d.com,2011:") []].
Definition mat_doc : sdoc := mkSDoc (text "u") (text "21") (text "2100000") [] [text "Material: red"].
Definition file_docs : list sdoc := [mkSDoc (text "u") (text "114") (text "7") [] [text "MonoBehaviour:"]; mat_doc].
Ltac noline := let H := fresh in intros H; cbn in H; repeat (destruct H as [H|H]; [discriminate H|]); exact H.
Ltac words := split; [discriminate|repeat constructor; discriminate].
Ltac plain := split; [noline|split; intros ? ?; discriminate].
Lemma head_meaning d t : sdHandle d = text "u" -> meaning file_head d t -> t = text "tag:unity3d.com,2011:" ++ sdSuffix d.
Proof.
  intros Hh [(a & b & v & u & E & _ & ->)|(H & _)]; rewrite Hh in *.
  - destruct a as [|? [|? [|? a]]]; cbn in E; try discriminate. injection E as _ <- _ _. reflexivity.
  - exfalso. apply (H (text "tag:unity3d.com,2011:") []). right. left. reflexivity.
Qed.
Example C117_load_example : Forall head_ok file_head /\ Forall sdoc_ok file_docs /\ long_end file_docs /\ first_is file_head file_docs mat_doc /\
  load_material (fun g => if String.eqb g "ab" then Some "m.mat" else None) (fun _ => Some (file_text file_head file_docs)) decode0 "ab" = LMaterial red.
Proof.
  split; [|split; [|split; [|split; [|vm_compute; reflexivity]]]].
  - constructor; [plain|]. constructor; [|constructor]. split; [words|]. split; [noline|]. split; [words|]. split; [noline|left; reflexivity].
  - constructor; [|constructor; [|constructor]]; (split; [words|]; split; [noline|]; split; [words|]; split; [words|]; split).
    + split; [noline|left; reflexivity].
    + constructor; [plain|constructor].
    + split; [noline|left; reflexivity].
    + constructor; [plain|constructor].
  - intros a d E b l El. unfold file_docs in E. destruct a as [|x [|x' [|x'' a]]]; cbn in E; try discriminate; injection E as <- <-. cbn in El. destruct b as [|y [|y' b]]; cbn in El; try discriminate; injection El as <-. cbn. lia.
  - exists [mkSDoc (text "u") (text "114") (text "7") [] [text "MonoBehaviour:"]], []. split; [reflexivity|]. split.
    + intros t M. apply head_meaning in M; [|reflexivity]. exact M.
    + intros x t [<-|[]] M. apply head_meaning in M; [|reflexivity]. rewrite M. discriminate.
Qed.

Definition assets0 (g : string) : option string := if String.eqb g "11" then Some "Assets/t.png" else if String.eqb g "22" then Some "Assets/n.png" else None.
Definition tex (g : string) (s : R) : tenv := mkTE (Some (mkRef 2800000 g 3)) (mkV2 s s) (mkV2 0 0).
Definition brick : fmat := mkFM "brick" "_EMISSION" [[("_BumpMap", Some (tex "22" 1))]; [("_MainTex", Some (tex "11" 2))]] [[("_Mode", 0)]]
  [[("_Color", Some (mkV4 1 0 0 1))]; [("_EmissionColor", Some (mkV4 0 0 0 1))]].
Definition disk0 : fsys := [(["w"], FDir); (["w"; "p"], FDir)].
Definition open0 (p : string) : option (string * bool) := Some (("data of " ++ p)%string, true).
Example C117_texture_example : let r := use_material assets0 true open0 ["w"; "p"] disk0 brick in
  option_map (fun x => fst (fst x)) (umMain (snd r)) = Some "saved_textures/11_t.png" /\ umBump (snd r) = "saved_textures/22_n.png" /\
  stat (fst r) ["w"; "p"; "saved_textures"; "11_t.png"] = Some (FFile "data of Assets/t.png") /\
  shows_asset assets0 brick "_MainTex" (tex "11" 2) ("11", ["Assets"; "t.png"]) /\ shows_asset assets0 brick "_BumpMap" (tex "22" 1) ("22", ["Assets"; "n.png"]) /\
  asset_ok ("11", ["Assets"; "t.png"]) /\ asset_ok ("22", ["Assets"; "n.png"]).
Proof.
  cbv zeta. split; [reflexivity|]. split; [reflexivity|]. split; [reflexivity|]. split; [|split; [|split]].
  - split; [|exists (mkRef 2800000 "11" 3); repeat split; discriminate]. exists [[("_BumpMap", Some (tex "22" 1))]], [], [], [].
    repeat split; intros x; cbn; [intros [X|[]]; discriminate|intros []].
  - split; [|exists (mkRef 2800000 "22" 3); repeat split; discriminate]. exists [], [[("_MainTex", Some (tex "11" 2))]], [], [].
    repeat split; intros x X; exact X.
  - repeat split; try discriminate; repeat (constructor; [repeat split; discriminate|]); constructor.
  - repeat split; try discriminate; repeat (constructor; [repeat split; discriminate|]); constructor.
Qed.
