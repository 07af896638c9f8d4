(** C115: a .vrm file has the settings of the configuration. *)
From Coq Require Import String Ascii List ZArith Bool Lia.
From Verif.Model Require Import Num Vec Cli VrmConfig VrmSave.
From Verif.Spec Require Import VrmSpec VrmSaveSpec.
From Verif.Proofs Require Import VrmBones VrmSaveProofs VrmSaveParts.
Import ListNotations.
Local Open Scope string_scope.
Local Open Scope list_scope.

(** If the configuration and its preset can be loaded and no error is reported, the file has the metadata of the configuration, the bones as the mappings of the
    configuration and then of the preset say, each once, a property for every material, and lists the extensions it uses; the bones reported are those missing.
    Nodes, meshes and the names of the materials stay. *)
Theorem C115_written_partial : forall (T : Type) (N : Num T) (M : Type) (meta0 : M) read embedded there exec (parse : string -> option (config T M)) pmatch order fuel physics all name d conf p d' miss,
  save_vrm M meta0 read embedded there exec parse pmatch order fuel physics all name d = Some (d', true, miss) ->
  load_config M read embedded there exec parse name = Some conf -> preset_of (load_config M read embedded there exec parse) conf p ->
  NoDup (map fst (own_mats conf)) -> NoDup (map fst (preset_mats p)) ->
  exists e, vdExt d' = Some e /\ veMeta e = cfMeta conf /\ veExporter e = true /\
    vdNodes d' = vdNodes d /\ vdMeshes d' = vdMeshes d /\ map vmName (vdMats d') = map vmName (vdMats d) /\
    length (veMats e) = length (vdMats d') /\ (vdExt d = None -> veMats e = map vmName (vdMats d')) /\
    (NoDup (map hbName (veBones e)) /\ forall b id dflt, In (mkHB b id dflt) (veBones e) <-> bone_is (vdNodes d) (cfBones conf ++ preset_bones p) b id dflt) /\
    (forall b, In b miss <-> In b required_bones /\ ~ In b (map hbName (veBones e))) /\
    (NoDup (vdUsed d) -> NoDup (vdUsed d')) /\
    ((vdExt d = None \/ In "VRM" (vdUsed d)) -> In "VRM" (vdUsed d')) /\
    (forall x, In x (vdUsed d') <-> In x (vdUsed d) \/ (x = "VRM" /\ vdExt d = None) \/ (x = "KHR_materials_unlit" /\ exists m, In m (vdMats d) /\ asks_unlit (own_mats conf) (preset_mats p) (vmName m))).
Proof. exact @save_written. Qed.
Print Assumptions C115_written_partial.
(** Morphs, spring bones, colliders and the first person bone that the document had are kept. *)
Theorem C115_kept : forall (T : Type) (N : Num T) (M : Type) (meta0 : M) read embedded there exec (parse : string -> option (config T M)) pmatch order fuel physics all name d e d' ok miss,
  save_vrm M meta0 read embedded there exec parse pmatch order fuel physics all name d = Some (d', ok, miss) -> vdExt d = Some e ->
  exists e', vdExt d' = Some e' /\ begins (veMorphs e) (veMorphs e') /\ begins (veSprings e) (veSprings e') /\ begins (veColliders e) (veColliders e') /\
    (veFirst e <> None -> veFirst e' = veFirst e) /\ (length (veMats e) = length (vdMats d) -> veMats e' = veMats e).
Proof. exact @save_kept. Qed.
Print Assumptions C115_kept.
(** Physics bodies are removed.  Morphs, colliders and spring bones are those of the document, of the configuration and its preset, and what the options of the configuration
    or of the command line ask for: a group for every morph target, colliders for all static bodies with round shapes, spring bones for all swinging chains.
    Proved for spring bones if there are no others, names are different and without wildcards, and no node has a mesh or two parents. *)
Theorem C115_parts_partial : forall (T : Type) (N : Num T) (M : Type) (meta0 : M) read embedded there exec (parse : string -> option (config T M)) pmatch order fuel physics all name d conf p d' miss,
  save_vrm M meta0 read embedded there exec parse pmatch order fuel physics all name d = Some (d', true, miss) ->
  load_config M read embedded there exec parse name = Some conf -> preset_of (load_config M read embedded there exec parse) conf p -> length (vdBodies d) = length (vdNodes d) ->
  exists e, vdExt d' = Some e /\ Forall (fun b => b = None) (vdBodies d') /\
    (cfAll conf = true \/ all = true -> Forall (fun m => vmeTyped m = true) (vdMeshes d) -> forall m i target, is_target (vdMeshes d) m i target -> exists g, In g (veMorphs e) /\ bgBinds g = [(m, i)]) /\
    (cfAll conf = false -> all = false -> exists gss, veMorphs e = old_morphs d ++ concat gss /\ Forall2 (groups_of (vdNodes d) (vdMeshes d)) (cfMorphs conf ++ preset_morphs p) gss) /\
    (forall l id, In (l, id) (veColliders e) <-> In (l, id) (old_colliders d) \/
       (exists t, In (l, t) (cfColliders conf ++ preset_colliders p) /\ last_named (vdNodes d) t id) \/
       ((cfColl conf = true \/ physics = true) /\ exists i n shapes, nth_error (vdNodes d) i = Some n /\ nth_error (vdBodies d) i = Some (Some (true, shapes)) /\ l = flat_map shape_collider shapes /\ l <> [] /\ last_named (vdNodes d) (vnName n) id)) /\
    (cfSprings conf ++ preset_springs p = [] -> old_springs d = [] ->
       (cfSpring conf = false -> physics = false -> veSprings e = []) /\
       (cfSpring conf = true \/ physics = true -> NoDup (map vnName (vdNodes d)) -> Forall (fun v => plain (vnName v)) (vdNodes d) -> Forall (fun v => vnMesh v = None) (vdNodes d) ->
        (forall a b i, pparent (spring_nodes M d) a i -> pparent (spring_nodes M d) b i -> a = b) ->
        forall i, (exists a, pparent (spring_nodes M d) a i) -> In i (concat (veSprings e)) <-> spring_root (spring_nodes M d) i)).
Proof. exact @save_parts. Qed.
Print Assumptions C115_parts_partial.
(** A name with a dot or a slash is a file.  Others are presets: in the directory beside the program, then in the program itself. *)
Theorem C115_places : forall (T : Type) (M : Type) read embedded there exec (parse : string -> option (config T M)) name,
  (In "."%char (list_ascii_of_string name) \/ In "/"%char (list_ascii_of_string name) -> load_config M read embedded there exec parse name = match read name with Some t => parse t | None => None end) /\
  (~ In "."%char (list_ascii_of_string name) -> ~ In "/"%char (list_ascii_of_string name) -> forall t,
     let file := ("vrmconfig_presets/" ++ name ++ ".json")%string in
     (there (exec ++ "/" ++ file)%string = true -> read (exec ++ "/" ++ file)%string = Some t -> load_config M read embedded there exec parse name = parse t) /\
     (there (exec ++ "/" ++ file)%string = false -> embedded file = Some t -> load_config M read embedded there exec parse name = parse t)).
Proof. exact @load_places. Qed.
Print Assumptions C115_places.
(** Saving does not crash if the nodes are a forest, materials have a base colour, mappings of morphs name nodes with meshes, and a configuration with a preset that
    has material settings has some, too. *)
Theorem C115_total_partial : forall (T : Type) (N : Num T) (M : Type) (meta0 : M) read embedded there exec (parse : string -> option (config T M)) pmatch order d physics all name,
  (forall l, incl (order l) l) -> finite_nodes (vdNodes d) -> length (vdBodies d) = length (vdNodes d) -> (forall m, In m (vdMats d) -> vmPbr m <> Some None) ->
  (forall conf p, load_config M read embedded there exec parse name = Some conf -> preset_of (load_config M read embedded there exec parse) conf p -> cfMats conf <> None \/ preset_mats p = []) ->
  (forall conf p mp, load_config M read embedded there exec parse name = Some conf -> preset_of (load_config M read embedded there exec parse) conf p -> In mp (cfMorphs conf ++ preset_morphs p) ->
    mmTarget mp <> "" \/ forall id, ~ bone_node (vdNodes d) (mmNode mp) id) ->
  exists f, forall fuel, (f <= fuel)%nat -> save_vrm M meta0 read embedded there exec parse pmatch order fuel physics all name d <> None.
Proof. exact @save_total. Qed.
Print Assumptions C115_total_partial.
(** The configuration of the command line, then the file beside the model, then the preset for MMD models. *)
Theorem C115_choice : forall there stem e, ext (stem ++ e)%string = e ->
  (forall flag, flag <> "" -> choose_config there flag (stem ++ e)%string = flag) /\
  (there (stem ++ ".vrmconfig.json")%string = true -> choose_config there "" (stem ++ e)%string = (stem ++ ".vrmconfig.json")%string) /\
  (there (stem ++ ".vrmconfig.json")%string = false -> choose_config there "" (stem ++ e)%string = if is_mmd (lower e) then "mmd" else "").
Proof. exact choice. Qed.
Print Assumptions C115_choice.

(** A configuration with the preset of the program, and some others; a file is its own name. *)
Definition conf_a : config Z string := mkConf "me" [mkBM "hips" false false "" ["Center"]] [] (Some [("skin", mkMS true "" 0%Z)]) false false false [([], ["Hair"])] [] "mmd".
Definition conf_mmd : config Z string := mkConf "" [mkBM "hips" false false "" ["Head"]; mkBM "head" false false "" ["Kopf"; "Head"]] [mkMM "joy" "" "smile" 0 0] (Some [("skin", mkMS false "blend" 0%Z)]) true false false [] [] "".
Definition conf_b : config Z string := mkConf "me" [] [] None false false false [] [] "mmd".
Definition conf_c : config Z string := mkConf "me" [] [] (Some []) false false false [] [] "next".
Definition conf_d : config Z string := mkConf "other" [] [] (Some []) true false false [] [] "mmd".
Definition conf_e : config Z string := mkConf "me" [] [] (Some []) false false false [] [] "base.json".
Definition read0 (n : string) : option string := if existsb (String.eqb n) ["a.json"; "b.json"; "dir/c.json"; "dir/base.json"; "dir/e.json"] then Some n else None.
Definition embedded0 (n : string) : option string := if existsb (String.eqb n) ["vrmconfig_presets/mmd.json"; "vrmconfig_presets/next.json"] then Some n else None.
Definition parse0 (n : string) : option (config Z string) :=
  if String.eqb n "a.json" then Some conf_a else if String.eqb n "b.json" then Some conf_b else if String.eqb n "dir/c.json" then Some conf_c
  else if String.eqb n "dir/e.json" then Some conf_e else if String.eqb n "vrmconfig_presets/mmd.json" then Some conf_mmd else if String.eqb n "vrmconfig_presets/next.json" then Some conf_d
  else if String.eqb n "dir/base.json" then Some conf_mmd else None.
Definition load0 : string -> option (config Z string) := load_config string read0 embedded0 (fun _ => false) "/usr/bin" parse0.
Definition save0 : string -> vdoc Z string -> option (vdoc Z string * bool * list string) :=
  save_vrm string "" read0 embedded0 (fun _ => false) "/usr/bin" parse0 (fun _ _ => false) (fun l => l) 9 false false.
Definition nodes0 : list vnode := [mkVN "Center" None [1; 2]%nat; mkVN "Head" None [3]%nat; mkVN "Body" (Some 0%nat) []; mkVN "Hair" None []].
Definition doc0 : vdoc Z string := mkVD nodes0 [None; None; None; None] [mkVMesh true ["smile"; "frown"]] [mkVM "skin" [] 0%Z None; mkVM "cloth" [] 0%Z None] None ["KHR_lights"].
Example C115_example : load0 "a.json" = Some conf_a /\ preset_of load0 conf_a (Some conf_mmd) /\ NoDup (map fst (own_mats conf_a)) /\ NoDup (map fst (preset_mats (Some conf_mmd))) /\
  option_map (fun r => (vdExt (fst (fst r)), vdUsed (fst (fst r)), snd (fst r), length (snd r))) (save0 "a.json" doc0) =
    Some (Some (mkVE "me" [mkHB "hips" 0 true; mkHB "head" 1 true] (Some 1%Z) [mkBG "joy" "joy" [(0%nat, 0%Z)] 0] [[3%nat]] [] ["skin"; "cloth"] true), ["KHR_lights"; "VRM"; "KHR_materials_unlit"], true, 15%nat).
Proof.
  split; [reflexivity|]. split; [split; [discriminate|reflexivity]|]. split; [repeat constructor; cbn; tauto|]. split; [repeat constructor; cbn; tauto|]. vm_compute. reflexivity.
Qed.
Example C115_kept_example : vdExt (mkVD (T := Z) nodes0 [None; None; None; None] [] [] (Some (mkVE "x" [] (Some 2%Z) [] [[0%nat]] [] [] false)) ["VRM"]) <> None /\
  option_map (fun r => option_map (fun e => (veFirst e, veSprings e)) (vdExt (fst (fst r)))) (save0 "a.json" (mkVD nodes0 [None; None; None; None] [] [] (Some (mkVE "x" [] (Some 2%Z) [] [[0%nat]] [] [] false)) ["VRM"])) =
    Some (Some (Some 2%Z, [[0%nat]; [3%nat]])).
Proof. split; [discriminate|vm_compute; reflexivity]. Qed.
Example C115_total_example : finite_nodes (vdNodes doc0) /\ length (vdBodies doc0) = length (vdNodes doc0) /\ (forall m, In m (vdMats doc0) -> vmPbr m <> Some None) /\
  (forall conf p, load0 "a.json" = Some conf -> preset_of load0 conf p -> cfMats conf <> None \/ preset_mats p = []).
Proof.
  split; [|split; [reflexivity|split]].
  - exists (fun i => match i with 0 => 3 | 1 => 2 | _ => 1 end)%nat. intros [|[|[|[|i]]]] n c E I; cbn in E; try (destruct i; discriminate E); injection E as <-; cbn in I; intuition subst; cbn; lia.
  - intros m [<-|[<-|[]]]; discriminate.
  - intros conf p L _. injection L as <-. left. discriminate.
Qed.
Example C115_choice_example : choose_config (fun n => String.eqb n "m/x.vrmconfig.json") "" "m/x.pmx" = "m/x.vrmconfig.json" /\ choose_config (fun _ => false) "" "m/x.PMX" = "mmd" /\ choose_config (fun _ => true) "a.json" "x.mqo" = "a.json".
Proof. repeat split. Qed.

(** A ball at the head and two links of hair; the configuration asks for nothing, the command line for physics. *)
Definition doc1 : vdoc Z string := mkVD [mkVN "Head" None [1]%nat; mkVN "Hair" None [2]%nat; mkVN "Tip" None []]
  [Some (true, [mkCS "SPHERE" (Some (mkV3 2 2 2)%Z) (Some (mkV3 0 1 0)%Z)]); Some (false, []); None] [mkVMesh true ["smile"; "frown"]] [] None [].
Definition conf_f : config Z string := mkConf "me" [] [] None false false false [] [] "".
Example C115_parts_example : length (vdBodies doc1) = length (vdNodes doc1) /\ NoDup (map vnName (vdNodes doc1)) /\
  option_map (fun r => (vdBodies (fst (fst r)), option_map (fun e => (map bgName (veMorphs e), veSprings e, veColliders e)) (vdExt (fst (fst r)))))
    (save_vrm string "" (fun _ => Some "") (fun _ => None) (fun _ => false) "/usr/bin" (fun _ => Some conf_f) (fun _ _ => false) (fun l => l) 9 true true "x.json" doc1) =
  Some ([None; None; None], Some (["smile"; "frown"], [[1%nat]], [([(2, mkV3 0 1 0)%Z], 0%nat)])).
Proof. split; [reflexivity|]. split; [repeat constructor; cbn; intuition discriminate|]. vm_compute. reflexivity. Qed.

(** A .vrm file saved again, to scale it for instance, loses its metadata and its bones: there is no configuration, and no error. *)
Theorem C115_again_refuted : exists d e d' e' miss, vdExt d = Some e /\ veMeta e = "author and licence" /\ In (mkHB "hips" 0 true) (veBones e) /\
  save0 (choose_config (fun _ => false) "" "model.vrm") d = Some (d', true, miss) /\ vdExt d' = Some e' /\ veMeta e' = "" /\ veBones e' = [].
Proof.
  exists (mkVD nodes0 [None; None; None; None] [] [] (Some (mkVE "author and licence" [mkHB "hips" 0 true] None [] [] [] [] true)) ["VRM"]).
  eexists. eexists. eexists. eexists. split; [reflexivity|]. split; [reflexivity|]. split; [now left|]. split; [vm_compute; reflexivity|]. repeat split.
Qed.
Print Assumptions C115_again_refuted.
(** A name that is misspelt is an empty configuration. *)
Theorem C115_unknown_refuted : exists d' e' miss, load0 "mdd" = None /\ save0 "mdd" doc0 = Some (d', true, miss) /\ vdExt d' = Some e' /\ veBones e' = [] /\ miss = required_bones.
Proof. eexists. eexists. eexists. split; [reflexivity|]. split; [vm_compute; reflexivity|]. repeat split. Qed.
Print Assumptions C115_unknown_refuted.
(** A configuration that names a preset with material settings, as all presets of the program are, and has none itself, crashes. *)
Theorem C115_crash_refuted : exists conf, load0 "b.json" = Some conf /\ preset_of load0 conf (Some conf_mmd) /\ save0 "b.json" doc0 = None.
Proof. eexists. split; [reflexivity|]. split; [split; [discriminate|reflexivity]|]. vm_compute. reflexivity. Qed.
Print Assumptions C115_crash_refuted.
(** The preset of a preset is not used, nor its wish to export all morphs. *)
Theorem C115_nested_refuted : exists conf d' e' miss, load0 "dir/c.json" = Some conf /\ preset_of load0 conf (Some conf_d) /\ preset_of load0 conf_d (Some conf_mmd) /\ cfAll conf_d = true /\
  save0 "dir/c.json" doc0 = Some (d', true, miss) /\ vdExt d' = Some e' /\ veBones e' = [] /\ veMorphs e' = [].
Proof. eexists. eexists. eexists. eexists. split; [reflexivity|]. split; [split; [discriminate|reflexivity]|]. split; [split; [discriminate|reflexivity]|]. split; [reflexivity|]. split; [vm_compute; reflexivity|]. repeat split. Qed.
Print Assumptions C115_nested_refuted.
(** A preset is not looked for beside the configuration that names it. *)
Theorem C115_beside_refuted : exists conf d' miss, load0 "dir/e.json" = Some conf /\ cfPreset conf = "base.json" /\ load0 "dir/base.json" <> None /\ save0 "dir/e.json" doc0 = Some (d', false, miss).
Proof. eexists. eexists. eexists. split; [reflexivity|]. split; [reflexivity|]. split; [discriminate|]. vm_compute. reflexivity. Qed.
Print Assumptions C115_beside_refuted.
(** With the same configuration again, the groups of spring bones are there twice. *)
Theorem C115_twice_refuted : exists d1 m1 d2 m2 e1 e2, save0 "a.json" doc0 = Some (d1, true, m1) /\ save0 "a.json" d1 = Some (d2, true, m2) /\ vdExt d1 = Some e1 /\ vdExt d2 = Some e2 /\
  veSprings e1 = [[3%nat]] /\ veSprings e2 = [[3%nat]; [3%nat]].
Proof. eexists. eexists. eexists. eexists. eexists. eexists. split; [vm_compute; reflexivity|]. split; [vm_compute; reflexivity|]. repeat split. Qed.
Print Assumptions C115_twice_refuted.
