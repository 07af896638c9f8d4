(** Saving a .vrm file: the choice of the configuration ([cmd/modelconv/main.go] 185-199), [saveGltfDocument] (main.go 93-113), [LoadVRMConfig], [MergePreset],
    [ApplyConfig] and [ApplyVRMConfig] of [converter/vrmconfig.go], [VRM] and [ValidateBones] of [vrm/vrm_extension.go].  The steps are those of VrmConfig.v.
    Left out: the buffers and images (GltfPack.v), the joints (GltfUtil.v), and the texts of the log. *)
From Coq Require Import String Ascii List ZArith Bool.
From Verif.Model Require Import Num Vec MqoDoc Cli VrmConfig.
Import ListNotations.
Local Open Scope string_scope.
Local Open Scope list_scope.

Section Save.
Context {T : Type} {N : Num T}.
(** [vrm.Metadata] (vrm.go 61-78), of any kind; [meta0] is the empty one. *)
Variable M : Type.
Variable meta0 : M.

(** [Config] (vrmconfig.go 18-33); of a group of spring bones there are [Bones] and [NodeNames], of a group of colliders the colliders and [NodeName]. *)
Record config := mkConf { cfMeta : M; cfBones : list bmap; cfMorphs : list mmap; cfMats : option (list (string * msetting T));
  cfAll : bool; cfColl : bool; cfSpring : bool; cfSprings : list (list nat * list string); cfColliders : list (list (collider T) * string); cfPreset : string }.
(** The empty [Config] (main.go 97). *)
Definition conf0 : config := mkConf meta0 [] [] None false false false [] [] "".
(** [VRM] (vrm.go 22-32): of [MaterialProperties] there are the names, of [FirstPerson] the bone; [veExporter]: written by this program. *)
Record vext := mkVE { veMeta : M; veBones : list hbone; veFirst : option Z; veMorphs : list bgroup; veSprings : list (list nat); veColliders : list (list (collider T) * nat);
  veMats : list string; veExporter : bool }.
(** The document: nodes, physics bodies of the nodes, meshes, materials, the extension and [ExtensionsUsed]. *)
Record vdoc := mkVD { vdNodes : list vnode; vdBodies : list (option (bool * list (cshape T))); vdMeshes : list vmesh; vdMats : list (vmat T); vdExt : option vext; vdUsed : list string }.

(** ** The configuration *)
(** Files by name; [embedded] are the presets in the program, [exec] is the directory of the program; [parse] is the JSON decoder. *)
Variables (read embedded : string -> option string) (there : string -> bool) (exec : string) (parse : string -> option config).
(** [LoadVRMConfig] (vrmconfig.go 69-95).  An error while reading a preset is lost (75-83 declare another [err]), but then there is no text to decode. *)
Definition load_config (name : string) : option config :=
  if has_char "." name || has_char "/" name
  then match read name with Some d => parse d | None => None end
  else let p := (exec ++ "/vrmconfig_presets/" ++ name ++ ".json")%string in
       match (if there p then read p else embedded ("vrmconfig_presets/" ++ name ++ ".json")%string) with
       | Some d => parse d
       | None => parse ""
       end.
(** Which configuration (main.go 185-199); [flag] is the value of -vrmconfig. *)
Definition choose_config (flag input : string) : string :=
  if negb (String.eqb flag "") then flag
  else let beside := (substring 0 (String.length input - String.length (ext input)) input ++ ".vrmconfig.json")%string in
       if there beside then beside
       else if is_mmd (lower (ext input)) then "mmd" else "".
(** [MergePreset] (vrmconfig.go 97-107); [None]: the assignment to a nil map crashes. *)
Definition merge_preset (c p : config) : option config :=
  match merge_settings (cfMats c) (match cfMats p with Some l => l | None => [] end) with
  | None => None
  | Some m => Some (mkConf (cfMeta c) (cfBones c ++ cfBones p) (cfMorphs c ++ cfMorphs p) m (cfAll c) (cfColl c) (cfSpring c) (cfSprings c ++ cfSprings p) (cfColliders c ++ cfColliders p) (cfPreset c))
  end.

(** ** The document *)
(** [IsExtentionUsed] (vrm_extension.go 42-49) and adding a name. *)
Definition add_used (name : string) (l : list string) : list string := if existsb (String.eqb name) l then l else l ++ [name].
(** [VRM] (vrm_extension.go 27-40): the extension and the used ones. *)
Definition get_ext (d : vdoc) : vext * list string :=
  match vdExt d with
  | Some e => (e, vdUsed d)
  | None => (mkVE meta0 [] None [] [] [] [] false, add_used "VRM" (vdUsed d))
  end.
Fixpoint apply_settings (l : list (string * msetting T)) (ms : list (vmat T)) : option (list (vmat T)) :=
  match ms with
  | [] => Some []
  | m :: r => match apply_setting l m, apply_settings l r with Some m', Some r' => Some (m' :: r') | _, _ => None end
  end.
(** Whether a material is made unlit (vrmconfig.go 183-193). *)
Definition unlit_by (l : list (string * msetting T)) (m : vmat T) : bool :=
  match (match setting_at l (vmName m) with Some s => Some s | None => setting_at l "*" end) with Some s => msUnlit s | None => false end.

Variables (pmatch : string -> string -> bool) (order : list nat -> list nat) (fuel : nat).
(** [ApplyConfig] (vrmconfig.go 300-373) with [applyConfigInternal] (142-298): the document and whether there was no error; [None]: a crash.  If the preset cannot be
    loaded, the bones are already gone. *)
Definition apply_config (d : vdoc) (conf : config) : option (vdoc * bool) :=
  let '(e0, used0) := get_ext d in
  let mats0 := if Nat.eqb (length (veMats e0)) (length (vdMats d)) then veMats e0 else map vmName (vdMats d) in
  match (if String.eqb (cfPreset conf) "" then Some (Some conf)
         else match load_config (cfPreset conf) with
              | None => Some None
              | Some p => match merge_preset conf p with None => None | Some c => Some (Some c) end
              end) with
  | None => None
  | Some None => Some (mkVD (vdNodes d) (vdBodies d) (vdMeshes d) (vdMats d)
                         (Some (mkVE (cfMeta conf) [] (veFirst e0) (veMorphs e0) (veSprings e0) (veColliders e0) mats0 true)) used0, false)
  | Some (Some c) =>
      let settings := match cfMats c with Some l => l | None => [] end in
      let '(bones, head) := humanoid (vdNodes d) (cfBones c) in
      match apply_settings settings (vdMats d), apply_springs pmatch order fuel (vdNodes d) (cfSprings c) (veSprings e0), apply_morphs (cfAll c) (vdNodes d) (vdMeshes d) (cfMorphs c) with
      | Some mats, Some springs, Some morphs =>
          Some (mkVD (vdNodes d) (vdBodies d) (vdMeshes d) mats
                  (Some (mkVE (cfMeta c) bones (match veFirst e0 with Some f => Some f | None => head end) (veMorphs e0 ++ morphs) springs
                           (veColliders e0 ++ apply_colliders (map vnName (vdNodes d)) (cfColliders c)) mats0 true))
                  (if existsb (unlit_by settings) (vdMats d) then add_used "KHR_materials_unlit" used0 else used0), true)
      | _, _, _ => None
      end
  end.
(** The nodes as the detection of physics sees them. *)
Definition spring_nodes (d : vdoc) : list pnode :=
  map (fun x => mkPN (vnName (fst x)) (option_map fst (snd x)) (vnChildren (fst x))) (combine (vdNodes d) (vdBodies d)).
Definition collider_nodes (d : vdoc) : list (cnode T) := map (fun x => mkCN (vnName (fst x)) (snd x)) (combine (vdNodes d) (vdBodies d)).
(** [ApplyVRMConfig] (vrmconfig.go 479-493); the physics bodies are removed. *)
Definition apply_vrm_config (d : vdoc) (conf : config) : option (vdoc * bool) :=
  match (if cfSpring conf then detect_group fuel (spring_nodes d) else Some []) with
  | None => None
  | Some g =>
      let c := mkConf (cfMeta conf) (cfBones conf) (cfMorphs conf) (cfMats conf) (cfAll conf) (cfColl conf) (cfSpring conf) (cfSprings conf ++ g)
                 (cfColliders conf ++ (if cfColl conf then convert_colliders (collider_nodes d) else [])) (cfPreset conf) in
      apply_config (mkVD (vdNodes d) (map (fun _ => None) (vdBodies d)) (vdMeshes d) (vdMats d) (vdExt d) (vdUsed d)) c
  end.
(** [saveGltfDocument] for .vrm (main.go 93-113): what is written, whether there was no error, and the missing bones that are logged; the file is written in any case. *)
Definition save_vrm (physics all : bool) (name : string) (d : vdoc) : option (vdoc * bool * list string) :=
  let conf := match load_config name with Some c => c | None => conf0 end in
  let c := mkConf (cfMeta conf) (cfBones conf) (cfMorphs conf) (cfMats conf) (cfAll conf || all) (cfColl conf || physics) (cfSpring conf || physics) (cfSprings conf) (cfColliders conf) (cfPreset conf) in
  match apply_vrm_config d c with
  | None => None
  | Some (d', ok) => Some (d', ok, check_required (veBones (fst (get_ext d'))))
  end.
End Save.
Arguments config : clear implicits.
Arguments vext : clear implicits.
Arguments vdoc : clear implicits.
Arguments mkConf {T M}.
Arguments mkVE {T M}.
Arguments mkVD {T M}.
Arguments cfMeta {T M}.
Arguments cfBones {T M}.
Arguments cfMorphs {T M}.
Arguments cfMats {T M}.
Arguments cfAll {T M}.
Arguments cfColl {T M}.
Arguments cfSpring {T M}.
Arguments cfSprings {T M}.
Arguments cfColliders {T M}.
Arguments cfPreset {T M}.
Arguments veMeta {T M}.
Arguments veBones {T M}.
Arguments veFirst {T M}.
Arguments veMorphs {T M}.
Arguments veSprings {T M}.
Arguments veColliders {T M}.
Arguments veMats {T M}.
Arguments veExporter {T M}.
Arguments vdNodes {T M}.
Arguments vdBodies {T M}.
Arguments vdMeshes {T M}.
Arguments vdMats {T M}.
Arguments vdExt {T M}.
Arguments vdUsed {T M}.
