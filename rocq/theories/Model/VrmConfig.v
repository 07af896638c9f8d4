(** [converter/vrmconfig.go] and [CheckRequiredBones] of [vrm/vrm.go].  Crashes and endless recursion of the Go program give [None]. *)
From Coq Require Import String Ascii List ZArith Bool.
From Verif.Model Require Import Num Vec MqoDoc.
Import ListNotations.
Local Open Scope list_scope.

(** The parts of [gltf.Node] used here. *)
Record vnode := mkVN { vnName : string; vnMesh : option nat; vnChildren : list nat }.
(** [nodeMap] (vrmconfig.go 313-316): the last node of a name wins. *)
Definition node_id (nodes : list vnode) (name : string) : option nat := last_index (fun n => String.eqb (vnName n) name) nodes.
Definition has_mesh (nodes : list vnode) (id : nat) : bool :=
  match nth_error nodes id with Some n => match vnMesh n with Some _ => true | None => false end | None => false end.

(** *** Humanoid bones *)

(** [BoneMapping] (vrmconfig.go 46-50); [bmLimits]: [Min], [Max] or [Center] is given, [bmOld] is the deprecated [NodeName]. *)
Record bmap := mkBM { bmBone : string; bmDefault : bool; bmLimits : bool; bmOld : string; bmNames : list string }.
(** [vrm.Bone] (vrm.go 81-90) without its limits. *)
Record hbone := mkHB { hbName : string; hbNode : nat; hbDefault : bool }.
(** [foundBones]: the newest entry first; -1 is an ignored bone. *)
Fixpoint found_at (m : list (string * Z)) (b : string) : option Z :=
  match m with [] => None | (k, v) :: r => if String.eqb k b then Some v else found_at r b end.

(** vrmconfig.go 149-152. *)
Definition mapping_names (m : bmap) : list string := if String.eqb (bmOld m) "" then bmNames m else bmNames m ++ [bmOld m].
(** The search for a node (vrmconfig.go 159-174). *)
Fixpoint pick_node (nodes : list vnode) (names : list string) : option nat :=
  match names with
  | [] => None
  | n :: r => match node_id nodes n with
              | Some id => if has_mesh nodes id then pick_node nodes r else Some id
              | None => pick_node nodes r
              end
  end.
(** vrmconfig.go 145-178. *)
Fixpoint map_bones (nodes : list vnode) (maps : list bmap) (found : list (string * Z)) (bones : list hbone) : list (string * Z) * list hbone :=
  match maps with
  | [] => (found, bones)
  | m :: r =>
      match found_at found (bmBone m) with
      | Some _ => map_bones nodes r found bones
      | None =>
          match mapping_names m with
          | [] => map_bones nodes r ((bmBone m, (-1)%Z) :: found) bones
          | names =>
              match pick_node nodes names with
              | Some id => map_bones nodes r ((bmBone m, Z.of_nat id) :: found) (bones ++ [mkHB (bmBone m) id (bmDefault m || negb (bmLimits m))])
              | None => map_bones nodes r found bones
              end
          end
      end
  end.
(** [RequiredBones] (vrm.go 14-20). *)
Definition required_bones : list string :=
  ["hips"; "spine"; "chest"; "neck"; "head"; "leftUpperArm"; "leftLowerArm"; "leftHand"; "rightUpperArm"; "rightLowerArm"; "rightHand";
   "leftUpperLeg"; "leftLowerLeg"; "leftFoot"; "rightUpperLeg"; "rightLowerLeg"; "rightFoot"]%string.
(** vrmconfig.go 363-370. *)
Definition fallback_bones (nodes : list vnode) (found : list (string * Z)) : list hbone :=
  flat_map (fun b => match found_at found b with
                     | Some _ => []
                     | None => match node_id nodes b with Some id => [mkHB b id true] | None => [] end
                     end) required_bones.
(** The bones [ApplyConfig] (vrmconfig.go 317-370) writes and [FirstPersonBone], if it sets [FirstPerson]. *)
Definition humanoid (nodes : list vnode) (maps : list bmap) : list hbone * option Z :=
  let '(found, bones) := map_bones nodes maps [] [] in
  (bones ++ fallback_bones nodes found, found_at found "head").
(** [CheckRequiredBones] (vrm.go 46-58). *)
Definition check_required (bones : list hbone) : list string :=
  filter (fun b => negb (existsb (fun h => String.eqb (hbName h) b) bones)) required_bones.

(** *** Spring bones *)

(** [findReursive] (vrmconfig.go 123-133); the name it returns is only logged. *)
Fixpoint find_rec (fuel : nat) (nodes : list vnode) (reg : list nat) (t : nat) : option bool :=
  match fuel with
  | O => None
  | S f =>
      if existsb (Nat.eqb t) reg then Some true
      else match nth_error nodes t with
           | None => None
           | Some n =>
               (fix go (cs : list nat) : option bool :=
                  match cs with
                  | [] => Some false
                  | c :: r => match find_rec f nodes reg c with
                              | Some true => Some true
                              | Some false => go r
                              | None => None
                              end
                  end) (vnChildren n)
           end
  end.
(** [registerReursive] (vrmconfig.go 135-140). *)
Fixpoint reg_rec (fuel : nat) (nodes : list vnode) (t : nat) (reg : list nat) : option (list nat) :=
  match fuel with
  | O => None
  | S f =>
      match nth_error nodes t with
      | None => None
      | Some n =>
          (fix go (cs : list nat) (reg : list nat) : option (list nat) :=
             match cs with
             | [] => Some reg
             | c :: r => match reg_rec f nodes c reg with Some reg1 => go r reg1 | None => None end
             end) (vnChildren n) (t :: reg)
      end
  end.

Section Match.
(** [path.Match], and the order in which Go visits a map. *)
Context (pmatch : string -> string -> bool) (order : list nat -> list nat).

Fixpoint has_char (c : Ascii.ascii) (s : string) : bool :=
  match s with EmptyString => false | String.String a r => Ascii.eqb a c || has_char c r end.
(** [matchNodeName] (vrmconfig.go 109-121). *)
Definition match_node_name (nodes : list vnode) (pattern : string) : list nat :=
  if has_char "*"%char pattern || has_char "?"%char pattern
  then order (filter (fun i => match nth_error nodes i with
                               | Some n => pmatch pattern (vnName n) && match node_id nodes (vnName n) with Some j => Nat.eqb i j | None => false end
                               | None => false
                               end) (seq 0 (length nodes)))
  else match node_id nodes pattern with Some id => [id] | None => [] end.

(** The inner loop (vrmconfig.go 212-223): registered nodes and the bones of the group. *)
Fixpoint spring_ids (fuel : nat) (nodes : list vnode) (ids : list nat) (reg bones : list nat) : option (list nat * list nat) :=
  match ids with
  | [] => Some (reg, bones)
  | n :: r =>
      if has_mesh nodes n then spring_ids fuel nodes r reg bones
      else match find_rec fuel nodes reg n with
           | None => None
           | Some true => spring_ids fuel nodes r reg bones
           | Some false => match reg_rec fuel nodes n reg with
                           | Some reg1 => spring_ids fuel nodes r reg1 (bones ++ [n])
                           | None => None
                           end
           end
  end.
(** vrmconfig.go 210-227. *)
Fixpoint spring_names (fuel : nat) (nodes : list vnode) (names : list string) (reg bones : list nat) : option (list nat * list nat) :=
  match names with
  | [] => Some (reg, bones)
  | p :: r => match spring_ids fuel nodes (match_node_name nodes p) reg bones with
              | Some (reg1, bones1) => spring_names fuel nodes r reg1 bones1
              | None => None
              end
  end.
(** vrmconfig.go 208-234: [groups] are the [Bones] and [NodeNames] of the groups of the config, the result is
    [SecondaryAnimation.BoneGroups], which starts as [old]. *)
Fixpoint spring_groups (fuel : nat) (nodes : list vnode) (groups : list (list nat * list string)) (reg : list nat) (out : list (list nat)) : option (list (list nat)) :=
  match groups with
  | [] => Some out
  | (bones0, names) :: r =>
      match spring_names fuel nodes names reg bones0 with
      | Some (reg1, bones) => spring_groups fuel nodes r reg1 (match bones with [] => out | _ => out ++ [bones] end)
      | None => None
      end
  end.
Definition apply_springs (fuel : nat) (nodes : list vnode) (groups : list (list nat * list string)) (old : list (list nat)) : option (list (list nat)) :=
  spring_groups fuel nodes groups [] old.
End Match.

(** A node for [DetectSpringBones]: the physics body says whether it is static. *)
Record pnode := mkPN { pnName : string; pnBody : option bool; pnChildren : list nat }.
Local Open Scope Z_scope.
(** [springLen] (vrmconfig.go 392-414). *)
Fixpoint spring_len (fuel : nat) (nodes : list pnode) (i : nat) : option Z :=
  match fuel with
  | O => None
  | S f =>
      match nth_error nodes i with
      | None => None
      | Some n =>
          match pnBody n with
          | None => Some (match pnChildren n with [] => 0 | _ => -1 end)
          | Some true => Some (-1)
          | Some false =>
              (fix go (cs : list nat) (l : Z) : option Z :=
                 match cs with
                 | [] => Some l
                 | c :: r => match spring_len f nodes c with
                             | None => None
                             | Some d => if d <? 0 then Some (-1) else go r (if l <=? d then d + 1 else l)
                             end
                 end) (pnChildren n) 1
          end
      end
  end.
(** [parents[i]] (vrmconfig.go 417-422); 0 for a node without parent. *)
Definition parent_or_0 (nodes : list pnode) (i : nat) : nat :=
  match last_index (fun n => existsb (Nat.eqb i) (pnChildren n)) nodes with Some p => p | None => 0%nat end.
(** The nodes whose names [DetectSpringBones] adds (vrmconfig.go 423-430). *)
Fixpoint detect (fuel : nat) (nodes : list pnode) (is_ : list nat) : option (list nat) :=
  match is_ with
  | [] => Some []
  | i :: r =>
      match spring_len fuel nodes i, (if match spring_len fuel nodes i with Some l => 0 <? l | None => false end then spring_len fuel nodes (parent_or_0 nodes i) else Some 0), detect fuel nodes r with
      | Some l, Some p, Some rest => Some (if (0 <? l) && (p <? 0) then i :: rest else rest)
      | _, _, _ => None
      end
  end.
Definition detect_springs (fuel : nat) (nodes : list pnode) : option (list nat) := detect fuel nodes (seq 0 (length nodes)).

(** The group it adds to the configuration (vrmconfig.go 431-443). *)
Definition detect_group (fuel : nat) (nodes : list pnode) : option (list (list nat * list string)) :=
  match detect_springs fuel nodes with
  | None => None
  | Some [] => Some []
  | Some l => Some [([], flat_map (fun i => match nth_error nodes i with Some n => [pnName n] | None => [] end) l)]
  end.

(** *** Colliders *)
Section Colliders.
Context {T : Type} {N : Num T}.
(** A shape of a [BlenderPhysicsBody]: its type, [offsetScale] and [offsetTranslation], if they are there. *)
Record cshape := mkCS { csType : string; csScale : option (vec3 T); csTrans : option (vec3 T) }.
(** A node with its physics body: whether it is static, and its shapes. *)
Record cnode := mkCN { cnName : string; cnBody : option (bool * list cshape) }.
(** Radius and offset of a [vrm.SecondaryAnimationCollider]. *)
Definition collider : Type := T * vec3 T.
(** vrmconfig.go 453-466. *)
Definition shape_collider (s : cshape) : list collider :=
  if String.eqb (csType s) "SPHERE" || String.eqb (csType s) "CAPSULE"
  then match csScale s with
       | Some sc => if neqb (vx sc) nzero then [] else [(vx sc, match csTrans s with Some p => p | None => mkV3 nzero nzero nzero end)]
       | None => []
       end
  else [].
(** [ConvertColliders] (vrmconfig.go 446-477): the colliders and the name of the node. *)
Definition convert_colliders (nodes : list cnode) : list (list collider * string) :=
  flat_map (fun n => match cnBody n with
                     | Some (true, shapes) => match flat_map shape_collider shapes with [] => [] | l => [(l, cnName n)] end
                     | _ => []
                     end) nodes.
(** Their use (vrmconfig.go 236-248): [names] are the names of the nodes. *)
Definition apply_colliders (names : list string) (groups : list (list collider * string)) : list (list collider * nat) :=
  flat_map (fun g => match last_index (fun n => String.eqb n (snd g)) names with Some id => [(fst g, id)] | None => [] end) groups.
End Colliders.
Arguments cshape : clear implicits.
Arguments cnode : clear implicits.
Arguments collider : clear implicits.

(** *** Materials *)
Section Materials.
Context {T : Type} {N : Num T}.

(** [MaterialSetting] (vrmconfig.go 61-65). *)
Record msetting := mkMS { msUnlit : bool; msAlphaMode : string; msAlpha : T }.
(** [gltf.Material]: name, names of the extensions, alpha mode (0 opaque, 1 mask, 2 blend), and the base colour of the PBR part, both of
    which may be missing. *)
Record vmat := mkVM { vmName : string; vmExt : list string; vmAlpha : Z; vmPbr : option (option (vec4 T)) }.
Fixpoint setting_at (m : list (string * msetting)) (k : string) : option msetting :=
  match m with [] => None | (n, s) :: r => if String.eqb n k then Some s else setting_at r k end.
(** The merge of [MaterialSettings] (vrmconfig.go 98-102); [None] inside is a nil map. *)
Definition merge_settings (c : option (list (string * msetting))) (p : list (string * msetting)) : option (option (list (string * msetting))) :=
  match c with
  | None => match p with [] => Some None | _ => None end
  | Some l => Some (Some (fold_left (fun l e => match setting_at l (fst e) with Some _ => l | None => l ++ [e] end) p l))
  end.
(** One material (vrmconfig.go 183-204). *)
Definition apply_setting (settings : list (string * msetting)) (m : vmat) : option vmat :=
  match (match setting_at settings (vmName m) with Some s => Some s | None => setting_at settings "*" end) with
  | None => Some m
  | Some s =>
      let ext := if msUnlit s then ["KHR_materials_unlit"%string] else vmExt m in
      let alpha := if String.eqb (msAlphaMode s) "blend" then 2 else if String.eqb (msAlphaMode s) "mask" then 1 else if String.eqb (msAlphaMode s) "opaque" then 0 else vmAlpha m in
      if nltb nzero (msAlpha s)
      then match vmPbr m with
           | None => Some (mkVM (vmName m) ext alpha None)
           | Some None => None
           | Some (Some c) => Some (mkVM (vmName m) ext alpha (Some (Some (mkV4 (qx c) (qy c) (qz c) (msAlpha s)))))
           end
      else Some (mkVM (vmName m) ext alpha (vmPbr m))
  end.
End Materials.
Arguments msetting : clear implicits.
Arguments vmat : clear implicits.

(** *** Morphs *)

(** [gltf.Mesh]: its target names; [vmeTyped]: stored as [[]string], as this program does, and not as [[]interface{}], as the JSON decoder does. *)
Record vmesh := mkVMesh { vmeTyped : bool; vmeTargets : list string }.
(** [MorphMapping] (vrmconfig.go 52-59); [mmValues] is the number of [MaterialValues]. *)
Record mmap := mkMM { mmName : string; mmNode : string; mmTarget : string; mmIndex : Z; mmValues : nat }.
(** [vrm.BlendShapeGroup]; a bind is a mesh and an index, the weight is always 100. *)
Record bgroup := mkBG { bgName : string; bgPreset : string; bgBinds : list (nat * Z); bgValues : nat }.
Definition mesh_names (m : vmesh) : list string := if vmeTyped m then vmeTargets m else [].
(** All targets, in order. *)
Definition all_targets (meshes : list vmesh) : list (string * (nat * Z)) :=
  flat_map (fun p => map (fun q => (snd q, (fst p, Z.of_nat (fst q)))) (combine (seq 0 (length (mesh_names (snd p)))) (mesh_names (snd p)))) (combine (seq 0 (length meshes)) meshes).
(** [targets[name]] (vrmconfig.go 249-258). *)
Definition target_at (meshes : list vmesh) (name : string) : option (nat * Z) :=
  match last_index (fun e => String.eqb (fst e) name) (all_targets meshes) with
  | Some i => option_map snd (nth_error (all_targets meshes) i)
  | None => None
  end.
(** One mapping (vrmconfig.go 260-296); the result is a group and an entry of [blendShapeMap]. *)
Definition map_morph (nodes : list vnode) (meshes : list vmesh) (m : mmap) : option (list bgroup * list (nat * Z)) :=
  if negb (String.eqb (mmTarget m) "")
  then match target_at meshes (mmTarget m) with
       | Some t => Some ([mkBG (mmName m) (mmName m) [t] (mmValues m)], [t])
       | None => Some (match mmValues m with O => [] | _ => [mkBG (mmName m) (mmName m) [] (mmValues m)] end, [])
       end
  else match node_id nodes (mmNode m) with
       | Some id => match nth_error nodes id with
                    | Some n => match vnMesh n with
                                | Some mesh => Some ([mkBG (mmName m) (mmName m) [(mesh, mmIndex m)] 0%nat], [(mesh, mmIndex m)])
                                | None => None
                                end
                    | None => None
                    end
       | None => Some ([], [])
       end.
Fixpoint map_morphs (nodes : list vnode) (meshes : list vmesh) (maps : list mmap) : option (list bgroup * list (nat * Z)) :=
  match maps with
  | [] => Some ([], [])
  | m :: r => match map_morph nodes meshes m, map_morphs nodes meshes r with
              | Some (g, u), Some (gs, us) => Some (g ++ gs, u ++ us)
              | _, _ => None
              end
  end.
Definition bind_eqb (a b : nat * Z) : bool := Nat.eqb (fst a) (fst b) && (snd a =? snd b).
(** [ExportAllMorph] (vrmconfig.go 332-353). *)
Definition rest_morphs (meshes : list vmesh) (used : list (nat * Z)) : list bgroup :=
  flat_map (fun e => if existsb (bind_eqb (snd e)) used then [] else [mkBG (fst e) "" [snd e] 0%nat]) (all_targets meshes).
(** The blend shape groups added. *)
Definition apply_morphs (all : bool) (nodes : list vnode) (meshes : list vmesh) (maps : list mmap) : option (list bgroup) :=
  match map_morphs nodes meshes maps with
  | Some (gs, used) => Some (gs ++ (if all then rest_morphs meshes used else []))
  | None => None
  end.
