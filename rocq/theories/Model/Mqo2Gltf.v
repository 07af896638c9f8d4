(** [converter/mqo2gltf.go]: MQO to glTF, without textures, physics bodies, lights and shared
    geometry (the options ConvertPhysics, ExportLights and ReuseGeometry are off).  Crashes of
    the Go program (nil pointers, out-of-range indices) give [None]. *)
From Coq Require Import String List ZArith Bool.
From Verif.Model Require Import Num Vec Matrix Triangulate Mqo MqoDoc Mmd2Mqo Normals Mqo2Mmd Gltf.
Import ListNotations.
Local Open Scope Z_scope.
Local Open Scope list_scope.

(** *** The node graph *)

(** [Scenes[0].Nodes] and the [Children] lists: an edge (parent, child) for every child, in the
    order in which they were appended. *)
Record graph := mkGraph { grRoots : list nat; grEdges : list (nat * nat) }.
Definition add_root (g : graph) (i : nat) : graph := mkGraph (grRoots g ++ [i]) (grEdges g).
Definition add_edge (g : graph) (p i : nat) : graph := mkGraph (grRoots g) (grEdges g ++ [(p, i)]).
Definition children (g : graph) (p : nat) : list nat := map snd (filter (fun e => Nat.eqb (fst e) p) (grEdges g)).

(** [nodePath] (mqo2gltf.go 875-888).  An object is its depth and whether its node has the
    default matrix, which is false for lights and shared geometry only.  [None]: a negative
    depth is a slice bounds panic. *)
Fixpoint place (ignore : bool) (i : nat) (l : list (Z * bool)) (path : list nat) (g : graph) : option graph :=
  match l with
  | [] => Some g
  | (depth, plain) :: r =>
      if depth <? 0 then None
      else
        let path1 := if depth <? Z.of_nat (length path) then firstn (Z.to_nat depth) path else path in
        let g1 := match (if ignore then None else nth_error (rev path1) 0) with
                  | Some p => add_edge g p i
                  | None => add_root g i
                  end in
        place ignore (S i) r (if plain then path1 ++ [i] else path1) g1
  end.

Section Convert.
Context {T : Type} {N : Num T}.
(** [Scale], the constant 0.01, [TextureUVEpsilon], and the options used. *)
Variables (scale centi eps : T) (ignore_hierarchy force_unlit : bool).

(** *** Bones *)

(** [idmap] (mqo2gltf.go 181-189): the node of a bone id; the last bone of an id wins. *)
Definition bone_node (base : nat) (bones : list (bone T)) (id : Z) : option nat :=
  option_map (fun i => (base + i)%nat) (bone_by_id bones id).

Definition v3scaled (v : vec3 T) : vec3 T := mkV3 (nmul (vx v) scale) (nmul (vy v) scale) (nmul (vz v) scale).

(** The second loop of [addBoneNodes] (mqo2gltf.go 191-206); [ts] are the translations of the
    bone nodes.  [None]: the parent does not exist. *)
Fixpoint link_joints (base : nat) (bones l : list (bone T)) (ts : list (vec3 T)) (g : graph) : option (list (vec3 T) * graph) :=
  match l with
  | [] => Some (ts, g)
  | b :: r =>
      match bone_by_id bones (bID b) with
      | None => None
      | Some i =>
          if 0 <? bParent b
          then match bone_by_id bones (bParent b) with
               | None => None
               | Some p =>
                   match nth_error bones p with
                   | None => None
                   | Some pb => link_joints base bones r (list_set ts i (v3scaled (v3sub (bPos b) (bPos pb))))
                                  (add_edge g (base + p) (base + i))
                   end
               end
          else link_joints base bones r (list_set ts i (v3scaled (bPos b))) (add_root g (base + i))
      end
  end.
(** [addBoneNodes] (mqo2gltf.go 179-208) with [base] nodes before. *)
Definition add_bone_nodes (base : nat) (bones : list (bone T)) (g : graph) : option (list (vec3 T) * graph) :=
  link_joints base bones bones (repeat v3zero (length bones)) g.

(** *** Weights *)

(** [njoint], [joints0] and [weights0] of one vertex. *)
Record infl := mkInfl { ifN : nat; ifSlots : slots T }.
Definition infl0 : infl := mkInfl 0 (repeat (0, nzero) 4).

(** The search for the smallest weight (mqo2gltf.go 243-249). *)
Fixpoint min_slot (i : nat) (l : slots T) (least : T) (best : option nat) : option nat :=
  match l with
  | [] => best
  | (_, w) :: r => if nltb w least then min_slot (S i) r w (Some i) else min_slot (S i) r least best
  end.
(** mqo2gltf.go 239-258. *)
Definition put_weight (joint : Z) (w : T) (s : infl) : infl :=
  if (ifN s <? 4)%nat then mkInfl (S (ifN s)) (list_set (ifSlots s) (ifN s) (joint, w))
  else match min_slot 0 (ifSlots s) w None with
       | Some i => mkInfl (S (ifN s)) (list_set (ifSlots s) i (joint, w))
       | None => mkInfl (S (ifN s)) (ifSlots s)
       end.
(** mqo2gltf.go 262-273. *)
Definition renorm (s : infl) : infl :=
  if (4 <? ifN s)%nat
  then let sum := fold_left nadd (map snd (ifSlots s)) nzero in
       if nltb nzero sum then mkInfl (ifN s) (map (fun e => (fst e, ndiv (snd e) sum)) (ifSlots s)) else s
  else s.

(** One loop over the entries of a weight list; [None]: a vertex that does not exist. *)
Fixpoint each_vertex (o : object T) (act : T -> infl -> infl) (l : list (Z * T)) (st : list infl) : option (list infl) :=
  match l with
  | [] => Some st
  | (vid, w) :: r =>
      let v := get_vertex_index_by_id o vid in
      match zidx st v with
      | None => None
      | Some s => each_vertex o act r (list_set st (Z.to_nat v) (act w s))
      end
  end.
(** The weight lists of all bones for the object, as (bone id, entries). *)
Definition weight_lists (o : object T) (bones : list (bone T)) : list (Z * list (Z * T)) :=
  flat_map (fun b => map (fun bw => (bID b, snd bw)) (filter (fun bw => fst bw =? oUID o) (bWeights b))) bones.
(** [getWeights] (mqo2gltf.go 219-279): [ids] are the bones of [jointIds]; joint numbers are
    uint16. *)
Fixpoint weights_loop (o : object T) (l : list (Z * list (Z * T))) (ids : list Z) (st : list infl) : option (list Z * list infl) :=
  match l with
  | [] => Some (ids, st)
  | (b, entries) :: r =>
      let ids1 := ids ++ [b] in
      let joint := (Z.of_nat (length ids1) - 1) mod 2 ^ 16 in
      match each_vertex o (fun w => put_weight joint (nmul w centi)) entries st with
      | None => None
      | Some st1 =>
          match each_vertex o (fun _ => renorm) entries st1 with
          | None => None
          | Some st2 => weights_loop o r ids1 st2
          end
      end
  end.
Definition get_weights (o : object T) (bones : list (bone T)) : option (list Z * list infl) :=
  weights_loop o (weight_lists o bones) [] (repeat infl0 (length (oVerts o))).

(** *** Meshes *)

(** The growing arrays of [ConvertObject] (mqo2gltf.go 591-605).  [csMap] is [indicesMap] as a
    list of pairs; [csPrims] is [indices], in the order of [materials]. *)
Record cstate := mkCS {
  csVerts : list (vec3 T); csSrc : list Z; csUV : list (vec2 T); csNormals : list (vec3 T);
  csSkin : list infl; csMap : list (Z * Z); csUseUV : bool; csPrims : list (Z * list Z) }.

Definition v2lensqr (a : vec2 T) : T := nadd (nmul (v2x a) (v2x a)) (nmul (v2y a) (v2y a)).
(** mqo2gltf.go 629-635: the last of the assigned vertices with close texture coordinates. *)
Fixpoint find_uv (uvs : list (vec2 T)) (u : vec2 T) (l : list Z) (best : option Z) : option (option Z) :=
  match l with
  | [] => Some best
  | v :: r =>
      match zidx uvs v with
      | None => None
      | Some t => find_uv uvs u r (if nltb (v2lensqr (v2sub u t)) eps then Some v else best)
      end
  end.
(** Assigning vertex [id] to a corner of [index] (mqo2gltf.go 649-651). *)
Definition assign (index id : Z) (u : vec2 T) (n : option (vec3 T)) (st : cstate) : option cstate :=
  match zidx (csUV st) id, zidx (csNormals st) id, n with
  | Some _, Some _, Some n =>
      Some (mkCS (csVerts st) (csSrc st) (list_set (csUV st) (Z.to_nat id) u) (list_set (csNormals st) (Z.to_nat id) n)
                 (csSkin st) (csMap st ++ [(index, id)]) (csUseUV st) (csPrims st))
  | _, _, _ => None
  end.
(** A copy of vertex [index] (mqo2gltf.go 639-647); [skinned] is [len(joints) > 0]. *)
Definition new_vertex (skinned : bool) (index : Z) (st : cstate) : option cstate :=
  match zidx (csVerts st) index with
  | None => None
  | Some p =>
      match (if skinned then option_map (fun s => csSkin st ++ [s]) (zidx (csSkin st) index) else Some (csSkin st)) with
      | None => None
      | Some sk => Some (mkCS (csVerts st ++ [p]) (csSrc st ++ [index]) (csUV st ++ [v2zero]) (csNormals st ++ [v3zero])
                              sk (csMap st) (csUseUV st) (csPrims st))
      end
  end.
(** One corner of a face with texture coordinates (mqo2gltf.go 625-653). *)
Definition uv_corner (skinned : bool) (f : face T) (i : nat) (index : Z) (st : cstate) : option (Z * cstate) :=
  match nth_error (fNormals f) i, nth_error (fUVs f) i with
  | Some n, Some u =>
      match vm_get (csMap st) index with
      | [] => option_map (pair index) (assign index index u n st)
      | assigned =>
          match find_uv (csUV st) u assigned None with
          | None => None
          | Some (Some v) => Some (v, st)
          | Some None =>
              match new_vertex skinned index st with
              | None => None
              | Some st1 => let id := Z.of_nat (length (csVerts st)) in option_map (pair id) (assign index id u n st1)
              end
          end
      end
  | _, _ => None
  end.
(** One corner of a face without (mqo2gltf.go 655-657). *)
Definition plain_corner (f : face T) (i : nat) (index : Z) (st : cstate) : option (Z * cstate) :=
  match nth_error (fNormals f) i, zidx (csNormals st) index with
  | Some (Some n), Some _ =>
      Some (index, mkCS (csVerts st) (csSrc st) (csUV st) (list_set (csNormals st) (Z.to_nat index) n)
                        (csSkin st) (csMap st) (csUseUV st) (csPrims st))
  | _, _ => None
  end.
Fixpoint corners (act : nat -> Z -> cstate -> option (Z * cstate)) (i : nat) (l : list Z) (st : cstate) : option (list Z * cstate) :=
  match l with
  | [] => Some ([], st)
  | v :: r =>
      match act i v st with
      | None => None
      | Some (id, st1) =>
          match corners act (S i) r st1 with
          | None => None
          | Some (ids, st2) => Some (id :: ids, st2)
          end
      end
  end.

(** mqo2gltf.go 659-662. *)
Fixpoint add_triangle (l : list (Z * list Z)) (mat : Z) (t : list Z) : list (Z * list Z) :=
  match l with
  | [] => [(mat, t)]
  | (m, is_) :: r => if m =? mat then (m, is_ ++ t) :: r else (m, is_) :: add_triangle r mat t
  end.
Definition set_use_uv (st : cstate) (b : bool) : cstate :=
  mkCS (csVerts st) (csSrc st) (csUV st) (csNormals st) (csSkin st) (csMap st) b (csPrims st).
Definition set_prims (st : cstate) (l : list (Z * list Z)) : cstate :=
  mkCS (csVerts st) (csSrc st) (csUV st) (csNormals st) (csSkin st) (csMap st) (csUseUV st) l.
(** One face (mqo2gltf.go 606-663). *)
Definition conv_face (mmap : Z -> option Z) (skinned : bool) (f : face T) (st : cstate) : option cstate :=
  if (length (fVerts f) <? 3)%nat then Some st
  else match mmap (fMaterial f) with
       | None => Some st
       | Some mat =>
           match (match fUVs f with
                  | [] => corners (plain_corner f) 0 (fVerts f) st
                  | _ => corners (uv_corner skinned f) 0 (fVerts f) (set_use_uv st true)
                  end) with
           | Some (a :: b :: c :: _, st1) => Some (set_prims st1 (add_triangle (csPrims st1) mat [c; b; a]))
           | _ => None
           end
       end.
Fixpoint conv_gfaces (mmap : Z -> option Z) (skinned : bool) (fs : list (face T)) (st : cstate) : option cstate :=
  match fs with
  | [] => Some st
  | f :: r => match conv_face mmap skinned f st with Some st1 => conv_gfaces mmap skinned r st1 | None => None end
  end.

(** The offsets of a morph target (mqo2gltf.go 700-705); [None]: an index out of range. *)
Definition target_offset (verts tv : list (vec3 T)) (i : Z) : option (vec3 T) :=
  match zidx tv i, zidx verts i with
  | Some v, Some p => Some (v3sub (v3scaled v) p)
  | _, _ => None
  end.

(** [ConvertObject] (mqo2gltf.go 585-737): the mesh and the joints. *)
Definition convert_object (o : object T) (bones : list (bone T)) (node_of : Z -> option nat)
  (morphs : list (object T)) (mmap : Z -> option Z) : option (gmesh T * list nat) :=
  match fixh_normals o with
  | None => None
  | Some o1 =>
      match triangulate_object o1 with
      | None => None
      | Some o2 =>
          match get_weights o2 bones with
          | None => None
          | Some (ids, inf) =>
              let skinned := negb (Nat.eqb (length ids) 0) in
              let vs := map v3scaled (oVerts o2) in
              match conv_gfaces mmap skinned (oFaces o2)
                      (mkCS vs (map Z.of_nat (seq 0 (length vs))) (repeat v2zero (length vs)) (repeat v3zero (length vs))
                            (if skinned then inf else []) [] false []) with
              | None => None
              | Some st =>
                  match all_some (fun m => all_some (target_offset (csVerts st) (oVerts m)) (csSrc st)) morphs, all_some node_of ids with
                  | Some targets, Some joints =>
                      let has := match csVerts st with [] => false | _ => true end in
                      let pos := if has then Some (csVerts st) else None in
                      let uv := if has && csUseUV st then Some (csUV st) else None in
                      let nrm := if has && (0 <? oShading o) && negb force_unlit then Some (csNormals st) else None in
                      let skin := if skinned then Some (map ifSlots (csSkin st)) else None in
                      Some (mkMesh (oName o) (map (fun p => mkPrim pos uv nrm skin targets (Some (snd p)) (Some (fst p))) (csPrims st))
                                   (map (@oName T) morphs), joints)
                  | _, _ => None
                  end
              end
          end
      end
  end.

(** *** Materials *)

(** [checkMaterials] and the used materials (mqo2gltf.go 739-743, 764-772). *)
Definition material_used (os : list (object T)) (i : Z) : bool :=
  existsb (fun o => oVisible o && existsb (fun f => fMaterial f =? i) (oFaces o)) os.
(** [strings.HasSuffix]. *)
Definition has_suffix (suf s : string) : bool :=
  let n := String.length s in let k := String.length suf in
  (k <=? n)%nat && String.eqb (substring (n - k) k s) suf.
(** mqo2gltf.go 776-780. *)
Definition material_kept (os : list (object T)) (i : Z) (name : string) : bool :=
  material_used os i && negb (has_suffix "$IGNORE" name) && negb (String.prefix "$MORPH:" name).
(** [materialMap] (mqo2gltf.go 774-784) as a list of pairs. *)
Fixpoint material_map (os : list (object T)) (i k : Z) (names : list string) : list (Z * Z) :=
  match names with
  | [] => []
  | nm :: r => if material_kept os i nm then (i, k) :: material_map os (i + 1) (k + 1) r else material_map os (i + 1) k r
  end.

(** [GetShaderName] (mqo/mqo.go 135-152). *)
Definition shader_name (m : material T) : string :=
  match mtEx2 m with
  | Some e => exName e
  | None => nth (Z.to_nat (mtShader m)) ["Classic"; "Constant"; "Lambert"; "Phong"; "Blinn"]%string ""%string
  end.
(** [FloatParam], [IntParam], [BoolParam] (mqo/mqo.go 191-213). *)
Fixpoint param_of (l : list (string * param T)) (k : string) : option (param T) :=
  match l with [] => None | (k', p) :: r => if String.eqb k' k then Some p else param_of r k end.
Definition float_param (e : matex2 T) (k : string) : T := match param_of (exParams e) k with Some (PFloat x) => x | _ => nzero end.
Definition int_param (e : matex2 T) (k : string) : Z := match param_of (exParams e) k with Some (PInt z) => z | _ => 0 end.
Definition bool_param (e : matex2 T) (k : string) : bool := match param_of (exParams e) k with Some (PBool b) => b | _ => false end.

Definition nmax (a b : T) : T := if nltb b a then a else b.
(** The emissive factor (mqo2gltf.go 447-459); [nmax] is geom.Max. *)
Definition emissive (m : material T) : vec3 T :=
  let c := match mtEmissionColor m with
           | Some c => c
           | None => if nltb nzero (mtEmission m) then mkV3 (mtEmission m) (mtEmission m) (mtEmission m) else v3zero
           end in
  let s := nmax (nmax (vx c) (vy c)) (vz c) in
  if nltb none s then mkV3 (ndiv (vx c) s) (ndiv (vy c) s) (ndiv (vz c) s) else c.

(** [convertMaterial] (mqo2gltf.go 434-583) without textures and the extensions other than unlit;
    [opaque99] is 0.99, [rough] is 0.4 and [tex_alpha] tells whether the texture has alpha. *)
Definition convert_material (opaque99 rough : T) (tex_alpha : material T -> bool) (m : material T) : gmat T :=
  match mtEx2 m with
  | Some e =>
      if String.eqb (exName e) "glTF"
      then let mf := float_param e "Metallic" in
           let rf := float_param e "Roughness" in
           mkGMat (mtName m) (mtColor m) mf rf (emissive m) (mtDouble m)
             (let a := int_param e "AlphaMode" in
              if a =? 2 then GMask (float_param e "AlphaCutOff") else if a =? 3 then GBlend else GOpaque)
             (bool_param e "Extensions.Unlit" || neqb mf nzero && neqb rf none || force_unlit)
      else mkGMat (mtName m) (mtColor m) (mtSpecular m) rough (emissive m) (mtDouble m)
             (if nltb (qw (mtColor m)) opaque99 || tex_alpha m then GBlend else GOpaque)
             (force_unlit || String.eqb (exName e) "Constant")
  | None => mkGMat (mtName m) (mtColor m) (mtSpecular m) rough (emissive m) (mtDouble m)
             (if nltb (qw (mtColor m)) opaque99 || tex_alpha m then GBlend else GOpaque)
             (force_unlit || String.eqb (shader_name m) "Constant")
  end.

(** *** The document *)

(** The morph targets of an object (mqo2gltf.go 821-832); [None]: the target does not exist. *)
Definition morph_objects (objs : list (object T)) (sets : list target_list) (o : object T) : option (list (object T)) :=
  option_map (filter (fun t => Nat.eqb (length (oVerts t)) (length (oVerts o))))
    (all_some (fun t => match last_index (fun x => String.eqb (oName x) t) objs with
                        | Some i => nth_error objs i | None => None end) (base_targets sets (oName o))).

(** [addSkin] (mqo2gltf.go 281-298); [bone_at] is [jointToBone]. *)
Definition inverse_bind (p : vec3 T) : mat4 T :=
  mat_translate (nmul (nopp (vx p)) scale) (nmul (nopp (vy p)) scale) (nmul (nopp (vz p)) scale).
Definition make_skin (bone_at : nat -> option (bone T)) (joints : list nat) : option (gskin T) :=
  option_map (fun inv => mkSkin joints inv None)
    (all_some (fun j => option_map (fun b => inverse_bind (bPos b)) (bone_at j)) joints).

(** The loop over the objects (mqo2gltf.go 820-875), except the node graph: nodes without
    children, meshes and skins. *)
Fixpoint conv_objects (objs : list (object T)) (sets : list target_list) (bones : list (bone T)) (base : nat)
  (mmap : Z -> option Z) (os : list (object T)) (ms : list (gmesh T)) (ss : list (gskin T))
  : option (list (gnode T) * list (gmesh T) * list (gskin T)) :=
  match os with
  | [] => Some ([], ms, ss)
  | o :: r =>
      match morph_objects objs sets o with
      | None => None
      | Some morphs =>
          let next n ms ss :=
            match conv_objects objs sets bones base mmap r ms ss with
            | Some (ns, ms', ss') => Some (n :: ns, ms', ss')
            | None => None
            end in
          if oVisible o
          then match convert_object o bones (bone_node base bones) morphs mmap with
               | None => None
               | Some (mesh, joints) =>
                   let drawn := negb (Nat.eqb (length (gmPrims mesh)) 0) in
                   let ms1 := if drawn then ms ++ [mesh] else ms in
                   let mi := if drawn then Some (length ms) else None in
                   if negb (Nat.eqb (length joints) 0)
                   then match make_skin (fun j => nth_error bones (j - base)) joints with
                        | None => None
                        | Some s => next (mkNode (oName o) v3zero [] mi (Some (length ss))) ms1 (ss ++ [s])
                        end
                   else next (mkNode (oName o) v3zero [] mi None) ms1 ss
               end
          else next (mkNode (oName o) v3zero [] None None) ms ss
      end
  end.

Definition with_children (g : graph) (p : nat * gnode T) : gnode T :=
  mkNode (gnName (snd p)) (gnTrans (snd p)) (children g (fst p)) (gnMesh (snd p)) (gnSkin (snd p)).
Definition numbered {A} (l : list A) : list (nat * A) := combine (seq 0 (length l)) l.

(** The exported objects (mqo2gltf.go 762-772). *)
Definition target_objects (sets : list target_list) (objs : list (object T)) : list (object T) :=
  filter (fun o => (negb ignore_hierarchy || oVisible o && negb (Nat.eqb (length (oFaces o)) 0)) &&
                   negb (is_target sets (oName o))) objs.

(** [Convert] (mqo2gltf.go 745-929). *)
Definition to_gltf (opaque99 rough : T) (tex_alpha : material T -> bool)
  (d : document T) (bones : list (bone T)) (sets : list target_list) : option (gdoc T) :=
  let objs := fix_ids 0 (dObjects d) in
  let os := target_objects sets objs in
  let mm := material_map os 0 0 (map (@mtName T) (dMaterials d)) in
  let base := length os in
  match add_bone_nodes base bones (mkGraph [] []) with
  | None => None
  | Some (ts, g0) =>
      match conv_objects objs sets bones base (assoc mm) os [] [],
            place ignore_hierarchy 0 (map (fun o => (oDepth o, true)) os) [] g0 with
      | Some (ns, ms, ss), Some g =>
          let bns := map (fun p => mkNode (bName (fst p)) (snd p) [] None None) (combine bones ts) in
          Some (mkGDoc (map (with_children g) (numbered (ns ++ bns))) (grRoots g) ms ss
                  (map (fun p => convert_material opaque99 rough tex_alpha (snd p))
                       (filter (fun p => match assoc mm (Z.of_nat (fst p)) with Some _ => true | None => false end)
                               (numbered (dMaterials d)))))
      | _, _ => None
      end
  end.
End Convert.
Arguments infl : clear implicits.
Arguments cstate : clear implicits.
