(** Transforming documents: mqo/utils.go, bone_plugin.go, physics_plugin.go, over exact reals (rotations are stored as angles). *)
From Coq Require Import String List ZArith Reals Bool.
From Verif.Model Require Import Num NumR Vec Matrix Euler Mqo MqoDoc.
Import ListNotations.
Local Open Scope R_scope.

(** mqo/physics_plugin.go:49-54 *)
Record pshape := mkPS { psType : string; psSize : vec3 R; psPos : vec3 R; psRot : vec3 R }.
(** mqo/physics_plugin.go:28-47, the parts used here. *)
Record pbody := mkPB { pbName : string; pbShapes : list pshape; pbBone : Z }.
(** mqo/physics_plugin.go:56-68 *)
Record pjoint := mkPJ { pjName : string; pjBody1 : Z; pjBody2 : Z; pjPos : vec3 R; pjRot : vec3 R; pjLin : vec3 R; pjAng : vec3 R }.
(** mqo/physics_plugin.go:10-16 *)
Record physics := mkPh { phBodies : list pbody; phJoints : list pjoint }.
(** mqo/mqo.go:15-21 with the bone, morph and physics plugins.  Bones, objects and shapes are pointers in the code; the same pointer is assumed not to be listed twice. *)
Record mdoc := mkMDoc { mdObjects : list (object R); mdBones : list (bone R); mdMorphs : list target_list; mdPhysics : option physics }.

Definition set_pos (b : bone R) (p : vec3 R) : bone R := mkBone (bID b) (bName b) (bParent b) p (bWeights b).
Definition set_trs (o : object R) (t r s : vec3 R) : object R :=
  mkObj (oUID o) (oName o) (oVerts o) (oFaces o) (oVisible o) (oLocked o) (oDepth o) (oFolding o) (oShading o) (oFacet o) (oPatch o)
        (oPatchSegment o) (oMirror o) (oMirrorDis o) (Some s) (Some r) (Some t) (oColor o) (oVertexByUID o) (oInternal o).

(** ** [Document.ApplyTransform], mqo/utils.go:31-41 *)

(** mqo/utils.go:33-34; [None]: a nil vector. *)
Definition transform_object (m : mat4 R) (o : object R) : option (object R) :=
  match oTranslation o, oRotation o, oScale o with
  | Some t, Some r, Some s =>
      let '(t', r', s') := set_local_transform (mat_mul m (get_local_transform t r s)) in
      Some (apply_transform m (set_trs o t' r' s'))
  | _, _, _ => None
  end.
(** mqo/bone_plugin.go:239-243 *)
Definition transform_bone (m : mat4 R) (b : bone R) : bone R := set_pos b (mat_apply m (bPos b)).
(** mqo/physics_plugin.go:93-102; geom.Abs is the absolute value. *)
Definition transform_shape (m : mat4 R) (s : pshape) : pshape :=
  let '(_, _, k) := mat_decompose m in
  mkPS (psType s) (mkV3 (Rabs (vx (psSize s) * vx k)) (Rabs (vy (psSize s) * vy k)) (Rabs (vz (psSize s) * vz k)))
       (mat_apply m (psPos s)) (psRot s).
Definition transform_physics (m : mat4 R) (p : physics) : physics :=
  mkPh (map (fun b => mkPB (pbName b) (map (transform_shape m) (pbShapes b)) (pbBone b)) (phBodies p)) (phJoints p).
Definition transform_doc (m : mat4 R) (d : mdoc) : option mdoc :=
  match all_some (transform_object m) (mdObjects d) with
  | None => None
  | Some os => Some (mkMDoc os (map (transform_bone m) (mdBones d)) (mdMorphs d) (option_map (transform_physics m) (mdPhysics d)))
  end.

(** ** [BoneTransform], mqo/bone_plugin.go:245-318.  The selection of the bones is [select_bones] (Model/MqoDoc.v); [boneFn] is left out, it changes no positions. *)

(** The objects of the morph targets of an object id, mqo/bone_plugin.go:262-274: ids of the targets by name, 0 for a missing one. *)
Definition uid_named (os : list (object R)) (name : string) : option Z :=
  match obj_by_name os name with Some i => option_map (@oUID R) (nth_error os i) | None => None end.
Definition morph_objs (os : list (object R)) (ms : list target_list) (id : Z) : list Z :=
  flat_map (fun m => match uid_named os (tlBase m) with
                     | Some u => if (u =? id)%Z then map (fun t => match uid_named os t with Some v => v | None => 0%Z end) (tlTargets m) else []
                     | None => []
                     end) ms.
(** What a bone adds to the weights of vertices, mqo/bone_plugin.go:279-292: object position, vertex position, weight. *)
Definition bone_parts (os : list (object R)) (ms : list target_list) (b : bone R) : list (nat * Z * R) :=
  flat_map (fun bw => flat_map (fun id =>
      match index_of_uid os id with
      | None => []
      | Some oi => match nth_error os oi with
                   | None => []
                   | Some o => map (fun vw => (oi, get_vertex_index_by_id o (fst vw), snd vw / 100)) (snd bw)
                   end
      end) (morph_objs os ms (fst bw) ++ [fst bw])) (bWeights b).
Definition part_ok (os : list (object R)) (p : nat * Z * R) : bool :=
  match nth_error os (fst (fst p)) with Some o => match zidx (oVerts o) (snd (fst p)) with Some _ => true | None => false end | None => false end.
(** The weight of a vertex in [verts]; [None] if it is not in the map. *)
Definition part_at (oi vi : nat) (p : nat * Z * R) : bool := Nat.eqb (fst (fst p)) oi && (snd (fst p) =? Z.of_nat vi)%Z.
Definition weight_at (ps : list (nat * Z * R)) (oi vi : nat) : option R :=
  match filter (part_at oi vi) ps with [] => None | l => Some (fold_left (fun s p => s + snd p) l 0) end.

(** mqo/bone_plugin.go:311-317; the position of the base bone, which is itself moved by this loop, stays what it is. *)
Definition turn_about (pos : vec3 R) (rot : vec4 R) (w : R) (v : vec3 R) : vec3 R :=
  let d := qapply rot (v3sub v pos) in
  mkV3 ((vx d + vx pos) * w + vx v * (1 - w)) ((vy d + vy pos) * w + vy v * (1 - w)) ((vz d + vz pos) * w + vz v * (1 - w)).
Definition index_list {A} (l : list A) : list (nat * A) := combine (seq 0 (length l)) l.
Definition turn_object (pos : vec3 R) (rot : vec4 R) (ps : list (nat * Z * R)) (p : nat * object R) : object R :=
  set_verts (snd p) (map (fun q => match weight_at ps (fst p) (fst q) with Some w => turn_about pos rot w (snd q) | None => snd q end) (index_list (oVerts (snd p)))).
(** mqo/bone_plugin.go:296-309 *)
Definition turn_shape (pos : vec3 R) (rot : vec4 R) (s : pshape) : pshape :=
  mkPS (psType s) (psSize s) (turn_about pos rot 1 (psPos s)) (eang (euler_of_quat (qmul rot (euler_to_quat (mkE (psRot s) XYZ))) XYZ)).
Definition turn_body (bones : list (bone R)) (sel : list nat) (pos : vec3 R) (rot : vec4 R) (b : pbody) : pbody :=
  if negb (pbBone b =? 0)%Z && match bone_by_id bones (pbBone b) with Some i => nmem i sel | None => false end
  then mkPB (pbName b) (map (turn_shape pos rot) (pbShapes b)) (pbBone b) else b.
(** [None]: no such bone, or a vertex out of range. *)
Definition bone_transform (base : nat) (rot : vec4 R) (d : mdoc) : option mdoc :=
  match nth_error (mdBones d) base with
  | None => None
  | Some b0 =>
      let bones := mdBones d in
      let sel := select_bones bones base in
      let ps := flat_map (fun p => if nmem (fst p) sel then bone_parts (mdObjects d) (mdMorphs d) (snd p) else []) (index_list bones) in
      if forallb (part_ok (mdObjects d)) ps
      then Some (mkMDoc (map (turn_object (bPos b0) rot ps) (index_list (mdObjects d)))
                        (map (fun p => if nmem (fst p) sel then set_pos (snd p) (turn_about (bPos b0) rot 1 (bPos (snd p))) else snd p) (index_list bones))
                        (mdMorphs d)
                        (option_map (fun ph => mkPh (map (turn_body bones sel (bPos b0) rot) (phBodies ph)) (phJoints ph)) (mdPhysics d)))
      else None
  end.

(** ** [BoneAdjustX], mqo/bone_plugin.go:322-349 *)

(** The longest vector to a child; [None] if there is no child or all are at the place of the bone. *)
Definition longest_child (base : bone R) (bones : list (bone R)) : option (vec3 R) :=
  snd (fold_left (fun acc b => if (bParent b =? bID base)%Z
                               then let v := v3sub (bPos b) (bPos base) in if Rltb (fst acc) (v3lensqr v) then (v3lensqr v, Some v) else acc
                               else acc) bones (0, None)).
(** The angle, mqo/bone_plugin.go:338-345. *)
Definition level_angle (v : vec3 R) : R :=
  let bd := atan2 (vy v) (vx v) in if Rltb (Rabs bd) (PI / 2) then - bd else PI - bd.
Definition bone_adjust_x (base : nat) (d : mdoc) : option mdoc :=
  match nth_error (mdBones d) base with
  | None => None
  | Some b => match longest_child b (mdBones d) with
              | None => Some d
              | Some v => bone_transform base (euler_to_quat (mkE (mkV3 0 0 (level_angle v)) XYZ)) d
              end
  end.
(** -autotpose, cmd/modelconv/main.go:293-301; [matches] tells which names match. *)
Definition auto_tpose (matches : string -> bool) (d : mdoc) : option mdoc :=
  fold_left (fun r i => match r with
                        | None => None
                        | Some d => match nth_error (mdBones d) i with
                                    | None => None
                                    | Some b => if matches (bName b) then bone_adjust_x i d else Some d
                                    end
                        end) (seq 0 (length (mdBones d))) (Some d).
