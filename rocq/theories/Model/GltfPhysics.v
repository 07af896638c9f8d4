(** [converter/mqo2gltf.go]: physics bodies of exported nodes (the option ConvertPhysics).  Nodes with a matrix of their own
    (lights and shared geometry, Model/Lights.v and Model/Mqo2GltfShared.v) are left out: the nodes are those of [to_gltf]. *)
From Coq Require Import String List ZArith Bool.
From Verif.Model Require Import Num Vec Matrix Mqo MqoDoc Normals Gltf Mqo2Gltf VrmConfig.
Import ListNotations.
Local Open Scope Z_scope.
Local Open Scope list_scope.

Section Physics.
Context {T : Type} {N : Num T}.
(** [PhysicsShape] and [PhysicsBody] (mqo/physics_plugin.go 28-54), without the materials. *)
Record mshape := mkMSh { shType : string; shSize : vec3 T; shPos : vec3 T; shRot : vec3 T }.
Record mbody := mkMB { mbShapes : list mshape; mbMass : T; mbKinematic : bool; mbGroup : Z; mbMask : Z; mbBone : Z; mbObj : Z }.
(** An element of [collisionShapes] (mqo2gltf.go 935-945) and [BlenderPhysicsBody] (100-106). *)
Record xshape := mkXS { xsType : string; xsBox : vec3 T; xsTrans : vec3 T; xsScale : vec3 T }.
Record xbody := mkXB { xbShapes : list xshape; xbMass : T; xbStatic : bool; xbGroups : Z; xbMasks : Z }.

Variables (scale : T) (ignore_hierarchy : bool).

(** mqo2gltf.go 934-946. *)
Definition export_shape (nodePos : vec3 T) (s : mshape) : xshape :=
  mkXS (shType s) (v3scaled scale (shSize s)) (v3scaled scale (v3sub (shPos s) nodePos)) (v3scaled scale (shSize s)).
(** [addPhysicsBody] (931-965) with the extension that the node has. *)
Definition add_body (nodePos : vec3 T) (b : mbody) (cur : option xbody) : option xbody :=
  match map (export_shape nodePos) (mbShapes b) with
  | [] => cur
  | shapes => Some match cur with
                   | Some p => mkXB (xbShapes p ++ shapes) (nadd (xbMass p) (mbMass b)) (xbStatic p || mbKinematic b) (xbGroups p) (xbMasks p)
                   | None => mkXB shapes (mbMass b) (mbKinematic b) (mbGroup b) (mbMask b)
                   end
  end.
(** One body of the loop over bones (797-804). *)
Definition bone_body (base : nat) (bones : list (bone T)) (nodes : list (option xbody)) (b : mbody) : list (option xbody) :=
  if mbBone b =? 0 then nodes
  else match bone_node base bones (mbBone b) with
       | Some n => match nth_error bones (n - base) with
                   | Some bn => list_upd nodes n (add_body (bPos bn) b)
                   | None => nodes
                   end
       | None => nodes
       end.
(** The bodies of an object (891-898). *)
Definition object_bodies (bodies : list mbody) (o : object T) : option xbody :=
  fold_left (fun cur b => if negb (mbObj b =? 0) && (mbObj b =? oUID o) then add_body v3zero b cur else cur) bodies None.
(** The extensions of all nodes, the objects first (788-806, 819-899). *)
Definition gltf_physics (d : document T) (bones : list (bone T)) (sets : list target_list) (bodies : list mbody) : list (option xbody) :=
  let os := target_objects ignore_hierarchy sets (fix_ids 0 (dObjects d)) in
  let base := length os in
  let nodes := fold_left (bone_body base bones) bodies (repeat None (base + length bones)) in
  map (object_bodies bodies) os ++ skipn base nodes.

(** The nodes as [ConvertColliders] reads them (vrmconfig.go 446-466). *)
Definition collider_node (n : gnode T) (x : option xbody) : cnode T :=
  mkCN (gnName n) (option_map (fun p => (xbStatic p, map (fun s => mkCS (xsType s) (Some (xsScale s)) (Some (xsTrans s))) (xbShapes p))) x).
Definition collider_nodes (g : gdoc T) (xs : list (option xbody)) : list (cnode T) :=
  map (fun p => collider_node (fst p) (snd p)) (combine (gdNodes g) xs).
End Physics.
Arguments mshape : clear implicits.
Arguments mbody : clear implicits.
Arguments xshape : clear implicits.
Arguments xbody : clear implicits.
