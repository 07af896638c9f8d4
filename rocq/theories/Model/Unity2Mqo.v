(** [converter/unity2mqo.go]: scenes to documents, over exact reals.  A scene is given with its references resolved: the transform and the components of an object
    are those that [GetTransform] and [GetComponent] find, the children of a transform are the objects that [GetChildren] and [GetGameObject] find. *)
From Coq Require Import String List ZArith Reals Bool.
From Verif.Model Require Import Num NumR Vec Matrix Euler Mqo MqoDoc MqoTransform Unity UnityShape.
Import ListNotations.
Local Open Scope list_scope.
Local Open Scope R_scope.

(** [Ref] (unity/unity.go 53-57). *)
Record uref := mkRef { rFile : Z; rGUID : string; rType : Z }.
Definition ref_eqb (a b : uref) : bool := (rFile a =? rFile b)%Z && String.eqb (rGUID a) (rGUID b) && (rType a =? rType b)%Z.
(** [IsValid] (unity/unity.go 61-63). *)
Definition ref_valid (r : option uref) : bool := match r with Some r => negb (rFile r =? 0)%Z | None => false end.

(** ** Built-in meshes *)

(** [UnityMeshes] (unity/unity_builtin.go 9-16). *)
Definition mesh_names : list (Z * string) :=
  [(10202%Z, "Cube"); (10206%Z, "Cylinder"); (10207%Z, "Sphere"); (10208%Z, "Capsule"); (10209%Z, "Plane"); (10210%Z, "Quad")]%string.
Definition mesh_name (r : uref) : option string :=
  option_map snd (find (fun p => ref_eqb (mkRef (fst p) "0000000000000000e000000000000000"%string 0) r) mesh_names).
Definition fr (a b : Z) : R := IZR a / IZR b.
Definition om (x : R) : R := 1 - x.
(** [Quad] and [Plane] have one face each (unity/unity_builtin.go 203-205, 220-222). *)
Definition square_uvs : list (list (vec2 R)) := [[mkV2 1 1; mkV2 0 1; mkV2 0 0; mkV2 1 0]].
(** [GetBuiltinMesh] (unity/unity_builtin.go 27-45). *)
Definition builtin_mesh (name : string) : list (vec3 R) * list (list Z) * list (list (vec2 R)) :=
  if String.eqb name "Cube" then (cube_verts, cube_faces, cube_uvs fr)
  else if String.eqb name "Plane" then (plane_verts, plane_faces, square_uvs)
  else if String.eqb name "Quad" then (quad_verts, quad_faces, square_uvs)
  else if String.eqb name "Sphere" then (sphere_verts 32 16 0 16, snd (sphere 32 16), sphere_uvs fr 32 16 0 16)
  else if String.eqb name "Cylinder" then (cylinder_verts 32, snd (cylinder 32), cylinder_uvs fr om 32)
  else if String.eqb name "Capsule" then (capsule_verts 32, snd (capsule 32), capsule_uvs fr om 32)
  else ([], [], []).
(** The slices that hold the texture coordinates: those of the two ends of a cylinder are the same slice (unity/unity_builtin.go 157). *)
Definition mesh_slices (name : string) (n : nat) : list nat :=
  if String.eqb name "Cylinder" then seq 0 (n - 1) ++ [n - 2]%nat else seq 0 n.

(** ** Scenes *)

(** What [LoadMaterial], [GetColorProperty] and [GetTextureProperty] find (unity/unity_material.go): name, [_Color], [_EmissionColor]; of [_MainTex], if it is valid, the name
    of the saved texture (empty if it is not saved), scale and offset; of [_BumpMap] the name of the saved texture. *)
Record umat := mkUMat { umName : string; umColor : option (vec4 R); umEmission : option (vec3 R); umMain : option (string * vec2 R * vec2 R); umBump : string }.
(** [Light] (unity/unity_components.go 191-215), the parts that are used: type, colour, intensity, range, the angles of spot lights; [liEnabled] is m_Enabled of the file, which is not read. *)
Record ulight := mkUL { liType : Z; liColor : vec4 R; liIntensity : R; liRange : R; liSpot : R; liInner : R; liEnabled : bool }.
(** Objects with their components (unity/unity.go 65-78, unity_components.go).  The filter holds the reference to the mesh, the renderer is enabled and has materials;
    boxes have a centre and a size, spheres a centre and a radius, capsules a centre, a radius, a height and a direction; the body has a mass and is kinematic or not. *)
Record gobj := mkGO { goName : string; goActive : Z; goTr : option (transform R * list (option nat)); goFilter : option (option uref); goRenderer : option (Z * list uref);
  goLight : option ulight; goBoxes : list (vec3 R * vec3 R); goSpheres : list (vec3 R * R); goCapsules : list (vec3 R * R * R * Z); goMeshes : list uref; goBody : option (R * Z) }.

(** [PhysicsBody] (mqo/physics_plugin.go 28-46), the parts that are set. *)
Record ubody := mkUB { ubName : string; ubTarget : Z; ubShapes : list pshape; ubMass : R; ubKinematic : bool }.
(** The light that [Extra] of each object is made of (unity2mqo.go 186-204, Model/Lights.v) is listed beside the objects.
    The maps [mat] and [matToGUID] (unity2mqo.go 30-34) are one list here: GUID, index, scale. *)
Definition cached : Type := string * nat * option (vec2 R).
Record ust := mkU { uObjs : list (object R); uMats : list (material R); uCache : list cached; uBodies : list ubody;
  uLights : list (option ulight) }.

(** [NewObject] (mqo/mqo.go 278-286). *)
Definition new_obj (name : string) : object R :=
  mkObj 0 name [] [] true false 0 false 1 (119 / 2) 0 0 0 0 (Some (mkV3 1 1 1)) (Some (mkV3 0 0 0)) (Some (mkV3 0 0 0)) None [] None.
Definition set_head (o : object R) (uid depth : Z) (visible : bool) : object R :=
  mkObj uid (oName o) (oVerts o) (oFaces o) visible (oLocked o) depth (oFolding o) (oShading o) (oFacet o) (oPatch o) (oPatchSegment o) (oMirror o) (oMirrorDis o)
        (oScale o) (oRotation o) (oTranslation o) (oColor o) (oVertexByUID o) (oInternal o).
Definition set_uvs (f : face R) (uvs : list (vec2 R)) : face R := mkFace (fUID f) (fVerts f) (fMaterial f) uvs (fNormals f).

(** [AddGeometry] (unity2mqo.go 373-388). *)
Definition add_geometry (o : object R) (tr : mat4 R) (mat : nat) (vs : list (vec3 R)) (faces : list (list Z)) (uvs : list (list (vec2 R))) : object R :=
  let voffset := Z.of_nat (length (oVerts o)) in
  set_faces (set_verts o (oVerts o ++ map (mat_apply tr) vs))
            (oFaces o ++ map (fun p => mkFace 0 (map (fun v => (v + voffset)%Z) (snd p)) (Z.of_nat mat) (match nth_error uvs (fst p) with Some u => u | None => [] end) []) (index_list faces)).

(** ** Materials *)

Definition cache_find (c : list cached) (guid : string) : option (nat * option (vec2 R)) :=
  option_map (fun e : cached => (snd (fst e), snd e)) (find (fun e : cached => String.eqb (fst (fst e)) guid) c).
(** [c.matToGUID[m]] (unity2mqo.go 173): empty if there is none. *)
Definition guid_of (c : list cached) (m : Z) : string :=
  match find (fun e : cached => (Z.of_nat (snd (fst e)) =? m)%Z) c with Some e => fst (fst e) | None => ""%string end.
(** unity2mqo.go 173 *)
Definition uv_scale_of (c : list cached) (m : Z) : option (vec2 R) := match cache_find c (guid_of c m) with Some (_, s) => s | None => None end.
Definition scale_uv (s uv : vec2 R) : vec2 R := mkV2 (v2x uv * v2x s) (v2y uv * v2y s).
(** unity2mqo.go 172-180: the slices are scaled in place, face by face. *)
Fixpoint scale_slices (c : list cached) (fs : list (Z * nat)) (heap : list (list (vec2 R))) : list (list (vec2 R)) :=
  match fs with
  | [] => heap
  | (m, k) :: r => scale_slices c r (match uv_scale_of c m with Some s => list_upd heap k (map (scale_uv s)) | None => heap end)
  end.
Definition scale_faces (c : list cached) (slices : list nat) (fs : list (face R)) : list (face R) :=
  let heap := scale_slices c (combine (map (@fMaterial R) fs) slices) (map (@fUVs R) fs) in
  map (fun p => set_uvs (fst p) (match nth_error heap (snd p) with Some u => u | None => [] end)) (combine fs slices).

Section Convert.
(** The option [ConvertScale], the option [ConvertPhysics], the material files by GUID, and the meshes of FBX files (converter/fbx2mqo.go) by reference, materials, depth, transform and
    the numbers of objects and materials so far: new objects and materials, or an error. *)
Variables (scale : R) (physics_on : bool) (load : string -> option umat)
          (import : uref -> list nat -> Z -> mat4 R -> nat -> nat -> option (list (object R) * list (material R))).

(** unity2mqo.go 111-146 *)
Definition make_material (guid : string) : material R * option (vec2 R) :=
  let name0 := if String.eqb guid "0000000000000000f000000000000000" then "UnityDefaultMaterial"%string else guid in
  match load guid with
  | None => (mkMat name0 0 (mkV4 1 1 1 1) (8 / 10) 0 0 0 0 "" "" "" None false 0 None, None)
  | Some m => (mkMat (umName m) 0 (match umColor m with Some c => c | None => mkV4 1 1 1 1 end) (8 / 10) 0 0 0 0
                     (match umMain m with Some (t, _, _) => t | None => ""%string end) (umBump m) ""
                     (match umEmission m with Some e => if Rltb 0 (sqrt (vx e * vx e + vy e * vy e + vz e * vz e)) then Some e else None | None => None end)
                     false 0 None,
               match umMain m with Some (_, s, _) => Some s | None => None end)
  end.
(** unity2mqo.go 98-148, one material. *)
Definition add_material (ms : list (material R)) (c : list cached) (r : uref) : list (material R) * list cached * nat :=
  match cache_find c (rGUID r) with
  | Some (i, _) => (ms, c, i)
  | None => let '(m, s) := make_material (rGUID r) in (ms ++ [m], c ++ [(rGUID r, length ms, s)], length ms)
  end.
Fixpoint add_materials (ms : list (material R)) (c : list cached) (rs : list uref) : list (material R) * list cached * list nat :=
  match rs with
  | [] => (ms, c, [])
  | r :: rs => let '(ms, c, i) := add_material ms c r in let '(ms, c, is) := add_materials ms c rs in (ms, c, i :: is)
  end.

(** unity2mqo.go 93-183: the object with its mesh, and the objects that follow it. *)
Definition convert_mesh (st : ust) (o : gobj) (obj : object R) (tr : mat4 R) (active : bool) : ust * object R * list (object R) :=
  match goFilter o, goRenderer o with
  | Some (Some mesh), Some (enabled, refs) =>
      if ref_valid (Some mesh) then
        let '(ms, c, mats) := add_materials (uMats st) (uCache st) refs in
        let visible := active && negb (enabled =? 0)%Z in
        match mesh_name mesh with
        | Some name =>
            let '(vs, faces, uvs) := builtin_mesh name in
            let g := add_geometry (set_name obj (oName obj ++ "(" ++ name ++ ")")) tr (hd 0%nat mats) vs faces uvs in
            (mkU (uObjs st) ms c (uBodies st) (uLights st), set_head (set_faces g (scale_faces c (mesh_slices name (length (oFaces g))) (oFaces g))) (oUID g) (oDepth g) visible, [])
        | None =>
            match import mesh mats (oDepth obj + 1) tr (S (length (uObjs st))) (length ms) with
            | None => (mkU (uObjs st) ms c (uBodies st) (uLights st), obj, [])
            | Some (os, ms') =>
                let os := match os with [x] => [set_internal x (Some tr)] | _ => os end in
                (mkU (uObjs st) (ms ++ ms') c (uBodies st) (uLights st), set_name obj (oName obj ++ "(FBX)"),
                 map (fun x => set_head (set_faces x (scale_faces c (seq 0 (length (oFaces x))) (oFaces x))) (oUID x) (oDepth x) visible) os)
            end
        end
      else (st, obj, [])
  | _, _ => (st, obj, [])
  end.

(** ** Colliders: [convertRigidBody] (unity2mqo.go 220-303) *)
Definition unit_mesh_shape (tr : mat4 R) (angle : vec3 R) (r : uref) : list pshape :=
  match mesh_name r with
  | None => []
  | Some name => if String.eqb name "Cube" then [mkPS "BOX" (mkV3 scale scale scale) (mat_apply tr (mkV3 0 0 0)) angle]
                 else if String.eqb name "Sphere" then [mkPS "SPHERE" (mkV3 (/ 2 * scale) (/ 2 * scale) (/ 2 * scale)) (mat_apply tr (mkV3 0 0 0)) (mkV3 0 0 0)]
                 else [mkPS "MESH" (mkV3 0 0 0) (mkV3 0 0 0) (mkV3 0 0 0)]
  end.
Definition collider_shapes (o : gobj) (tr : mat4 R) : list pshape :=
  let '(_, rot, sc) := mat_decompose tr in
  let angle := eang (euler_of_quat rot ZXY) in
  map (fun b => mkPS "BOX" (v3scale (snd b) (vx sc * / 2)) (mat_apply tr (fst b)) angle) (goBoxes o) ++
  map (fun b => mkPS "SPHERE" (mkV3 (snd b * vx sc) (snd b * vy sc) (snd b * vz sc)) (mat_apply tr (fst b)) angle) (goSpheres o) ++
  map (fun b => let '(c, r, h, _) := b in mkPS "CAPSULE" (mkV3 (r * vx sc) ((h - r * 2) * vy sc) (r * vz sc)) (mat_apply tr c) angle) (goCapsules o) ++
  flat_map (unit_mesh_shape tr angle) (goMeshes o).
Definition convert_body (o : gobj) (tr : mat4 R) (obj : object R) : list ubody :=
  match collider_shapes o tr with
  | [] => []
  | shapes => let '(mass, kin) := match goBody o with Some b => b | None => (1, 1%Z) end in [mkUB (oName obj) (oUID obj) shapes mass (negb (kin =? 0)%Z)]
  end.

(** ** [convertObject] (unity2mqo.go 79-218); [None] is endless recursion. *)
Definition local_fields (t : transform R) (o : object R) : object R :=
  set_trs o (v3scale (mkV3 (vx (tPos t)) (vy (tPos t)) (- vz (tPos t))) scale)
            (set_rotation (mkV4 (- qx (tRot t)) (- qy (tRot t)) (qz (tRot t)) (qw (tRot t)))) (tScale t).
Fixpoint convert_object (fuel : nat) (sc : list gobj) (i : nat) (d : Z) (parent : mat4 R) (active : bool) (st : ust) : option ust :=
  match fuel with
  | O => None
  | S f =>
      match nth_error sc i with
      | None => None
      | Some o =>
          let active := active && negb (goActive o =? 0)%Z in
          let obj := set_head (new_obj (goName o)) (Z.of_nat (S (length (uObjs st)))) d active in
          match goTr o with
          | None => Some (mkU (uObjs st ++ [obj]) (uMats st) (uCache st) (uBodies st) (uLights st ++ [None]))
          | Some (t, children) =>
              let tr := mat_mul parent (get_matrix t) in
              let '(st, obj, added) := convert_mesh st o (local_fields t obj) tr active in
              let obj := if goLight o then set_internal obj (Some tr) else obj in
              let bodies := if physics_on then convert_body o tr obj else [] in
              fold_left (fun r c => match r, c with
                                    | Some st, Some j => convert_object f sc j (d + 1) tr active st
                                    | r, _ => r
                                    end) children
                        (Some (mkU (uObjs st ++ obj :: added) (uMats st) (uCache st) (uBodies st ++ bodies) (uLights st ++ goLight o :: map (fun _ => None) added)))
          end
      end
  end.
(** [Convert] (unity2mqo.go 54-77); [roots] are [scene.Objects]. *)
Definition convert (fuel : nat) (sc : list gobj) (roots : list nat) : option ust :=
  match fold_left (fun r i => match r with Some st => convert_object fuel sc i 0 (mat_scale scale scale scale) true st | None => None end) roots (Some (mkU [] [] [] [] [])) with
  | Some st => Some (match uMats st with
                     | [] => mkU (uObjs st) [mkMat "dummy" 0 (mkV4 1 1 1 1) 0 0 0 0 0 "" "" "" None false 0 None] (uCache st) (uBodies st) (uLights st)
                     | _ => st
                     end)
  | None => None
  end.
End Convert.
