(** What a Unity scene shows (C87 to C89). *)
From Coq Require Import String List ZArith Reals Bool.
From Verif.Model Require Import Num NumR Vec Matrix Euler Mqo MqoDoc MqoTransform Unity UnityShape Unity2Mqo.
From Verif.Spec Require Import GeomSpec UnitySpec.
Import ListNotations.
Local Open Scope list_scope.
Local Open Scope R_scope.

(** An object on the way through the scene: its number, the transforms from the root to it, its depth and whether it is active with all its ancestors. *)
Record visit := mkVisit { vObj : nat; vPath : list (transform R); vDepth : nat; vActive : bool }.
(** Depth first; children in order; children without an object are passed over. *)
Inductive walk (sc : list gobj) : list (transform R) -> bool -> nat -> list visit -> Prop :=
| walk_leaf path act i o : nth_error sc i = Some o -> goTr o = None -> walk sc path act i [mkVisit i path (length path) (act && negb (goActive o =? 0)%Z)]
| walk_node path act i o t cs vs : nth_error sc i = Some o -> goTr o = Some (t, cs) -> walks sc (path ++ [t]) (act && negb (goActive o =? 0)%Z) cs vs ->
    walk sc path act i (mkVisit i (path ++ [t]) (length path) (act && negb (goActive o =? 0)%Z) :: vs)
with walks (sc : list gobj) : list (transform R) -> bool -> list (option nat) -> list visit -> Prop :=
| walks_nil path act : walks sc path act [] []
| walks_none path act cs vs : walks sc path act cs vs -> walks sc path act (None :: cs) vs
| walks_some path act i cs vs vs' : walk sc path act i vs -> walks sc path act cs vs' -> walks sc path act (Some i :: cs) (vs ++ vs').

(** The place of a point of an object in Unity's world. *)
Definition place (path : list (transform R)) (v : vec3 R) : vec3 R := fold_right (fun t v => unity_local t v) v path.
(** The same in the document: mirrored and scaled. *)
Definition doc_place (scale : R) (path : list (transform R)) (p : vec3 R) : vec3 R := v3scale (mirror (place path (mirror p))) scale.

(** The mesh that is drawn: it needs a transform, a filter with a mesh and a renderer. *)
Definition mesh_of (o : gobj) : option (uref * bool * list uref) :=
  match goTr o, goFilter o, goRenderer o with
  | Some _, Some (Some m), Some (e, refs) => if (rFile m =? 0)%Z then None else Some (m, negb (e =? 0)%Z, refs)
  | _, _, _ => None
  end.
Definition mesh_verts (name : string) : list (vec3 R) := fst (fst (builtin_mesh name)).
Definition mesh_faces (name : string) : list (list Z) := snd (fst (builtin_mesh name)).
Definition mesh_uvs (name : string) : list (list (vec2 R)) := snd (builtin_mesh name).

(** The material of a file, or a white one. *)
Definition shows_material (load : string -> option umat) (guid : string) (m : material R) : Prop :=
  mtDiffuse m = 8 / 10 /\
  match load guid with
  | None => mtColor m = mkV4 1 1 1 1 /\ mtTexture m = ""%string /\ mtBump m = ""%string /\ mtEmissionColor m = None /\ (guid <> "0000000000000000f000000000000000"%string -> mtName m = guid)
  | Some u => mtName m = umName u /\ (forall c, umColor u = Some c -> mtColor m = c) /\ (umColor u = None -> mtColor m = mkV4 1 1 1 1) /\
              (forall t s ofs, umMain u = Some (t, s, ofs) -> mtTexture m = t) /\ (umMain u = None -> mtTexture m = ""%string) /\ mtBump m = umBump u /\
              (forall e, umEmission u = Some e -> e <> mkV3 0 0 0 -> mtEmissionColor m = Some e) /\ (umEmission u = None \/ umEmission u = Some (mkV3 0 0 0) -> mtEmissionColor m = None)
  end.
(** How often its texture is repeated. *)
Definition tiling (load : string -> option umat) (guid : string) : vec2 R :=
  match load guid with Some u => match umMain u with Some (_, s, _) => s | None => mkV2 1 1 end | None => mkV2 1 1 end.
Definition tiled (s uv : vec2 R) : vec2 R := mkV2 (v2x uv * v2x s) (v2y uv * v2y s).

Section Blocks.
Variables (scale : R) (load : string -> option umat) (import : uref -> list nat -> Z -> mat4 R -> nat -> nat -> option (list (object R) * list (material R))) (sc : list gobj) (mats : list (material R)).
(** The fields of the local transform. *)
Definition local_of (t : transform R) (x : object R) : Prop :=
  oTranslation x = Some (v3scale (mirror (tPos t)) scale) /\ oScale x = Some (tScale t) /\ oRotation x = Some (set_rotation (mkV4 (- qx (tRot t)) (- qy (tRot t)) (qz (tRot t)) (qw (tRot t)))).
(** [x] is the built-in mesh [name] of an object. *)
Definition is_mesh (v : visit) (name : string) (refs : list uref) (x : object R) : Prop :=
  oVerts x = map (doc_place scale (vPath v)) (mesh_verts name) /\ map (@fVerts R) (oFaces x) = mesh_faces name /\
  (forall r rs, refs = r :: rs -> exists k m, Forall (fun f => fMaterial f = Z.of_nat k) (oFaces x) /\ nth_error mats k = Some m /\ shows_material load (rGUID r) m /\
     (name <> "Cylinder"%string -> map (@fUVs R) (oFaces x) = map (map (tiled (tiling load (rGUID r)))) (mesh_uvs name))).
(** The objects made of one object of the scene, the first being number [n] (from 0). *)
Definition block (n : nat) (v : visit) (os : list (object R)) : Prop :=
  exists o x added, nth_error sc (vObj v) = Some o /\ os = x :: added /\ oUID x = Z.of_nat (S n) /\ oDepth x = Z.of_nat (vDepth v) /\
    (forall t cs, goTr o = Some (t, cs) -> local_of t x) /\
    match mesh_of o with
    | None => oName x = goName o /\ oVerts x = [] /\ oFaces x = [] /\ oVisible x = vActive v /\ added = []
    | Some (m, enabled, refs) =>
        match mesh_name m with
        | Some name => oName x = (goName o ++ "(" ++ name ++ ")")%string /\ is_mesh v name refs x /\ oVisible x = vActive v && enabled /\ added = []
        | None => oVerts x = [] /\ oFaces x = [] /\ oVisible x = vActive v /\
                  (oName x = goName o /\ added = [] \/ oName x = (goName o ++ "(FBX)")%string /\ exists ks tr k ys ms, import m ks (oDepth x + 1)%Z tr (S n) k = Some (ys, ms) /\ (forall p, mat_apply tr p = doc_place scale (vPath v) p) /\
                      Forall2 (fun r k => exists m, nth_error mats k = Some m /\ shows_material load (rGUID r) m) refs ks /\
                      Forall2 (fun y z => oUID z = oUID y /\ oDepth z = oDepth y /\ oName z = oName y /\ oVerts z = oVerts y /\ map (@fVerts R) (oFaces z) = map (@fVerts R) (oFaces y) /\ oVisible z = vActive v && enabled) ys added)
        end
    end.
Inductive blocks : nat -> list visit -> list (list (object R)) -> Prop :=
| blocks_nil n : blocks n [] []
| blocks_cons n v vs os oss : block n v os -> blocks (n + length os) vs oss -> blocks n (v :: vs) (os :: oss).
End Blocks.
(** The bodies: made by [make] of an object of the scene, its matrix and its object in the document. *)
Inductive bodies (scale : R) (sc : list gobj) (make : gobj -> mat4 R -> object R -> list ubody) : list visit -> list (list (object R)) -> list (list ubody) -> Prop :=
| bodies_nil : bodies scale sc make [] [] []
| bodies_none v vs o os oss bss : nth_error sc (vObj v) = Some o -> goTr o = None -> bodies scale sc make vs oss bss -> bodies scale sc make (v :: vs) (os :: oss) ([] :: bss)
| bodies_some v vs o x os oss m bss : nth_error sc (vObj v) = Some o -> goTr o <> None -> affine m -> (forall p, mat_apply m p = doc_place scale (vPath v) p) -> bodies scale sc make vs oss bss ->
    bodies scale sc make (v :: vs) ((x :: os) :: oss) (make o m x :: bss).
(** The lights: [l] is that of the object in the scene; the object [x] in the document knows its place. *)
Definition lit_by (scale : R) (o : gobj) (v : visit) (x : object R) (l : option ulight) : Prop :=
  match goTr o, goLight o with
  | Some _, Some u => l = Some u /\ exists m, oInternal x = Some m /\ affine m /\ forall p, mat_apply m p = doc_place scale (vPath v) p
  | _, _ => l = None
  end.
Inductive lit (scale : R) (sc : list gobj) : list visit -> list (list (object R)) -> list (list (option ulight)) -> Prop :=
| lit_nil : lit scale sc [] [] []
| lit_cons v vs o x l os ls oss lss : nth_error sc (vObj v) = Some o -> lit_by scale o v x l -> length ls = length os -> Forall (eq None) ls -> lit scale sc vs oss lss ->
    lit scale sc (v :: vs) ((x :: os) :: oss) ((l :: ls) :: lss).
(** Nothing is its own descendant. *)
Definition forest (sc : list gobj) (rank : nat -> nat) : Prop :=
  forall i o t cs j, nth_error sc i = Some o -> goTr o = Some (t, cs) -> In (Some j) cs -> (rank j < rank i)%nat /\ (j < length sc)%nat.
(** The local transforms of an object and its parents in the document, composed. *)
Definition mirrored_turn (t : transform R) : vec4 R := mkV4 (- qx (tRot t)) (- qy (tRot t)) (qz (tRot t)) (qw (tRot t)).
Definition local_chain (scale : R) (path : list (transform R)) : mat4 R :=
  fold_right (fun t m => mat_mul (get_local_transform (v3scale (mirror (tPos t)) scale) (set_rotation (mirrored_turn t)) (tScale t)) m) mat_id path.
(** Rotations that [SetRotation] keeps (C06). *)
Definition keeps (t : transform R) : Prop := unit_quat (tRot t) /\ forall v, qapply (get_rotation (set_rotation (mirrored_turn t))) v = qapply (mirrored_turn t) v.

(** The meshes that come with Unity, by their numbers in the file of built-in resources. *)
Definition unity_meshes : list (Z * string) :=
  [(10210, "Quad"); (10209, "Plane"); (10208, "Capsule"); (10207, "Sphere"); (10206, "Cylinder"); (10202, "Cube")]%Z%string.
Definition builtin_resources : string := "0000000000000000e000000000000000".
