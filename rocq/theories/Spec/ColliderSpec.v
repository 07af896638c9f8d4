(** Colliders of a Unity scene and shapes of the document (C89). *)
From Coq Require Import String List ZArith Reals Bool.
From Verif.Model Require Import Num NumR Vec Matrix Euler Mqo MqoDoc MqoTransform Unity UnityShape Unity2Mqo.
From Verif.Spec Require Import GeomSpec UnitySpec SceneSpec.
Import ListNotations.
Local Open Scope string_scope.
Local Open Scope list_scope.
Local Open Scope R_scope.

(** A transform that stretches nothing: the same positive scale in all directions. *)
Definition even (t : transform R) : Prop := unit_quat (tRot t) /\ tScale t = mkV3 (vx (tScale t)) (vx (tScale t)) (vx (tScale t)) /\ 0 < vx (tScale t).
(** The scale of an object in the world. *)
Definition path_scale (path : list (transform R)) : R := fold_right (fun t k => vx (tScale t) * k) 1 path.
(** Where a direction of an object points in the mirrored world. *)
Definition turned (path : list (transform R)) (v : vec3 R) : vec3 R := mirror (fold_right (fun t v => unity_turn (tRot t) v) (mirror v) path).
(** Not close to the pole of the angles, or exactly there (C05). *)
Definition upright (path : list (transform R)) : Prop := let z := vz (turned path (mkV3 0 1 0)) in Rabs z < 1 - euler_eps \/ Rabs z = 1.
(** The axes of a shape, read with the order Z, X, Y. *)
Definition axis_zxy (s : pshape) (v : vec3 R) : vec3 R := qapply (euler_to_quat (mkE (psRot s) ZXY)) v.

(** What the shape of a collider should be. *)
Section Shapes.
Variables (scale : R) (path : list (transform R)).
Definition unstretched : Prop := 0 < scale /\ Forall even path.
Definition shape_at (kind : string) (centre size : vec3 R) (s : pshape) : Prop :=
  psType s = kind /\ psPos s = doc_place scale path centre /\ (unstretched -> psSize s = v3scale size (scale * path_scale path) /\ (upright path -> forall v, axis_zxy s v = turned path v)).
Definition box_shape (b : vec3 R * vec3 R) (s : pshape) : Prop := shape_at "BOX" (fst b) (v3scale (snd b) (/ 2)) s.
Definition sphere_shape (b : vec3 R * R) (s : pshape) : Prop := shape_at "SPHERE" (fst b) (mkV3 (snd b) (snd b) (snd b)) s.
Definition capsule_shape (b : vec3 R * R * R * Z) (s : pshape) : Prop := let '(c, r, h, _) := b in shape_at "CAPSULE" c (mkV3 r (h - 2 * r) r) s.
(** Mesh colliders with a built-in mesh. *)
Definition mesh_shape (name : string) (s : pshape) : Prop :=
  (name = "Cube" -> psType s = "BOX" /\ psPos s = doc_place scale path (mkV3 0 0 0)) /\ (name = "Sphere" -> psType s = "SPHERE" /\ psPos s = doc_place scale path (mkV3 0 0 0)) /\ (name <> "Cube" -> name <> "Sphere" -> psType s = "MESH").
Definition mesh_list (o : gobj) : list string := flat_map (fun r => match mesh_name r with Some n => [n] | None => [] end) (goMeshes o).
Definition has_collider (o : gobj) : Prop := goBoxes o <> [] \/ goSpheres o <> [] \/ goCapsules o <> [] \/ mesh_list o <> [].
(** The body of an object. *)
Definition body_of (o : gobj) (x : object R) (b : ubody) : Prop :=
  ubName b = oName x /\ ubTarget b = oUID x /\
  (forall m k, goBody o = Some (m, k) -> ubMass b = m /\ (ubKinematic b = true <-> k <> 0%Z)) /\ (goBody o = None -> ubMass b = 1 /\ ubKinematic b = true) /\
  exists bx sp ca me, ubShapes b = bx ++ sp ++ ca ++ me /\ Forall2 box_shape (goBoxes o) bx /\ Forall2 sphere_shape (goSpheres o) sp /\ Forall2 capsule_shape (goCapsules o) ca /\ Forall2 mesh_shape (mesh_list o) me.
End Shapes.
(** The bodies, object by object. *)
Inductive body_list (scale : R) (sc : list gobj) : list visit -> list (list (object R)) -> list ubody -> Prop :=
| bl_nil : body_list scale sc [] [] []
| bl_none v vs o os oss bs : nth_error sc (vObj v) = Some o -> goTr o = None \/ ~ has_collider o -> body_list scale sc vs oss bs -> body_list scale sc (v :: vs) (os :: oss) bs
| bl_some v vs o x os oss b bs : nth_error sc (vObj v) = Some o -> goTr o <> None -> has_collider o -> body_of scale (vPath v) o x b -> body_list scale sc vs oss bs -> body_list scale sc (v :: vs) ((x :: os) :: oss) (b :: bs).
