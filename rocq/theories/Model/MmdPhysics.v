(** Rigid bodies and joints between PMX and MQO: converter/mmd2mqo.go:356-405 and converter/mqo2mmd.go:125-129, 176-216.
    Names, numbers and vectors of both formats are kept whole (Model/Mqo2Mmd.v has the parts that C37 uses); the limits of linear and angular motion of joints,
    which neither converter touches, are left out. *)
From Coq Require Import String List ZArith Bool.
From Verif.Model Require Import Num Vec Mqo MqoDoc Mmd2Mqo Mqo2Mmd.
Import ListNotations.
Local Open Scope Z_scope.

Section Physics.
Context {T : Type} {N : Num T}.

(** [RigidBody] (mmd/mmd.go:179-199) *)
Record rigid := mkRigid {
  rgName : string; rgNameEn : string; rgBone : Z; rgGroup : Z; rgTarget : Z; rgShape : Z;
  rgSize : vec3 T; rgPos : vec3 T; rgRot : vec3 T;
  rgMass : T; rgLinear : T; rgAngular : T; rgRest : T; rgFric : T; rgMode : Z }.
(** [Joint] (mmd/mmd.go:201-219), without limits *)
Record pjoint := mkPJoint {
  pjName : string; pjNameEn : string; pjType : Z; pjBody1 : Z; pjBody2 : Z;
  pjPos : vec3 T; pjRot : vec3 T; pjLinear : vec3 T; pjAngular : vec3 T }.
(** [PhysicsShape] (mqo/physics_plugin.go:48-53) *)
Record mshape := mkShape { shType : string; shSize : vec3 T; shPos : vec3 T; shRot : vec3 T }.
(** [PhysicsBody] (mqo/physics_plugin.go:28-46) *)
Record qbody := mkQBody {
  qbName : string; qbShapes : list mshape; qbMass : T; qbKinematic : bool; qbGroup : Z; qbMask : Z;
  qbRest : T; qbFric : T; qbLinear : T; qbAngular : T; qbBone : Z; qbObj : Z }.
(** [PhysicsJointConstraint] (mqo/physics_plugin.go:55-67); [Type] is never set by the converter. *)
Record qjoint := mkQJoint {
  qjName : string; qjBody1 : Z; qjBody2 : Z; qjPos : vec3 T; qjRot : vec3 T; qjLinear : vec3 T; qjAngular : vec3 T }.

(** The switch of mmd2mqo.go:359-370. *)
Definition shape_name (s : Z) : string :=
  if s =? 0 then "SPHERE" else if s =? 1 then "BOX" else if s =? 2 then "CAPSULE" else "".
(** The body of the loop 371-389. *)
Definition from_rigid (b : rigid) : qbody :=
  mkQBody (rgName b) [mkShape (shape_name (rgShape b)) (mirror (rgSize b)) (mirror (rgPos b)) (rgRot b)]
    (rgMass b) (rgMode b =? 0) (rgGroup b) (rgTarget b) (rgRest b) (rgFric b) (rgLinear b) (rgAngular b) (rgBone b + 1) 0.
(** 391-403 *)
Definition from_joint (j : pjoint) : qjoint :=
  mkQJoint (pjName j) (pjBody1 j + 1) (pjBody2 j + 1) (mirror (pjPos j)) (pjRot j) (pjLinear j) (pjAngular j).
(** 356-405: joints are only read if there are bodies. *)
Definition from_physics (bs : list rigid) (js : list pjoint) : list qbody * list qjoint :=
  match bs with [] => ([], []) | _ => (map from_rigid bs, map from_joint js) end.

(** The switch of mqo2mmd.go:179-191. *)
Definition shape_number (s : string) : Z :=
  if String.eqb s "SPHERE" then 0 else if String.eqb s "BOX" then 1 else if String.eqb s "CAPSULE" then 2 else 0.
Variable scale : T.
(** The loop of [convertBody] (178-215); [i] counts the shapes. *)
Fixpoint to_rigids (bones : list (bone T)) (b : qbody) (i : nat) (shapes : list mshape) : list rigid :=
  match shapes with
  | [] => []
  | s :: r =>
      mkRigid (match i with O => qbName b | _ => suffixed (qbName b) i end) "" (bone_index bones (qbBone b)) (qbGroup b) (qbMask b) (shape_number (shType s))
        (to_pmx scale (shSize s)) (to_pmx scale (shPos s)) (shRot s)
        (qbMass b) (qbLinear b) (qbAngular b) (qbRest b) (qbFric b) (if qbKinematic b then 1 else 0)
      :: to_rigids bones b (S i) r
  end.
(** 125-129: bodies are written, joints are not. *)
Definition to_physics (bones : list (bone T)) (bs : list qbody) (js : list qjoint) : list rigid * list pjoint :=
  (flat_map (fun b => to_rigids bones b 0 (qbShapes b)) bs, []).
End Physics.
Arguments rigid T : clear implicits.
Arguments pjoint T : clear implicits.
Arguments mshape T : clear implicits.
Arguments qbody T : clear implicits.
Arguments qjoint T : clear implicits.
