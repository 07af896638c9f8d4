(** What the element of physics in a plugin file says, by names of attributes and elements as Metasequoia has them. *)
From Coq Require Import String List ZArith.
From Verif.Model Require Import Num Vec Mqx.
Import ListNotations.
Local Open Scope string_scope.
Local Open Scope list_scope.

Section Spec.
Context {T : Type}.
(** The value of an attribute, or what it is when it is not there. *)
Definition attr_is (e : xelem T) (n : string) (d v : xval T) : Prop :=
  match filter (fun a => String.eqb (fst a) n) (el_attrs e) with [] => v = d | [a] => snd a = v | _ => False end.
(** The only child of that name. *)
Definition child (e : xelem T) (n : string) (k : xelem T) : Prop := filter (fun k => String.eqb (el_name k) n) (el_kids e) = [k].
Definition text_is (e : xelem T) (n : string) (v : xval T) : Prop := child e n (El n [] [] (Some v)).
Definition vec_is (e : xelem T) (n : string) (v : vec3 T) : Prop :=
  exists k, child e n k /\ forall d, attr_is k "x" d (XNum (vx v)) /\ attr_is k "y" d (XNum (vy v)) /\ attr_is k "z" d (XNum (vz v)).
Definition shape_is (s : qshape T) (e : xelem T) : Prop :=
  el_name e = "Shape" /\ attr_is e "type" (XStr "") (XStr (qsType s)) /\ vec_is e "Size" (qsSize s) /\ vec_is e "Position" (qsPos s) /\ vec_is e "Rotation" (qsRot s).
Definition body_is (b : qbody T) (e : xelem T) : Prop :=
  el_name e = "Body" /\ In ("mass", XNum (qyMass b)) (el_attrs e) /\ attr_is e "kinematic" (XBool false) (XBool (qyKinematic b)) /\ attr_is e "name" (XStr "") (XStr (qyName b)) /\
  attr_is e "targetBone" (XInt 0) (XInt (qyBone b)) /\ attr_is e "targetObj" (XInt 0) (XInt (qyObj b)) /\
  text_is e "CollisionGroup" (XInt (qyGroup b)) /\ text_is e "CollisionMask" (XInt (qyMask b)) /\ text_is e "Restitution" (XNum (qyRestitution b)) /\ text_is e "Friction" (XNum (qyFriction b)) /\
  text_is e "LinearDamping" (XNum (qyLinear b)) /\ text_is e "AngularDamping" (XNum (qyAngular b)) /\
  exists k, child e "Shapes" k /\ Forall2 shape_is (qyShapes b) (el_kids k).
Definition joint_is (j : qjoint T) (e : xelem T) : Prop :=
  el_name e = "Joint" /\ attr_is e "type" (XStr "") (XStr (qjType j)) /\ attr_is e "name" (XStr "") (XStr (qjName j)) /\ attr_is e "body1" (XInt 0) (XInt (qjBody1 j)) /\ attr_is e "body2" (XInt 0) (XInt (qjBody2 j)) /\
  vec_is e "Position" (qjPos j) /\ vec_is e "Rotation" (qjRot j) /\ vec_is e "LinerSpring" (qjLinear j) /\ vec_is e "AngulerSpring" (qjAngular j).
Definition physics_is (p : physplugin T) (e : xelem T) : Prop :=
  attr_is e "name" (XStr "") (XStr (ppName p)) /\
  (exists k, child e "Bodies" k /\ Forall2 body_is (ppBodies p) (el_kids k)) /\ (exists k, child e "Constraints" k /\ Forall2 joint_is (ppJoints p) (el_kids k)).
End Spec.
