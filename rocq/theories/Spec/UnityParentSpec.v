(** Parents of transforms: what C140 asks for. *)
From Coq Require Import String List ZArith Reals Bool.
From Verif.Model Require Import Num NumR Vec Matrix UnityScene UnityParent.
From Verif.Spec Require Import UnitySpec.
Import ListNotations.
Local Open Scope list_scope.
Local Open Scope Z_scope.

Section S.
Context {T : Type} {N : Num T}.
(** The file of the transform at [a] names the transform at [b], in the same file, as its father. *)
Definition names_father (s : scene T) (a b : addr) : Prop :=
  exists t u, tr_at s a = Some t /\ tr_at s b = Some u /\ fst b = fst a /\ snd b = srFile (utFather t) /\ snd b <> 0.
(** It names none. *)
Definition names_none (s : scene T) (a : addr) : Prop := exists t, tr_at s a = Some t /\ srFile (utFather t) = 0.
(** The transforms from the outermost one down to [a]. *)
Inductive chain (s : scene T) : addr -> list (utrans T) -> Prop :=
| chain_root : forall a t, tr_at s a = Some t -> names_none s a -> chain s a [t]
| chain_child : forall a b t l, tr_at s a = Some t -> names_father s a b -> chain s b l -> chain s a (l ++ [t]).
(** Matrices applied from the last to the first. *)
Definition applied (ms : list (mat4 T)) : option (mat4 T) :=
  match ms with
  | [] => None
  | m :: r => Some (fold_left mat_mul r m)
  end.
(** The father at [b] lists the transform at [a] of the same file, which belongs to an object, and is named by it. *)
Definition listed_below (s : scene T) (a b : addr) : Prop :=
  exists t u k, tr_at s a = Some t /\ tr_at s b = Some u /\ fst a = fst b /\ snd a <> 0 /\ srFile (utGo t) <> 0 /\
    In (Some (mkSRef (snd a) "" k)) (utChildren u) /\ srFile (utFather t) = snd b /\ snd b <> 0.
(** A component of the object at [a], which is no part of an instance: the element of the file with its id, if it has the type. *)
Definition owned (is : elem T -> bool) (s : scene T) (a c : addr) : Prop :=
  exists g r e, go_at s a = Some g /\ In r (ugComps g) /\ srFile r <> 0 /\ c = (fst a, srFile r) /\ elem_at s c = Some e /\ is e = true.
End S.
(** Where Unity puts a point given relative to the last of the transforms: scaled, turned and moved by each of them, the last one first. *)
Definition unity_point (t : utrans R) (v : vec3 R) : vec3 R :=
  v3add (utPos t) (unity_turn (utRot t) (mkV3 (vx (utScale t) * vx v)%R (vy (utScale t) * vy v)%R (vz (utScale t) * vz v)%R)).
Definition unity_points (l : list (utrans R)) (v : vec3 R) : vec3 R := fold_right unity_point v l.
