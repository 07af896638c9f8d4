(** What the mesh of an object of a Unity scene is to show: a model of an FBX file, in the place and the materials of the object. *)
From Coq Require Import String Ascii List ZArith Bool.
From Verif.Model Require Import Num Vec Matrix Mqo MqoDoc FbxDoc Fbx2Mqo.
From Verif.Spec Require Import FbxSceneSpec FbxMeshSpec.
Import ListNotations.
Local Open Scope string_scope.
Local Open Scope list_scope.
Local Open Scope Z_scope.

Section S.
Context {T : Type} {N : Num T}.
Variable d : fdoc T.

(** The models at the top of a file have names, as in binary files. *)
Definition named_models : Prop := Forall (fun o => exists n, plain n /\ name d o = binary_name n) (children d (fdScene d)).
(** The model [o] at the top is the first one with the name [n]. *)
Definition first_named (n : string) (o : nat) : Prop :=
  exists l r, children d (fdScene d) = l ++ o :: r /\ name d o = binary_name n /\ Forall (fun c => name d c <> binary_name n) l.
Definition not_named (n : string) : Prop := Forall (fun c => name d c <> binary_name n) (children d (fdScene d)).

(** Where the model of a file goes: the axes of the file, around its pivot, in units of 1 / 100 and turned about the second axis, to the object. *)
Definition import_place (coord tr : mat4 T) (unit : T) (o : nat) : mat4 T :=
  mat_mul (mat_mul tr (mat_scale (nopp unit) unit (nopp unit))) (mat_mul (mat_translate (nopp (vx (pivot d o))) (nopp (vy (pivot d o))) (nopp (vz (pivot d o)))) coord).
(** Models below it go to their places relative to it. *)
Definition place_below (top : nat -> mat4 T) (path : list nat) : mat4 T :=
  match path with [] => mat_id | o :: r => fold_left mat_mul (map (local d) r) (top o) end.

(** Numbers in the order of their first use. *)
Fixpoint firsts (seen : list Z) (l : list Z) : list Z :=
  match l with [] => [] | x :: r => if existsb (Z.eqb x) seen then firsts seen r else x :: firsts (x :: seen) r end.
(** The materials [used] of a mesh are those of the object, [mats]: the only one, or one for each material of the mesh in the order of first use. *)
Definition dressed (mats : list Z) (g : fgeom T) (used : list Z) : Prop :=
  match mats with
  | [] => True
  | [m] => used = [m]
  | _ => if Nat.ltb 1 (length (lIndexes (gMats g)))
         then length used = length mats /\ forall n j x, nth_error (filter (fun j => j <? Z.of_nat (length mats)) (firsts [] (lIndexes (gMats g)))) n = Some j -> nth_error mats n = Some x -> zidx used j = Some x
         else used = mats
  end.
(** The mesh of the model at the end of a path. *)
Definition mesh_in (m : mat4 T) (mats : list Z) (path : list nat) (x : object T) : Prop :=
  match geometry d (last path 0%nat) with
  | None => oVerts x = [] /\ oFaces x = []
  | Some (k, g) => oVerts x = map (mat_apply m) (gVerts g) /\
      exists used, drawn_all g used (normal_transform m) (oFaces x) /\ (length path = 1%nat -> dressed mats g used)
  end.
(** All shapes are taken. *)
Definition plain_op : foption T := mkFOpt false false false 0 None "" None.
(** An object stands for a model or shape, below an object at [depth]. *)
Definition stands (depth : Z) (m : mat4 T) (mats : list Z) (l : @label T) (x : object T) : Prop :=
  oDepth x = depth + 1 + depth_of l /\ oVisible x = match snd l with None => true | Some _ => false end /\
  oName x = match snd l with None => object_name (name d (model_of l)) | Some s => shown_name (shName s) end /\
  (snd l = None -> mesh_in m mats (fst l) x).
End S.
