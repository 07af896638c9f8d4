(** The skeleton of an FBX document, and what its bones are to be. *)
From Coq Require Import String Ascii List ZArith Bool.
From Verif.Model Require Import Num Vec Matrix Mqo MqoDoc FbxDoc Fbx2Mqo.
From Verif.Spec Require Import FbxSceneSpec FbxMeshSpec.
Import ListNotations.
Local Open Scope list_scope.
Local Open Scope Z_scope.

Section S.
Context {T : Type} {N : Num T}.
Variable d : fdoc T.

(** The deformers that bind the mesh of model [o], each with the number of its object. *)
Definition bound_by (op : foption T) (o : nat) (uid : Z) : list (nat * Z) :=
  if opNoBones op then [] else match geometry d o with Some (k, _) => map (fun x => (x, uid)) (clusters d k) | None => [] end.
(** Those among [js] that bind to model [m]. *)
Definition bindings (js : list (nat * Z)) (m : nat) : list (fdef T * Z) :=
  flat_map (fun j => match fdObjs d (fst j) with
                     | Some (ODef f) => match find (is_model d) (refs d (fst j)) with Some x => if Nat.eqb x m then [(f, snd j)] else [] | None => [] end
                     | _ => []
                     end) js.
(** Model [x] is [m] or above it. *)
Inductive up : nat -> nat -> Prop :=
| up_refl m : up m m
| up_step m p x : parent d m = Some p -> up p x -> up m x.
(** The models of the skeleton: those that meshes are bound to, and the models above them, without the scene. *)
Definition skeleton (js : list (nat * Z)) (x : nat) : Prop := x <> fdScene d /\ exists m, bindings js m <> [] /\ up m x.

(** The weights of a bone for one object, and what the deformers say; vertices are counted from one. *)
Definition weights_in (ws : list (Z * list (Z * T))) (uid : Z) : list (Z * T) := match find (fun e => fst e =? uid) ws with Some (_, l) => l | None => [] end.
Definition given (fs : list (fdef T * Z)) (uid : Z) : list (Z * T) :=
  flat_map (fun p => if snd p =? uid then if Nat.eqb (length (dfWeights (fst p))) (length (dfIndexes (fst p))) then map (fun q => (fst q + 1, snd q)) (combine (dfIndexes (fst p)) (dfWeights (fst p))) else [] else []) fs.
(** Where a bone is: at the model if no mesh is bound to it, otherwise where the last deformer says it was when it was bound. *)
Definition bone_at (coord : mat4 T) (m : nat) (fs : list (fdef T * Z)) (p : vec3 T) : Prop :=
  match rev fs with
  | [] => exists w, world_of d m w /\ p = mat_apply (mat_mul coord w) zero3
  | (f, _) :: _ => p = mat_apply (mat_mul coord (dfLink f)) zero3
  end.
(** Bone number [i + 1] is that of model [m]; [M] are the models of all bones. *)
Definition bone_for (coord : mat4 T) (js : list (nat * Z)) (M : list nat) (i m : nat) (b : bone T) : Prop :=
  bID b = Z.of_nat i + 1 /\ bName b = bone_name (name d m) /\
  match parent d m with
  | None => bParent b = 0
  | Some p => if Nat.eqb p (fdScene d) then bParent b = 0 else exists j, (j < i)%nat /\ nth_error M j = Some p /\ bParent b = Z.of_nat j + 1
  end /\
  bone_at coord m (bindings js m) (bPos b) /\ NoDup (map fst (bWeights b)) /\ forall uid, weights_in (bWeights b) uid = given (bindings js m) uid.
End S.
