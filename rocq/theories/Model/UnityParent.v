(** [unity/unity_components.go] and [unity/unity.go]: the parent of a transform, its world matrix, and the components of an object in a loaded scene (UnityScene.v). *)
From Coq Require Import String List ZArith Bool.
From Verif.Model Require Import Num Vec Matrix Unity UnityScene.
Import ListNotations.
Local Open Scope list_scope.
Local Open Scope Z_scope.

Section Parent.
Context {T : Type} {N : Num T}.
(** [GetParent] (unity_components.go 110-114): the father is looked up in the file of the transform, without an instance. *)
Definition get_parent (s : scene T) (a : addr) : option addr :=
  match tr_at s a with
  | Some t => match get_element2 s (fst a) (Some (utFather t)) None with
              | Some b => match tr_at s b with Some _ => Some b | None => None end
              | None => None
              end
  | None => None
  end.
(** [GetMatrix] (unity_components.go 68-73), by that of Unity.v. *)
Definition local_matrix (t : utrans T) : mat4 T := get_matrix (mkTr (utPos t) (utRot t) (utScale t) None).
(** [GetWorldMatrix] (unity_components.go 75-81); [None]: no transform there, or out of fuel. *)
Fixpoint scene_world (fuel : nat) (s : scene T) (a : addr) : option (mat4 T) :=
  match fuel with
  | O => None
  | S f =>
      match tr_at s a with
      | None => None
      | Some t =>
          match get_parent s a with
          | None => Some (local_matrix t)
          | Some p => match scene_world f s p with Some m => Some (mat_mul m (local_matrix t)) | None => None end
          end
      end
  end.
(** [GetComponents] (unity.go 97-106) and [GetComponent] (unity.go 85-95) for the type of element that [is] tells. *)
Definition has_type (is : elem T -> bool) (s : scene T) (a : addr) : bool := match elem_at s a with Some e => is e | None => false end.
Fixpoint components (is : elem T -> bool) (s : scene T) (p : list Z) (inst : option sref) (cs : list sref) : list addr :=
  match cs with
  | [] => []
  | c :: r => match get_element2 s p (Some c) inst with
              | Some a => if has_type is s a then a :: components is s p inst r else components is s p inst r
              | None => components is s p inst r
              end
  end.
Fixpoint component (is : elem T -> bool) (s : scene T) (p : list Z) (inst : option sref) (cs : list sref) : option addr :=
  match cs with
  | [] => None
  | c :: r => match get_element2 s p (Some c) inst with
              | Some a => if has_type is s a then Some a else component is s p inst r
              | None => component is s p inst r
              end
  end.
Definition get_components (is : elem T -> bool) (s : scene T) (a : addr) : list addr := match go_at s a with Some g => components is s (fst a) (ugPrefab g) (ugComps g) | None => [] end.
Definition get_component (is : elem T -> bool) (s : scene T) (a : addr) : option addr := match go_at s a with Some g => component is s (fst a) (ugPrefab g) (ugComps g) | None => None end.
End Parent.
