(** What saving keeps of the plugins of a document. *)
From Coq Require Import String List ZArith.
From Verif.Model Require Import Num Vec Matrix Mqo MqoDoc MqoText Mqx.
Import ListNotations.
Local Open Scope list_scope.

Section Spec.
Context {T : Type}.
(** The object has weights of one of the bones. *)
Definition skins (p : boneplugin T) (id : Z) : Prop :=
  (exists b w, In b (plBones p) /\ In w (qbWeights b) /\ fst w = id) \/ (exists b w, In b (plOld p) /\ In w (obWeights b) /\ fst (fst w) = id).
(** Objects without id are numbered. *)
Definition object_id (os : list (object T)) (id : Z) : Prop := exists i o, nth_error os i = Some o /\ id = if (oUID o <=? 0)%Z then (Z.of_nat i + 1)%Z else oUID o.

(** The plugin that is read for one that was written with these objects: everything is the same but the list of objects with weights, which is completed. *)
Definition same_plugin (os : list (object T)) (p p' : plugin T) : Prop :=
  match p, p' with
  | PBones b, PBones b' => plBones b' = plBones b /\ plOld b' = plOld b /\ plLimit b' = plLimit b /\ plPoses b' = plPoses b /\ plName b' = "Bone"%string /\
                           (forall id, In id (plObj b') <-> In id (plObj b) \/ (skins b id /\ object_id os id))
  | PMorphs m, PMorphs m' => m' = m
  | PPhysics f, PPhysics f' => f' = f
  | _, _ => False
  end.
Definition physical (p : plugin T) : bool := match p with PPhysics _ => true | _ => false end.
Definition kind (p : plugin T) : nat := match p with PBones _ => 0 | PMorphs _ => 1 | PPhysics _ => 2 end.
(** There is one plugin of a kind, and lists of numbers in them have the right lengths. *)
Definition proper_plugin (p : plugin T) : Prop :=
  match p with PBones b => Forall (fun o => length (obNums o) = 19%nat) (plOld b) /\ Forall (fun q => length (bpNums q) = 9%nat) (plPoses b) | _ => True end.
Definition proper (ps : list (plugin T)) : Prop := NoDup (map kind ps) /\ Forall proper_plugin ps.
End Spec.
