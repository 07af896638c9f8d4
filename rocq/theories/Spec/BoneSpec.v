(** The bone hierarchy, on positions in the bone list. *)
From Coq Require Import List ZArith.
From Verif.Model Require Import Num Vec Matrix Mqo MqoDoc.
Import ListNotations.

Section Bones.
Context {T : Type}.
(** Bone [i] names bone [p] as its parent. *)
Definition child_of (bones : list (bone T)) (i p : nat) : Prop :=
  exists b pb, nth_error bones i = Some b /\ nth_error bones p = Some pb /\
               (0 < bParent b)%Z /\ bID pb = bParent b.
(** [base] is [i] or one of its ancestors. *)
Inductive descends (bones : list (bone T)) (base : nat) : nat -> Prop :=
| desc_self : descends bones base base
| desc_step i p : child_of bones i p -> descends bones base p -> descends bones base i.
End Bones.
