(** What the IK of a PMX model means for the bones of the MQO document. *)
From Coq Require Import String List ZArith.
From Verif.Model Require Import Num Vec Mqo MqoDoc Mmd2Mqo Mqo2Mmd MmdIk.
Import ListNotations.
Local Open Scope Z_scope.

Section Spec.
Context {T : Type}.
Definition has_ik (b : ikbone T) : Prop := ibLinks b <> [].
Definition targets_exist (bs : list (ikbone T)) : Prop := forall b, In b bs -> has_ik b -> 0 <= ibTarget b < Z.of_nat (length bs).
(** No bone is the end of two chains. *)
Definition targets_differ (bs : list (ikbone T)) : Prop :=
  forall i j b c, nth_error bs i = Some b -> nth_error bs j = Some c -> has_ik b -> has_ik c -> ibTarget b = ibTarget c -> i = j.
(** The bone the tail of a bone is at. *)
Definition tail_is (bs : list (ikbone T)) (b : ikbone T) (name : string) : Prop :=
  (exists x, zidx bs (pbTail (ibBone b)) = Some x /\ name = pbName (ibBone x)) \/ (zidx bs (pbTail (ibBone b)) = None /\ name = EmptyString).
(** The links are the bones above the target, one after the other. *)
Fixpoint above (bs : list (ikbone T)) (t : Z) (links : list Z) : Prop :=
  match links with
  | [] => True
  | l :: r => (exists b, zidx bs t = Some b /\ pbParent (ibBone b) = l) /\ above bs l r
  end.
(** The first [n] bones of an MQO document on the way up from the bone with number [id]. *)
Fixpoint chain (bones : list (bone T)) (n : nat) (id : Z) : list Z :=
  match n with
  | O => []
  | S n => match find (fun b => bID b =? id) bones with Some b => id :: chain bones n (bParent b) | None => [] end
  end.
End Spec.
