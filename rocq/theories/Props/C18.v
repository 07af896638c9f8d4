(** C18: saving twice.  Full claim: PreSerialize is idempotent.  False as soon as one object is
    weighted: the object list is appended to on every save. *)
From Coq Require Import String List ZArith.
From Verif.Model Require Import Num Vec Matrix Mqo MqoDoc.
From Verif.Proofs Require Import BoneProofs.
Import ListNotations.
Local Open Scope Z_scope.

(** The first save lists exactly the ids of the objects that carry weights. *)
Theorem C18_first_save (T : Type) (w : list Z) (os : list (object T)) id :
  In id (pre_serialize w os []) <->
  In id w /\ exists i o, nth_error os i = Some o /\ id = if oUID o <=? 0 then Z.of_nat i + 1 else oUID o.
Proof. exact (saved_ids_In w os id). Qed.
Print Assumptions C18_first_save.

(** Every further save appends the list once more, so it is idempotent exactly if nothing is
    weighted. *)
Theorem C18_second_save (T : Type) (w : list Z) (os : list (object T)) obj :
  pre_serialize w os (pre_serialize w os obj) = obj ++ pre_serialize w os [] ++ pre_serialize w os [].
Proof. exact (pre_serialize_twice w os obj). Qed.
Print Assumptions C18_second_save.
Theorem C18_idempotent_iff (T : Type) (w : list Z) (os : list (object T)) obj :
  pre_serialize w os (pre_serialize w os obj) = pre_serialize w os obj <-> pre_serialize w os [] = [].
Proof. exact (pre_serialize_idem w os obj). Qed.
Print Assumptions C18_idempotent_iff.

Definition skinned : object Z :=
  mkObj 4 "o" [mkV3 0 0 0] [] true false 0 false 1 0 0 0 0 0 None None None None [] None.
Definition hip : bone Z := mkBone 1 "hip" 0 (mkV3 0 0 0) [(4, [(1, 100)])].
Theorem C18_save_twice_refuted : exists (bones : list (bone Z)) (os : list (object Z)),
  let w := weighted_objects bones in
  pre_serialize w os (pre_serialize w os []) <> pre_serialize w os [].
Proof. exists [hip], [skinned]. discriminate. Qed.
Print Assumptions C18_save_twice_refuted.
Example C18_run : pre_serialize (weighted_objects [hip]) [skinned; set_uid skinned 0] [] = [4].
Proof. reflexivity. Qed.
