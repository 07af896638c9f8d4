(** Well-formed heaps and separation, for [Object.Clone]. *)
From Coq Require Import List ZArith.
From Verif.Model Require Import Num Vec MqoClone.
Import ListNotations.

Section Heap.
Context {T : Type}.
Implicit Types (h : heap T) (P : nat -> Prop).

(** The kind of a cell never changes. *)
Definition kind (c : cell T) : nat :=
  match c with CVec _ => 0 | CVPtrs _ => 1 | CFPtrs _ => 2 | CInts _ => 3 | CUVs _ => 4 | CFace _ _ _ _ _ => 5 | CMap _ => 6 end.
Definition has_kind h a k := exists c, nth_error h a = Some c /\ kind c = k.

(** Pointers stored in a cell stay inside [P] and have the right type. *)
Definition cell_ok P h (c : cell T) : Prop :=
  match c with
  | CVPtrs l => Forall (fun p => match p with None => True | Some b => P b /\ has_kind h b 0 end) l
  | CFPtrs l => Forall (fun p => match p with None => True | Some b => P b /\ has_kind h b 5 end) l
  | CFace _ vs _ us ns => (P vs /\ has_kind h vs 3) /\ (P us /\ has_kind h us 4) /\ (P ns /\ has_kind h ns 1)
  | _ => True
  end.
Definition closed P h : Prop := forall a, P a -> exists c, nth_error h a = Some c /\ cell_ok P h c.
Definition owns P h (o : hobj) : Prop :=
  closed P h /\ (P (hVerts o) /\ has_kind h (hVerts o) 1) /\ (P (hFaces o) /\ has_kind h (hFaces o) 2).


(** Every pointer of the heap leads to a cell of its type, and so do the two slices of [o]. *)
Definition wf h (o : hobj) : Prop := owns (fun a => a < length h) h o.

(** Edits of two objects in any order: [true] marks an edit of the first. *)
Fixpoint both_edits h (o o' : hobj) (es : list (bool * edit T)) : option (heap T) :=
  match es with
  | [] => Some h
  | (w, e) :: r =>
      match apply_edit h (if w then o else o') e with
      | Some h1 => both_edits h1 o o' r
      | None => None
      end
  end.

(** A face without uid and normals. *)
Definition stripped (f : face_view T) : face_view T := mkFV 0 (fvVerts f) (fvMat f) (fvUVs f) [].
End Heap.
