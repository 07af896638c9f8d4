(** Documents that are put together. *)
From Coq Require Import List ZArith.
From Verif.Model Require Import FbxBuild.
Import ListNotations.

(** Every object is added once it is made, and connected when both ends are added or the scene.  [n]: the objects made so far; [l]: those added. *)
Inductive orderly : nat -> list nat -> list step -> Prop :=
  | OEnd n l : orderly n l []
  | OMake n l k r : orderly (S n) l r -> orderly n l (SMake k :: r)
  | OTake n l k id r : orderly (S n) l r -> orderly n l (STake k id :: r)
  | OAdd n l p r : (0 < p < n)%nat -> orderly n (p :: l) r -> orderly n l (SAdd p :: r)
  | OConnect n l a b r : In a (0%nat :: l) -> In b (0%nat :: l) -> orderly n l r -> orderly n l (SConnect a b :: r).
(** Two documents read the same: objects by id, what they hold, whose children models are, and the materials. *)
Definition same_objects (d d' : bdoc) : Prop := forall id, lookup Z.eqb (bdTable d) id = lookup Z.eqb (bdTable d') id.
Definition same_refs (d d' : bdoc) : Prop := forall p, refs_of d p = refs_of d' p.
Definition same_parents (d d' : bdoc) : Prop := forall p, parent_of d p = parent_of d' p.
Definition same_materials (d d' : bdoc) : Prop := bdMats d = bdMats d'.
