(** Notions used to state properties of MQO objects. *)
From Coq Require Import List ZArith.
From Verif.Model Require Import Num Vec Mqo.
From Verif.Spec Require Import Surface.
Import ListNotations.

Section S.
Context {T : Type}.

(** A face whose corners address vertices of an object with [nv] vertices and whose optional
    per-corner attributes are either absent or given for every corner. *)
Definition face_ok (nv : nat) (f : face T) : Prop :=
  Forall (fun v => (0 <= v < Z.of_nat nv)%Z) (fVerts f) /\
  (fUVs f = [] \/ length (fUVs f) = length (fVerts f)) /\
  (fNormals f = [] \/ length (fNormals f) = length (fVerts f)).

(** [dst] lists the values of [src] at three given corners ([[]] if the attribute is absent). *)
Definition at_corners {A} (src dst : list A) (t : nat * nat * nat) : Prop :=
  let '(a, b, c) := t in
  (src = [] /\ dst = []) \/
  (exists x y z, nth_error src a = Some x /\ nth_error src b = Some y /\ nth_error src c = Some z /\
                 dst = [x; y; z]).

(** [g] is the triangle of [f] on the corners [t], with [f]'s attributes at those corners. *)
Definition triangle_of (f g : face T) (t : nat * nat * nat) : Prop :=
  (exists x y z, fVerts g = [x; y; z]) /\
  at_corners (fVerts f) (fVerts g) t /\ at_corners (fUVs f) (fUVs g) t /\
  at_corners (fNormals f) (fNormals g) t /\ fMaterial g = fMaterial f.

(** The triangles [gs] are exactly the polygon [f], cut along diagonals. *)
Definition triangulates (f : face T) (gs : list (face T)) : Prop :=
  length gs = length (fVerts f) - 2 /\
  (length (fVerts f) < 3 -> gs = []) /\
  (3 <= length (fVerts f) ->
   exists ts, Forall2 (triangle_of f) gs ts /\ Forall tri_distinct ts /\
              dissects (seq 0 (length (fVerts f))) ts).
End S.
