(** Smooth normals, vertex by vertex. *)
From Coq Require Import String List ZArith Bool.
From Verif.Model Require Import Num Vec Matrix Mqo MqoDoc.
Import ListNotations.
Local Open Scope Z_scope.

Section Spec.
Context {T : Type} {N : Num T}.

(** Corner [i] of a polygon, counted around it. *)
Definition around (f : face T) (i : nat) : Z := nth (i mod length (fVerts f)) (fVerts f) 0.
Definition point (o : object T) (v : Z) : vec3 T := nth (Z.to_nat v) (oVerts o) (mkV3 nzero nzero nzero).
(** The normal at a corner: the stored one, or that of the plane through the corner and its neighbours. *)
Definition normal_at (o : object T) (f : face T) (i : nat) : vec3 T :=
  match nth_error (fNormals f) i with
  | Some (Some n) => n
  | _ => let p := point o (around f i) in
         let before := point o (around f (i + (length (fVerts f) - 1))) in
         let after := point o (around f (i + 1)) in
         v3normalize (v3cross (v3sub before p) (v3sub after p))
  end.
(** The normals at all corners that are vertex [v]. *)
Definition normals_around (o : object T) (v : Z) : list (vec3 T) :=
  flat_map (fun f => flat_map (fun i => if around f i =? v then [normal_at o f i] else []) (seq 0 (length (fVerts f)))) (oFaces o).
Definition v3sum (l : list (vec3 T)) : vec3 T := fold_left v3add l (mkV3 nzero nzero nzero).

Definition valid_object (o : object T) : Prop :=
  Forall (fun f => Forall (fun v => 0 <= v < Z.of_nat (length (oVerts o))) (fVerts f)) (oFaces o).
(** A face has all its normals. *)
Definition complete (f : face T) : bool := Nat.eqb (length (fNormals f)) (length (fVerts f)).
End Spec.
