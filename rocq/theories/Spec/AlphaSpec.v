(** Which pixels of its texture a material shows. *)
From Coq Require Import String List ZArith QArith Bool.
From Verif.Model Require Import Num Vec Matrix Mqo MqoDoc Mqo2GltfTextures.
Import ListNotations.
Local Open Scope Z_scope.

(** [u] is the texture coordinate of a corner of a face with material [i]. *)
Definition corner_at (fs : list (face Q)) (i : Z) (u : vec2 Q) : Prop :=
  exists f k v, In f fs /\ fMaterial f = i /\ (3 <= length (fVerts f))%nat /\ nth_error (fVerts f) k = Some v /\ nth_error (fUVs f) k = Some u.
(** Inside of the picture, which is repeated beyond. *)
Definition in_picture (u : vec2 Q) : Prop := (0 <= v2x u < 1 /\ 0 <= v2y u < 1)%Q.
(** The pixel at [x], [y] lies in the rectangle around corners of the material. *)
Definition in_box (corner : vec2 Q -> Prop) (p : pic) (x y : Z) : Prop :=
  0 <= x < pW p /\ 0 <= y < pH p /\
  exists a b c d, corner a /\ corner b /\ corner c /\ corner d /\ in_picture a /\ in_picture b /\ in_picture c /\ in_picture d /\
    (v2x a * inject_Z (pW p) <= inject_Z x /\ inject_Z (x + 1) <= v2x b * inject_Z (pW p) /\
     v2y c * inject_Z (pH p) <= inject_Z y /\ inject_Z (y + 1) <= v2y d * inject_Z (pH p))%Q.
(** Every vertex has one texture coordinate and is used by faces of one material. *)
Definition one_use (fs : list (face Q)) : Prop :=
  forall f g k l v, In f fs -> In g fs -> nth_error (fVerts f) k = Some v -> nth_error (fVerts g) l = Some v ->
    fMaterial f = fMaterial g /\ nth_error (fUVs f) k = nth_error (fUVs g) l.
