(** What a glTF scene shows, after the glTF 2.0 specification, and what an MQO document shows. *)
From Coq Require Import String List ZArith Bool.
From Verif.Model Require Import Num Vec Matrix Mqo MqoDoc Gltf GltfScene.
Import ListNotations.
Local Open Scope Z_scope.

Section Spec.
Context {T : Type} {N : Num T}.

(** Node [i] is in the scene, and [f] takes its points to their places: its own matrix first, then
    those of the nodes above it. *)
Inductive placed (d : xdoc T) : nat -> (vec3 T -> vec3 T) -> Prop :=
| placed_root i n : In i (xdScene d) -> nth_error (xdNodes d) i = Some n -> placed d i (mat_apply (xnMatrix n))
| placed_child p np f c nc : placed d p f -> nth_error (xdNodes d) p = Some np -> In c (xnChildren np) -> nth_error (xdNodes d) c = Some nc ->
    placed d c (fun v => f (mat_apply (xnMatrix nc) v)).

(** Vertex number [k] of those the primitive draws: by its indices, or one after the other. *)
Definition draws_vertex (p : prim T) (k : nat) (q : vec3 T) : Prop :=
  exists pos, gpPos p = Some pos /\
    match gpIndices p with
    | Some is_ => exists i, nth_error is_ k = Some i /\ 0 <= i /\ nth_error pos (Z.to_nat i) = Some q
    | None => nth_error pos k = Some q
    end.
(** The vertices of triangle [k] in each of the modes that draw triangles. *)
Inductive corners : Z -> nat -> nat -> nat -> nat -> Prop :=
| cor_list k : corners 4 k (3 * k) (3 * k + 1) (3 * k + 2)
| cor_strip k : Nat.Even k -> corners 5 k k (k + 1) (k + 2)
| cor_strip_odd k : Nat.Odd k -> corners 5 k k (k + 2) (k + 1)
| cor_fan k : corners 6 k (k + 1) (k + 2) 0.

(** The scene shows a triangle with this material and these corners. *)
Definition drawn (d : xdoc T) (mat : option Z) (a b c : vec3 T) : Prop :=
  exists i n f j m p k x y z qa qb qc, placed d i f /\ nth_error (xdNodes d) i = Some n /\ xnMesh n = Some j /\
    nth_error (xdMeshes d) j = Some m /\ In p (xmPrims m) /\ gpMaterial (xpPrim p) = mat /\ corners (xpMode p) k x y z /\
    draws_vertex (xpPrim p) x qa /\ draws_vertex (xpPrim p) y qb /\ draws_vertex (xpPrim p) z qc /\
    a = f qa /\ b = f qb /\ c = f qc.
(** The MQO document shows it; the corners are listed in the opposite order there. *)
Definition shown (os : list (object T)) (mat : Z) (a b c : vec3 T) : Prop :=
  exists o f x y z, In o os /\ In f (oFaces o) /\ fMaterial f = mat /\ fVerts f = [x; z; y] /\
    zidx (oVerts o) x = Some a /\ zidx (oVerts o) y = Some b /\ zidx (oVerts o) z = Some c.

(** The document shows what the scene shows. *)
Definition same_look (d : xdoc T) (os : list (object T)) : Prop :=
  (forall mat a b c, drawn d mat a b c -> exists k, mat = Some k /\ shown os k a b c) /\
  (forall k a b c, shown os k a b c -> drawn d (Some k) a b c).

(** A mesh of triangles on one list of positions, each with a material. *)
Definition simple_mesh (m : xmesh T) : Prop := exists pos, forall p, In p (xmPrims m) ->
  xpMode p = 4 /\ gpPos (xpPrim p) = Some pos /\ gpMaterial (xpPrim p) <> None /\
  exists is_, gpIndices (xpPrim p) = Some is_ /\ Forall (fun i => 0 <= i < Z.of_nat (length pos)) is_.
(** The nodes with meshes are all in the scene, and their points are not moved. *)
Definition nodes_in_place (d : xdoc T) : Prop := forall i n j, nth_error (xdNodes d) i = Some n -> xnMesh n = Some j ->
  (exists f, placed d i f) /\ forall f, placed d i f -> forall v, f v = v.

(** The file whose picture the material shows: the image of its texture. *)
Definition shows_image (d : xdoc T) (m : xmat T) (uri : string) : Prop :=
  exists i s, xtPbr m = true /\ xtTexture m = Some i /\ nth_error (xdTextures d) i = Some (Some s) /\ nth_error (xdImages d) s = Some uri.
End Spec.
