(** What nodes of a glTF document draw, and which objects can share their geometry. *)
From Coq Require Import String List ZArith Bool Reals.
From Verif.Model Require Import Num NumR Vec Matrix Mqo MqoDoc Gltf Mqo2GltfShared.
From Verif Require Import Spec.GeomSpec.
Import ListNotations.
Local Open Scope R_scope.

(** *** Drawing *)

Section Draw.
Context {T : Type} {N : Num T}.
Definition placed (m : option (mat4 T)) (p : vec3 T) : vec3 T := match m with Some m => mat_apply m p | None => p end.
(** A corner: where it is, and its texture coordinate. *)
Definition corner : Type := (option (vec3 T) * option (vec2 T))%type.
Definition corner_of (m : option (mat4 T)) (p : prim T) (i : Z) : corner :=
  (match gpPos p with Some ps => option_map (placed m) (zidx ps i) | None => None end,
   match gpUV p with Some us => zidx us i | None => None end).
(** A primitive draws its corners in its material, three by three. *)
Definition drawn_prim (m : option (mat4 T)) (p : prim T) : option Z * list corner :=
  (gpMaterial p, map (corner_of m p) (match gpIndices p with Some l => l | None => [] end)).
Definition drawn_mesh (m : option (mat4 T)) (mesh : option (gmesh T)) : list (option Z * list corner) :=
  match mesh with Some g => map (drawn_prim m) (gmPrims g) | None => [] end.
Definition drawn (n : snode T) : list (option Z * list corner) := drawn_mesh (snMatrix n) (snMesh n).
End Draw.
Arguments corner : clear implicits.

Definition origin : vec3 R := mkV3 0 0 0.
Definition moved (v : vec3 R) (l : list (option Z * list (corner R))) : list (option Z * list (corner R)) :=
  map (fun p => (fst p, map (fun c => (option_map (fun q => v3add q v) (fst c), snd c)) (snd p))) l.

(** *** Copies *)

(** [o0] and [o] are the same triangles in two places; their materials may be different, but tell
    the same faces apart and are exported. *)
Definition copies (mmap : Z -> option Z) (o0 o : object R) (t0 t : mat4 R) : Prop :=
  (exists pts, oVerts o0 = map (mat_apply t0) pts /\ oVerts o = map (mat_apply t) pts) /\
  Forall2 (fun f0 f => length (fVerts f) = 3%nat /\ fVerts f = fVerts f0 /\ fUVs f = fUVs f0 /\
                       mmap (fMaterial f0) <> None /\ mmap (fMaterial f) <> None) (oFaces o0) (oFaces o) /\
  (forall i j f0 f g0 g, nth_error (oFaces o0) i = Some f0 -> nth_error (oFaces o) i = Some f ->
     nth_error (oFaces o0) j = Some g0 -> nth_error (oFaces o) j = Some g ->
     (mmap (fMaterial f0) = mmap (fMaterial g0) <-> mmap (fMaterial f) = mmap (fMaterial g))).

(** Two objects at least have the key. *)
Definition reused (os : list (sobj R)) (k : string) : Prop :=
  exists l a m b r, os = l ++ a :: m ++ b :: r /\ soKey a = Some k /\ soKey b = Some k.
(** Visible objects with the same key are copies, placed by their transforms. *)
Definition reusable (mmap : Z -> option Z) (os : list (sobj R)) : Prop :=
  forall k a b, reused os k -> In a os -> In b os -> soKey a = Some k -> soKey b = Some k ->
    oVisible (soObj a) = true -> oVisible (soObj b) = true ->
    exists ta tb, oInternal (soObj a) = Some ta /\ oInternal (soObj b) = Some tb /\ affine ta /\ affine tb /\ mat_det ta <> 0 /\
      copies mmap (soObj a) (soObj b) ta tb.
(** The first visible object with the key. *)
Definition first_with (os : list (sobj R)) (k : string) (o : sobj R) : Prop :=
  exists l r, os = l ++ o :: r /\ soKey o = Some k /\ oVisible (soObj o) = true /\
    Forall (fun x => soKey x = Some k -> oVisible (soObj x) = false) l.

(** How far copies are from their place: a copy of an object whose transform takes [q] to the
    origin. *)
Definition displaced (scale : R) (os : list (sobj R)) (o : sobj R) (v : vec3 R) : Prop :=
  (exists k o0 t0 t q, soKey o = Some k /\ reused os k /\ first_with os k o0 /\
     oInternal (soObj o0) = Some t0 /\ oInternal (soObj o) = Some t /\ mat_apply t0 q = origin /\
     v = v3scale (v3sub (mat_apply t origin) (mat_apply t q)) (scale - 1)) \/
  ((forall k, soKey o = Some k -> ~ reused os k) /\ v = origin).
