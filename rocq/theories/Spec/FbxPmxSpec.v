(** What a PMX model of an FBX document should show. *)
From Coq Require Import String List ZArith Bool.
From Verif.Model Require Import Num Vec Matrix Mqo MqoDoc Mmd2Mqo FbxDoc Fbx2Mqo.
From Verif Require Import Spec.Surface Spec.FbxSceneSpec Spec.FbxMeshSpec Spec.Mqo2MmdSpec Spec.SceneDrawnSpec.
Import ListNotations.
Local Open Scope Z_scope.
Local Open Scope list_scope.

Section Spec.
Context {T : Type} {N : Num T}.

(** The materials of the faces of a PMX model: each material has as many faces as a third of its count says, in order. *)
Definition face_owners (mats : list pmat) : list nat :=
  flat_map (fun km => repeat (fst km) (Z.to_nat (pmCount (snd km) / 3))) (combine (seq 0 (length mats)) mats).

Variables (scale tenth : T) (move : vec3 T -> vec3 T) (d : fdoc T) (coord : mat4 T) (p : pmodel T).

(** PMX vertex [id] is corner [a] of polygon [i] of a model: at its place, scaled and mirrored, with its texture coordinate. *)
Definition is_fcorner (g : fgeom T) (w : mat4 T) (i : nat) (poly : list Z) (a : nat) (id : Z) : Prop :=
  exists vi v x, nth_error poly a = Some vi /\ zidx (gVerts g) vi = Some v /\ zidx (pVerts p) id = Some x /\
    pvPos x = scaled scale (move (mat_apply (mat_mul coord w) v)) /\
    (full_uvs g -> exists u, layer_value (gUVs g) i (first_corner g i + a) vi = Some u /\ pvUV x = mkV2 (v2x u) (nsub none (v2y u))).
(** A face of material [m] is a piece of a polygon, its corners in the opposite order: FBX lists them counter-clockwise, PMX clockwise. *)
Definition is_piece (q : piece) (t : nat * list Z) : Prop :=
  let '(o, i, (a, b, c)) := q in
  exists k g w poly mo m x y z, geometry d o = Some (k, g) /\ world_of d o w /\ nth_error (polygons g) i = Some poly /\
    painted d o g i mo /\ nth_error (pMats p) (fst t) = Some m /\ pmName m = mtName (convert_material tenth d mo) /\
    snd t = [z; y; x] /\ is_fcorner g w i poly a x /\ is_fcorner g w i poly b y /\ is_fcorner g w i poly c z.
End Spec.
