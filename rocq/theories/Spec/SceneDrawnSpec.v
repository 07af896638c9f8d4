(** What a glTF document should draw for an MQO document, and for an FBX document. *)
From Coq Require Import String List ZArith Bool.
From Verif.Model Require Import Num Vec Matrix Mqo MqoDoc Gltf FbxDoc Fbx2Mqo.
From Verif Require Import Spec.Surface Spec.GltfSpec Spec.DrawnSpec Spec.FbxSceneSpec Spec.FbxMeshSpec.
Import ListNotations.
Local Open Scope Z_scope.
Local Open Scope list_scope.

Section Doc.
Context {T : Type} {N : Num T}.
Variables (scale eps centi : T) (unlit : bool) (bones : list (bone T)) (base : nat).

(** The nodes of the bones that move vertex [x] of an object, with their weights. *)
Definition nodes_at (o : object T) (x : Z) : list (option nat * T) :=
  flat_map (fun ib => flat_map (fun l => map (fun e => (Some (base + fst ib)%nat, nmul (snd e) centi)) (filter (fun e => get_vertex_index_by_id o (fst e) =? x) (snd l)))
                               (filter (fun l => fst l =? oUID o) (bWeights (snd ib))))
           (combine (seq 0 (length bones)) bones).
(** Corner [i] of face [f], which is one of the triangles [tris] of object [o]. *)
Definition shows_corner (o : object T) (tris : list (face T)) (f : face T) (i : nat) (c : gcorner T) : Prop :=
  exists x q, nth_error (fVerts f) i = Some x /\ zidx (oVerts o) x = Some q /\ gcPos c = Some (at_scale scale q) /\
    (fUVs f <> [] -> exists u t, nth_error (fUVs f) i = Some u /\ gcUV c = Some t /\ uv_close eps u t) /\
    (if (oShading o <=? 0) || unlit then gcNormal c = None else exists n, gcNormal c = Some n /\ given_normal tris x n) /\
    ((length (nodes_at o x) <= 4)%nat -> exists pad, gcSkin c = nodes_at o x ++ pad /\ Forall (fun e => snd e = nzero) pad).
(** A triangle of an object, turned over. *)
Definition shows_tri (mm : Z -> option Z) (q : object T * list (face T) * face T) (t : option Z * (gcorner T * gcorner T * gcorner T)) : Prop :=
  let '(o, tris, f) := q in fst t = mm (fMaterial f) /\ fst t <> None /\
  let '(c, b, a) := snd t in shows_corner o tris f 0 a /\ shows_corner o tris f 1 b /\ shows_corner o tris f 2 c.
(** Triangles with the objects they belong to. *)
Definition owned (os : list (object T)) (tss : list (list (face T))) : list (object T * list (face T) * face T) :=
  flat_map (fun p => map (fun f => (fst p, snd p, f)) (snd p)) (combine os tss).
End Doc.

Section Fbx.
Context {T : Type} {N : Num T}.
Variables (scale eps tenth : T) (unlit : bool) (move turn : vec3 T -> vec3 T).
Variables (d : fdoc T) (coord : mat4 T).

(** The material of polygon [i] of a model. *)
Definition painted (o : nat) (g : fgeom T) (i mo : nat) : Prop :=
  full_materials g /\ exists j, layer_index (gMats g) i 0 0 = Some j /\ own_material d o j = Some mo /\ In mo (fdMats d).
(** Polygons have vertices that exist. *)
Definition indexed (g : fgeom T) : Prop := Forall (Forall (fun v => 0 <= v < Z.of_nat (length (gVerts g)))) (polygons g).

(** Corner [a] of polygon [i] of a model: at its place in the world, with its texture coordinate, and the normal of a corner at the same vertex. *)
Definition shows_fcorner (g : fgeom T) (w : mat4 T) (i : nat) (poly : list Z) (a : nat) (c : gcorner T) : Prop :=
  exists vi v, nth_error poly a = Some vi /\ zidx (gVerts g) vi = Some v /\ gcPos c = Some (at_scale scale (move (mat_apply (mat_mul coord w) v))) /\
    (full_uvs g -> exists u t, layer_value (gUVs g) i (first_corner g i + a) vi = Some u /\ gcUV c = Some t /\ uv_close eps (mkV2 (v2x u) (nsub none (v2y u))) t) /\
    (full_normals g -> if unlit then gcNormal c = None else
       exists i' poly' a' n, nth_error (polygons g) i' = Some poly' /\ nth_error poly' a' = Some vi /\ layer_value (gNormals g) i' (first_corner g i' + a') vi = Some n /\
         gcNormal c = Some (turn (v3normalize (mat_apply (normal_transform (mat_mul coord w)) n)))).
(** A piece of a polygon: model, polygon and three of its corners. *)
Definition piece : Type := (nat * nat * (nat * nat * nat))%type.
Definition shows_piece (gmats : list (gmat T)) (q : piece) (t : option Z * (gcorner T * gcorner T * gcorner T)) : Prop :=
  let '(o, i, (a, b, c)) := q in
  exists k g w poly mo kk gm, geometry d o = Some (k, g) /\ world_of d o w /\ nth_error (polygons g) i = Some poly /\
    painted o g i mo /\ fst t = Some kk /\ zidx gmats kk = Some gm /\ gtName gm = mtName (convert_material tenth d mo) /\ gtColor gm = mtColor (convert_material tenth d mo) /\
    let '(x, y, z) := snd t in shows_fcorner g w i poly a x /\ shows_fcorner g w i poly b y /\ shows_fcorner g w i poly c z.
(** The pieces of one polygon. *)
Definition pieces_of (o i : nat) (l : list piece) : list (nat * nat * nat) := map snd (filter (fun q => Nat.eqb (fst (fst q)) o && Nat.eqb (snd (fst q)) i) l).
End Fbx.
