(** What a glTF document draws, and what it should draw for a PMX model. *)
From Coq Require Import String List ZArith Bool.
From Verif.Model Require Import Num Vec Matrix Mqo MqoDoc Mmd2Mqo Gltf.
From Verif Require Import Spec.MmdConvSpec Spec.GltfSpec.
Import ListNotations.
Local Open Scope Z_scope.

Section Spec.
Context {T : Type} {N : Num T}.

(** *** The triangles of a glTF document *)

(** One corner as the viewer gets it: position, texture coordinate, normal, and the nodes that move it with their weights. *)
Record gcorner := mkGC { gcPos : option (vec3 T); gcUV : option (vec2 T); gcNormal : option (vec3 T); gcSkin : list (option nat * T) }.
Definition at_opt {A} (l : option (list A)) (i : Z) : option A := match l with Some l => zidx l i | None => None end.
Definition corner_at (sk : option (gskin T)) (p : prim T) (id : Z) : gcorner :=
  mkGC (at_opt (gpPos p) id) (at_opt (gpUV p) id) (at_opt (gpNormals p) id)
    (match at_opt (gpSkin p) id, sk with
     | Some s, Some k => map (fun e => (zidx (gsJoints k) (fst e), snd e)) s
     | _, _ => []
     end).
(** Indices by threes. *)
Fixpoint triples (l : list Z) : list (Z * Z * Z) :=
  match l with a :: b :: c :: r => (a, b, c) :: triples r | _ => [] end.
Definition prim_tris (sk : option (gskin T)) (p : prim T) : list (option Z * (gcorner * gcorner * gcorner)) :=
  map (fun t => let '(a, b, c) := t in (gpMaterial p, (corner_at sk p a, corner_at sk p b, corner_at sk p c)))
      (triples (match gpIndices p with Some l => l | None => [] end)).
Definition ref {A} (l : list A) (i : option nat) : option A := match i with Some i => nth_error l i | None => None end.
Definition node_tris (g : gdoc T) (n : gnode T) : list (option Z * (gcorner * gcorner * gcorner)) :=
  match ref (gdMeshes g) (gnMesh n) with
  | Some m => flat_map (prim_tris (ref (gdSkins g) (gnSkin n))) (gmPrims m)
  | None => []
  end.
(** Everything all nodes draw. *)
Definition drawn (g : gdoc T) : list (option Z * (gcorner * gcorner * gcorner)) := flat_map (node_tris g) (gdNodes g).

(** *** What a PMX model asks for *)

(** Names as the mesh objects of converted models have them: with the material they are made from, or of a base of morphs. *)
Definition mesh_name (s : string) : Prop :=
  exists r, s = String.append "M_" r \/ s = String.append "MorphBase" r.

(** The same object, with its vertices moved and its normals turned. *)
Definition moved_object (move turn : vec3 T -> vec3 T) (o o' : object T) : Prop :=
  oVerts o' = map move (oVerts o) /\ oUID o' = oUID o /\ oName o' = oName o /\ oVisible o' = oVisible o /\ oDepth o' = oDepth o /\
  oShading o' = oShading o /\ oVertexByUID o' = oVertexByUID o /\
  oFaces o' = map (fun f => mkFace (fUID f) (fVerts f) (fMaterial f) (fUVs f) (map (option_map turn) (fNormals f))) (oFaces o).

Variables (scale eps hundred centi : T) (unlit : bool) (move turn : vec3 T -> vec3 T).

(** The bones of a PMX vertex with their weights, as nodes from [base] on. *)
Definition skin_of (nb base : nat) (v : pvert T) : list (option nat * T) :=
  flat_map (fun b => map (fun w => (Some (base + b)%nat, nmul w centi)) (percent hundred (weights_for v (Z.of_nat b)))) (seq 0 nb).
Definition draws_corner (nb base : nat) (v : pvert T) (c : gcorner) : Prop :=
  gcPos c = Some (at_scale scale (move (flip_z (pvPos v)))) /\
  (exists t, gcUV c = Some t /\ uv_close eps (pvUV v) t) /\
  gcNormal c = (if unlit then None else Some (turn (flip_z (pvNormal v)))) /\
  (NoDup (pvBones v) -> (length (skin_of nb base v) <= 4)%nat ->
   exists pad, gcSkin c = skin_of nb base v ++ pad /\ Forall (fun e => snd e = nzero) pad).
(** Face [fi] of the model is drawn: its corners, the other way round, beginning with any of them. *)
Definition draws_face (p : pmodel T) (base : nat) (mm : Z -> option Z) (fi : nat) (t : option Z * (gcorner * gcorner * gcorner)) : Prop :=
  exists i m a b c va vb vc, owner (pMats p) 0 fi = Some i /\ nth_error (pMats p) (Z.to_nat i) = Some m /\ fst t <> None /\ fst t = mm i /\
    nth fi (pFaces p) [] = [a; b; c] /\ zidx (pVerts p) a = Some va /\ zidx (pVerts p) b = Some vb /\ zidx (pVerts p) c = Some vc /\
    let '(x, y, z) := snd t in
    let d := draws_corner (pNBones p) base in
    (d vc x /\ d vb y /\ d va z) \/ (d va x /\ d vc y /\ d vb z) \/ (d vb x /\ d va y /\ d vc z).
(** The faces to be drawn. *)
Definition wanted (p : pmodel T) (fi : nat) : Prop :=
  (fi < length (pFaces p))%nat /\
  exists i m, owner (pMats p) 0 fi = Some i /\ nth_error (pMats p) (Z.to_nat i) = Some m /\ ~ left_out (pmName m).
End Spec.
Arguments gcorner : clear implicits.
