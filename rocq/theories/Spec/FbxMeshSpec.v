(** What the faces of a converted FBX mesh are to show. *)
From Coq Require Import String Ascii List ZArith Bool.
From Verif.Model Require Import Num Vec Matrix Mqo MqoDoc FbxDoc Fbx2Mqo.
From Verif.Spec Require Import FbxSceneSpec.
Import ListNotations.
Local Open Scope string_scope.
Local Open Scope list_scope.
Local Open Scope Z_scope.

Section S.
Context {T : Type} {N : Num T}.

(** Corners of polygon [i]: their numbers and vertices. *)
Definition corners (g : fgeom T) (i : nat) (poly : list Z) : list (nat * Z) := combine (seq (first_corner g i) (length poly)) poly.
(** A value for each corner in these layers, directly or by index. *)
Definition full_uvs (g : fgeom T) : Prop := lMapping (gUVs g) = "ByPolygonVertex" /\ (lReference (gUVs g) = "Direct" \/ lReference (gUVs g) = "IndexToDirect") /\
  forall i c v, (c < length (gIndex g))%nat -> layer_value (gUVs g) i c v <> None.
Definition full_normals (g : fgeom T) : Prop := lReference (gNormals g) = "Direct" /\
  (lMapping (gNormals g) = "ByPolygonVertex" /\ (forall i c v, (c < length (gIndex g))%nat -> layer_value (gNormals g) i c v <> None) \/
   lMapping (gNormals g) = "ByControlPoint" /\ (forall i c v, 0 <= v < Z.of_nat (length (gVerts g)) -> layer_value (gNormals g) i c v <> None) /\
     Forall (Forall (fun v => 0 <= v < Z.of_nat (length (gVerts g)))) (polygons g)).
Definition full_materials (g : fgeom T) : Prop :=
  lMapping (gMats g) = "ByPolygon" /\ (forall i c v, (i < length (polygons g))%nat -> layer_index (gMats g) i c v <> None) \/
  lMapping (gMats g) = "AllSame" /\ (forall i c v, layer_index (gMats g) i c v <> None).

(** Polygon [i] as a face: its vertices from the other side; texture coordinates from the top; normals turned; the material by number. *)
Definition drawn (g : fgeom T) (mats : list Z) (nt : mat4 T) (i : nat) (poly : list Z) (f : face T) : Prop :=
  fVerts f = rev poly /\
  (full_uvs g -> Forall2 (fun c uv => exists w, layer_value (gUVs g) i (fst c) (snd c) = Some w /\ uv = mkV2 (v2x w) (nsub none (v2y w))) (corners g i poly) (rev (fUVs f))) /\
  (full_normals g -> Forall2 (fun c n => exists w, layer_value (gNormals g) i (fst c) (snd c) = Some w /\ n = Some (v3normalize (mat_apply nt w))) (corners g i poly) (rev (fNormals f))) /\
  (full_materials g -> forall c v j m, layer_index (gMats g) i c v = Some j -> zidx mats j = Some m -> fMaterial f = m).
Definition drawn_all (g : fgeom T) (mats : list Z) (nt : mat4 T) (fs : list (face T)) : Prop :=
  length fs = length (polygons g) /\ forall i poly, nth_error (polygons g) i = Some poly -> exists f, nth_error fs i = Some f /\ drawn g mats nt i poly f.

(** Material [j] of a model. *)
Definition own_material (d : fdoc T) (o : nat) (j : Z) : option nat := zidx (filter (is_mat d) (refs d o)) j.
End S.

Section P.
Context {T : Type} {N : Num T}.
(** The matrix of a model in the world of the document. *)
Definition world_of (d : fdoc T) (o : nat) (w : mat4 T) : Prop := exists n, forall f, (n <= f)%nat -> world_matrix d f o = FOk w.
(** Numbers in [mats] of the materials of the model, among all materials [all]. *)
Definition numbers (conv : nat -> material T) (d : fdoc T) (all : list (material T)) (o : nat) (mats : list Z) : Prop :=
  forall j mo, own_material d o j = Some mo -> In mo (fdMats d) -> exists m, zidx mats j = Some (Z.of_nat m) /\ nth_error all m = Some (conv mo).
(** The mesh of model [o], placed in the world. *)
Definition meshed (conv : nat -> material T) (d : fdoc T) (coord : mat4 T) (all : list (material T)) (o : nat) (x : object T) : Prop :=
  match geometry d o with
  | None => oVerts x = [] /\ oFaces x = []
  | Some (k, g) => exists w mats, world_of d o w /\ numbers conv d all o mats /\ oVerts x = map (mat_apply (mat_mul coord w)) (gVerts g) /\ drawn_all g mats (normal_transform (mat_mul coord w)) (oFaces x)
  end.
(** The scene is where the document says. *)
Definition in_place (op : foption T) : Prop := opDepth op <= 0 \/ opRoot op = None.
End P.

Section D.
Context {T : Type} {N : Num T}.
(** Indexes of a geometry and of shapes that exist. *)
Definition sound_geom (g : fgeom T) : Prop :=
  Forall (fun j => 0 <= j) (lIndexes (gMats g)) /\
  (lMapping (gUVs g) = "ByPolygonVertex" -> lReference (gUVs g) = "IndexToDirect" -> Forall (fun j => 0 <= j < Z.of_nat (length (lValues (gUVs g)))) (lIndexes (gUVs g))).
Definition sound_shape (s : fshape T) : Prop := Forall (fun j => 0 <= j) (shIndexes s).
(** The axes are known, models are not deeper than [n], and deformers do not bind to the scene itself. *)
Record sound_doc (d : fdoc T) (depth : nat -> nat) (n : nat) : Prop := mkSD {
  sd_tree : tree_doc d depth;
  sd_bound : forall o, is_model d o = true -> (depth o < n)%nat;
  sd_coord : fdCoord d <> None;
  sd_geom : forall o k g, geometry d o = Some (k, g) -> sound_geom g /\ Forall sound_shape (all_shapes d k g);
  sd_bind : forall o, find (is_model d) (refs d o) = Some (fdScene d) -> is_def d o = false }.
End D.

Section B.
Context {T : Type} {N : Num T}.
(** The vertices of a geometry after a shape has moved them: each by its offset, if it has one. *)
Definition deformed (tr : mat4 T) (g : fgeom T) (s : fshape T) (vs : list (vec3 T)) : Prop :=
  length vs = length (gVerts g) /\ forall k v, nth_error (gVerts g) k = Some v ->
    nth_error vs k = Some (mat_apply tr (match (if Nat.eqb (length (shVerts s)) (length (shIndexes s)) then offset_of (shIndexes s) (shVerts s) (Z.of_nat k) else None) with Some o => v3add v o | None => v end)).
(** The object [t] of a shape [s] of model [o], whose own object is [b]. *)
Definition target_of (d : fdoc T) (coord : mat4 T) (o : nat) (b : object T) (s : fshape T) (t : object T) : Prop :=
  oVisible t = false /\ oName t = shown_name (shName s) /\ oDepth t = oDepth b + 1 /\
  oFaces t = map (fun f => mkFace 0 (fVerts f) (fMaterial f) (fUVs f) []) (oFaces b) /\
  match geometry d o with
  | Some (k, g) => exists w, world_of d o w /\ oVerts b = map (mat_apply (mat_mul coord w)) (gVerts g) /\ deformed (mat_mul coord w) g s (oVerts t)
  | None => True
  end.
(** The morph set of a model: the names of its object and of those of its shapes. *)
Definition morph_of (os : list (object T)) : list (string * list string) := match os with b :: _ :: _ => [(oName b, map (@oName T) (tl os))] | _ => [] end.
End B.
