(** What an FBX document describes: a tree of models with meshes, layers of meshes, blend shapes. *)
From Coq Require Import String Ascii List ZArith Bool.
From Verif.Model Require Import Num Vec Matrix Mqo FbxDoc Fbx2Mqo.
Import ListNotations.
Local Open Scope string_scope.
Local Open Scope list_scope.
Local Open Scope Z_scope.

Section S.
Context {T : Type} {N : Num T}.
Variable d : fdoc T.

(** Bones of a skeleton. *)
Definition is_limb (o : nat) : bool := String.eqb (kind d o) "LimbNode".
(** A mesh at a model or below it. *)
Inductive has_mesh : nat -> Prop :=
| hm_here o : geometry d o <> None -> has_mesh o
| hm_below o c : In c (children d o) -> has_mesh c -> has_mesh o.

(** Models depth first, each with the models above it, itself last; [whole]: also bones. *)
Inductive walk (whole : bool) : list nat -> nat -> list (list nat) -> Prop :=
| walk_model path o vs : walks whole (path ++ [o]) (filter (fun c => whole || negb (is_limb c)) (children d o)) vs -> walk whole path o ((path ++ [o]) :: vs)
with walks (whole : bool) : list nat -> list nat -> list (list nat) -> Prop :=
| walks_nil path : walks whole path [] []
| walks_cons path o os vs ws : walk whole path o vs -> walks whole path os ws -> walks whole path (o :: os) (vs ++ ws).

(** Connections between models: (child, parent). *)
Definition links : list (nat * nat) := filter (fun c => is_model d (fst c) && is_model d (snd c)) (fdConns d).
(** The models form a tree below the scene, [depth] counts the models above, and geometries are held by models only. *)
Record tree_doc (depth : nat -> nat) : Prop := mkTD {
  td_scene : is_model d (fdScene d) = true;
  td_top : ~ In (fdScene d) (map fst links);
  td_once : NoDup (map fst links);
  td_depth : forall c p, In (c, p) links -> depth c = S (depth p);
  td_held : forall o k, In k (fdHeld d o) -> is_model d k = false }.

(** The shapes of a geometry: those of its blend shape channels, then its own. *)
Definition all_shapes (k : nat) (g : fgeom T) : list (fshape T) :=
  flat_map (fun o => match fdObjs d o with Some (ODef f) => if String.eqb (dfKind f) "BlendShapeChannel" then shapes_of d o else [] | _ => [] end) (deformers d k) ++ gShapes g.
(** The deformers that bind a geometry to bones. *)
Definition clusters (k : nat) : list nat :=
  filter (fun o => match fdObjs d o with Some (ODef f) => negb (String.eqb (dfKind f) "BlendShapeChannel") | _ => false end) (deformers d k).

(** The value that a layer gives to corner [c], which is at vertex [v] of polygon [i] (FBX SDK, FbxLayerElement): the mapping says what is counted, the reference type whether
    the number is an index into the values or into a list of indexes. *)
Definition counted (mapping : string) (i c : nat) (v : Z) : option Z :=
  if String.eqb mapping "ByPolygonVertex" then Some (Z.of_nat c)
  else if String.eqb mapping "ByControlPoint" || String.eqb mapping "ByVertice" || String.eqb mapping "ByVertex" then Some v
  else if String.eqb mapping "ByPolygon" then Some (Z.of_nat i)
  else if String.eqb mapping "AllSame" then Some 0
  else None.
Definition layer_value {A} (l : layer A) (i c : nat) (v : Z) : option A :=
  match counted (lMapping l) i c v with
  | None => None
  | Some n => if String.eqb (lReference l) "IndexToDirect" || String.eqb (lReference l) "Index"
              then match zidx (lIndexes l) n with Some j => zidx (lValues l) j | None => None end
              else zidx (lValues l) n
  end.
(** Layers of materials only have indexes, into the materials of the model. *)
Definition layer_index {A} (l : layer A) (i c : nat) (v : Z) : option Z :=
  match counted (lMapping l) i c v with Some n => zidx (lIndexes l) n | None => None end.

(** Polygons of a geometry, and the number of the first corner of polygon [i]. *)
Definition polygons (g : fgeom T) : list (list Z) := decode_faces [] (gIndex g).
Definition first_corner (g : fgeom T) (i : nat) : nat := length (concat (firstn i (polygons g))).

(** The offset that a shape gives to vertex [k]: that of the last entry for it. *)
Fixpoint offset_of (idx : list Z) (offs : list (vec3 T)) (k : Z) : option (vec3 T) :=
  match idx, offs with
  | i :: idx', o :: offs' => match offset_of idx' offs' k with Some x => Some x | None => if i =? k then Some o else None end
  | _, _ => None
  end.
End S.

Section L.
Context {T : Type} {N : Num T}.
Variable d : fdoc T.
Variable op : foption T.

(** What the objects of the result stand for: a model, given with the models above it, or a shape of its geometry. *)
Definition label : Type := (list nat * option (fshape T))%type.
Definition model_of (l : label) : nat := last (fst l) 0%nat.
Definition shapes_at (o : nat) : list (fshape T) := if opNoShapes op then [] else match geometry d o with Some (k, g) => all_shapes d k g | None => [] end.
Definition labels (path : list nat) : list label := (path, None) :: map (fun s => (path, Some s)) (shapes_at (last path 0%nat)).
(** Models at the top have depth 0, shapes are one deeper than their model. *)
Definition depth_of (l : label) : Z := match snd l with None => Z.of_nat (length (fst l)) - 1 | Some _ => Z.of_nat (length (fst l)) end.

(** The label [l] belongs below the model of [q]. *)
Definition below (l : label) (q : list nat) : Prop :=
  match snd l with None => exists c, fst l = q ++ [c] /\ In c (children d (last q 0%nat)) /\ (opWhole op = true \/ is_limb d c = false) | Some s => fst l = q /\ In s (shapes_at (last q 0%nat)) end.
(** Models are visible objects with their names, shapes hidden ones with theirs. *)
Definition shows (l : label) (x : object T) : Prop :=
  oDepth x = opDepth op + depth_of l /\ oVisible x = match snd l with None => true | Some _ => false end /\
  oName x = match snd l with None => object_name (name d (model_of l)) | Some s => shown_name (shName s) end.

(** The models that are converted. *)
Inductive shown : nat -> Prop :=
| sh_top o : In o (children d (fdScene d)) -> (opWhole op = true \/ is_limb d o = false /\ has_mesh d o) -> shown o
| sh_below o c : shown o -> In c (children d o) -> (opWhole op = true \/ is_limb d c = false) -> shown c.
End L.

(** What the names of models stand for: in binary files the name comes first, in text files the type. *)
Definition binary_name (n : string) : string := (n ++ String "000" (String "001" "Model"))%string.
Definition text_name (n : string) : string := ("Model::" ++ n)%string.
Definition plain (n : string) : Prop := ~ In "000"%char (list_ascii_of_string n).
