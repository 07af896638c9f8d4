(** [converter/fbx2mqo.go]: FBX documents to MQO documents, with the parts of [fbx/fbx_document.go], [fbx/fbx_model.go], [fbx/fbx_geometry.go] and [fbx/fbx_material.go]
    that it reads.  A document is given after the accessors of [fbx/fbx_node.go] have read its nodes: numbers and arrays are values here, and a missing node reads as the
    empty string or list.  Matrices of models are values (see [model_matrix]). *)
From Coq Require Import String Ascii List ZArith Bool.
From Verif.Model Require Import Num Vec Matrix Mqo MqoDoc Mmd2Mqo FbxDoc UnityProject.
Import ListNotations.
Local Open Scope string_scope.
Local Open Scope list_scope.
Local Open Scope Z_scope.

(** A result, a crash (nil dereference, slice bounds), or a recursion that is not over after the fuel is used up. *)
Inductive fres (A : Type) : Type := FOk (a : A) | FCrash | FEndless.
Arguments FOk {A} a.
Arguments FCrash {A}.
Arguments FEndless {A}.
Definition fbind {A B} (x : fres A) (f : A -> fres B) : fres B := match x with FOk a => f a | FCrash => FCrash | FEndless => FEndless end.
Definition fopt {A} (x : option A) : fres A := match x with Some a => FOk a | None => FCrash end.
Fixpoint fmap {A B} (f : A -> fres B) (l : list A) : fres (list B) :=
  match l with
  | [] => FOk []
  | x :: r => fbind (f x) (fun y => fbind (fmap f r) (fun ys => FOk (y :: ys)))
  end.
Fixpoint ffold {A B} (f : B -> A -> fres B) (l : list A) (b : B) : fres B :=
  match l with [] => FOk b | x :: r => fbind (f b x) (fun b' => ffold f r b') end.

(** ** Names *)

Definition sep : string := String "000"%char (String "001"%char "").
(** [strings.ReplaceAll(s, "\x00\x01", "::")] (fbx_object.go 53, fbx_geometry.go 195). *)
Fixpoint shown_name (s : string) : string :=
  match s with
  | String a r => match r with
                  | String b r' => if Ascii.eqb a "000" && Ascii.eqb b "001" then "::" ++ shown_name r' else String a (shown_name r)
                  | "" => String a ""
                  end
  | "" => ""
  end.
(** [strings.TrimPrefix] and [strings.TrimSuffix]. *)
Definition cut_prefix (p s : string) : string := match strip_prefix p s with Some r => r | None => s end.
Definition cut_suffix (p s : string) : string := match trim_suffix p s with Some r => r | None => s end.
(** fbx2mqo.go 110 *)
Definition object_name (raw : string) : string := cut_suffix "::Model" (cut_prefix "Model::" (shown_name raw)).
(** fbx2mqo.go 309 *)
Definition bone_name (raw : string) : string := cut_prefix "Model::" (shown_name raw).

Section Fbx2Mqo.
Context {T : Type} {N : Num T}.

(** ** Documents *)

(** [LayerElement] (fbx_geometry.go 26-30, 163-187): the mapping, the reference type, the values and the indexes. *)
Record layer (A : Type) := mkLayer { lMapping : string; lReference : string; lValues : list A; lIndexes : list Z }.
(** [GeometryShape] (fbx_geometry.go 189-210): the raw name, the offsets and the indexes. *)
Record fshape := mkFShape { shName : string; shVerts : list (vec3 T); shIndexes : list Z }.
(** [Geometry] (fbx_geometry.go 9-14): the children "Vertices", "PolygonVertexIndex" and "Indexes", the layers, and the children of name "Shape". *)
Record fgeom := mkFG { gName : string; gKind : string; gVerts : list (vec3 T); gIndex : list Z; gOwn : list Z;
  gMats : layer unit; gNormals : layer (vec3 T); gUVs : layer (vec2 T); gShapes : list fshape }.
(** [Deformer] (fbx_geometry.go 212-241): weights, indexes and [GetTransformLink]. *)
Record fdef := mkFDef { dfKind : string; dfWeights : list T; dfIndexes : list Z; dfLink : mat4 T }.
(** [Model] (fbx_model.go 9-13), its matrix (54-72) and [GetScalingPivot] (46-48). *)
Record fmodel := mkFM { fmName : string; fmKind : string; fmLocal : mat4 T; fmPivot : vec3 T }.
(** [Material] (fbx_material.go 5-7): what [GetProperty] finds; [None] is a value that is no number. *)
Record fmaterial := mkFMat { fxName : string; fxProp : string -> list (option T) }.
(** The types of objects (fbx_document.go 95-113); others keep the name of their node and the string in their child "RelativeFilename". *)
Inductive fobj : Type := OModel (m : fmodel) | OGeom (g : fgeom) | OMat (m : fmaterial) | ODef (f : fdef) | OOther (node file : string).

(** [Document] (fbx_document.go 5-18).  Objects are numbered; [fdHeld] are the geometries that models of version 6100 hold (107-112), [fdConns] the connections
    (from, to) between existing objects (118-137), [fdMats] is [Materials], [fdCoord] is what [CoordMatrix] gives ([None]: a crash). *)
Record fdoc := mkFD { fdObjs : nat -> option fobj; fdHeld : nat -> list nat; fdConns : list (nat * nat); fdScene : nat; fdMats : list nat; fdCoord : option (mat4 T) }.

(** [CoordMatrix] (fbx_document.go 169-181) for the given axes and signs: the three indexes are different, since they differ modulo four. *)
Definition coord_matrix (ca ua fa : Z) (cs us fs : T) : option (mat4 T) :=
  let inside i := (0 <=? i) && (i <? 16) in
  let e i := if i =? ca * 4 then cs else if i =? ua * 4 + 1 then us else if i =? fa * 4 + 2 then fs else if i =? 15 then none else nzero in
  if inside (ca * 4) && inside (ua * 4 + 1) && inside (fa * 4 + 2)
  then Some (mkM (e 0) (e 1) (e 2) (e 3) (e 4) (e 5) (e 6) (e 7) (e 8) (e 9) (e 10) (e 11) (e 12) (e 13) (e 14) (e 15))
  else None.

Section Doc.
Variable d : fdoc.
(** [Refs] (fbx_document.go 107-112, 128). *)
Definition refs (o : nat) : list nat := fdHeld d o ++ map fst (filter (fun c => Nat.eqb (snd c) o) (fdConns d)).
Definition is_model (o : nat) : bool := match fdObjs d o with Some (OModel _) => true | _ => false end.
Definition is_geom (o : nat) : bool := match fdObjs d o with Some (OGeom _) => true | _ => false end.
Definition is_mat (o : nat) : bool := match fdObjs d o with Some (OMat _) => true | _ => false end.
Definition is_def (o : nat) : bool := match fdObjs d o with Some (ODef _) => true | _ => false end.
Definition is_texture (o : nat) : bool := match fdObjs d o with Some (OOther n _) => String.eqb n "Texture" | _ => false end.
(** [Parent] (fbx_document.go 130-135). *)
Definition parent (o : nat) : option nat := parent_of o (filter (fun c => is_model (fst c) && is_model (snd c)) (fdConns d)).
(** [GetChildModels] (fbx_model.go 81-89). *)
Definition children (o : nat) : list nat := filter is_model (refs o).
(** [GetGeometry] (fbx_model.go 102-109): the first one, with its number. *)
Definition geometry (o : nat) : option (nat * fgeom) :=
  match find is_geom (refs o) with
  | Some k => match fdObjs d k with Some (OGeom g) => Some (k, g) | _ => None end
  | None => None
  end.
(** [GetDeformers] (fbx_geometry.go 80-90): only objects of node "Deformer" are of type [Deformer]. *)
Definition deformers (g : nat) : list nat := flat_map (fun o => filter is_def (refs o)) (filter is_def (refs g)).
(** [Deformer.GetShapes] (fbx_geometry.go 250-258). *)
Definition shapes_of (o : nat) : list fshape :=
  flat_map (fun k => match fdObjs d k with Some (OGeom g) => if String.eqb (gKind g) "Shape" then [mkFShape (gName g) (gVerts g) (gOwn g)] else [] | _ => [] end) (refs o).
Definition kind (o : nat) : string := match fdObjs d o with Some (OModel m) => fmKind m | _ => "" end.
Definition local (o : nat) : mat4 T := match fdObjs d o with Some (OModel m) => fmLocal m | _ => mat_id end.
Definition name (o : nat) : string := match fdObjs d o with Some (OModel m) => fmName m | _ => "" end.
Definition pivot (o : nat) : vec3 T := match fdObjs d o with Some (OModel m) => fmPivot m | _ => mkV3 nzero nzero nzero end.
(** [FindChildModel] (fbx_model.go 91-100). *)
Definition find_child_model (n : string) : option nat := find (fun o => String.eqb (shown_name (name o)) (n ++ "::Model")) (children (fdScene d)).

(** [hasGeometryNode] (fbx2mqo.go 176-186). *)
Fixpoint any_of (f : nat -> fres bool) (l : list nat) : fres bool :=
  match l with [] => FOk false | c :: r => fbind (f c) (fun b => if b then FOk true else any_of f r) end.
Fixpoint has_geometry (fuel : nat) (o : nat) : fres bool :=
  match fuel with
  | O => FEndless
  | S f => match geometry o with Some _ => FOk true | None => any_of (has_geometry f) (children o) end
  end.
(** [GetWorldMatrix] (fbx_model.go 74-79). *)
Definition world_matrix (fuel : nat) (o : nat) : fres (mat4 T) := match world mat_mul local parent fuel o with Some m => FOk m | None => FEndless end.
End Doc.

(** ** Materials *)

(** [AttributeList.ToFloat32] and [ToVector3] (fbx_node.go 137-147). *)
Definition attr_num (l : list (option T)) (i : nat) (def : T) : T := match nth_error l i with Some (Some x) => x | _ => def end.
Definition attr_vec (l : list (option T)) (x y z : T) : vec3 T := mkV3 (attr_num l 0 x) (attr_num l 1 y) (attr_num l 2 z).

(** The constants 0.1 and 59.5. *)
Variables tenth facet : T.

(** [convertMaterial] (fbx2mqo.go 90-106) with [GetTexture] (fbx_material.go 33-41). *)
Definition convert_material (d : fdoc) (o : nat) : material T :=
  match fdObjs d o with
  | Some (OMat m) =>
      let factor n def := attr_num (fxProp m n) 0 def in
      let zero3 n := attr_vec (fxProp m n) nzero nzero nzero in
      let col := attr_vec (fxProp m "DiffuseColor") none none none in
      mkMat (shown_name (fxName m)) 0 (mkV4 (vx col) (vy col) (vz col) (factor "Opacity" none)) (factor "DiffuseFactor" none)
            (vx (v3scale (zero3 "AmbientColor") (factor "AmbientFactor" nzero)))
            (nmul (vx (v3scale (zero3 "EmissiveColor") (factor "EmissiveFactor" nzero))) tenth)
            (vx (v3scale (zero3 "SpecularColor") (factor "SpecularFactor" nzero)))
            (factor "ShininessExponent" nzero)
            (match find (is_texture d) (refs d o) with Some t => match fdObjs d t with Some (OOther _ file) => file | _ => "" end | None => "" end) "" ""
            None false 0 None
  | _ => mkMat "" 0 (mkV4 nzero nzero nzero nzero) nzero nzero nzero nzero nzero "" "" "" None false 0 None
  end.
Fixpoint position (o : nat) (l : list nat) : option nat :=
  match l with [] => None | x :: r => if Nat.eqb x o then Some 0%nat else option_map S (position o r) end.

(** ** Geometries *)

(** [FBXToMQOOption] (fbx2mqo.go 12-20). *)
Record foption := mkFOpt { opNoShapes : bool; opNoBones : bool; opWhole : bool; opDepth : Z; opRoot : option (mat4 T); opTarget : string; opOverride : option (list Z) }.

(** Whether there are normals for vertices (fbx2mqo.go 198-200). *)
Definition norm_by_vertex (g : fgeom) : bool := String.eqb (lMapping _ (gNormals g)) "ByControlPoint" && Nat.leb (length (gVerts g)) (length (lValues _ (gNormals g))).
Definition norm_by_corner (g : fgeom) : bool := String.eqb (lMapping _ (gNormals g)) "ByPolygonVertex".
(** The normal of corner [k] (counted over all polygons) at vertex [v] (fbx2mqo.go 240-244), if there is one. *)
Definition corner_normal (g : fgeom) (nt : mat4 T) (k : nat) (v : Z) : list (option (vec3 T)) :=
  let arr := lValues _ (gNormals g) in
  match (if norm_by_vertex g then zidx arr v else None) with
  | Some n => [Some (v3normalize (mat_apply nt n))]
  | None => if norm_by_corner g then match nth_error arr k with Some n => [Some (v3normalize (mat_apply nt n))] | None => [] end else []
  end.
(** The texture coordinates that are used (fbx2mqo.go 203-219): none, by index, or one for each corner.  An empty slice of indexes of a geometry without corners counts as none. *)
Inductive uv_use : Type := NoUV | UVIndexed (uv : list (vec2 T)) (idx : list Z) | UVDirect (uv : list (vec2 T)).
Definition uv_of (g : fgeom) : uv_use :=
  let l := gUVs g in
  if String.eqb (lMapping _ l) "ByPolygonVertex" then
    if String.eqb (lReference _ l) "IndexToDirect"
    then if Nat.ltb (length (lIndexes _ l)) (length (gIndex g)) then NoUV else UVIndexed (lValues _ l) (lIndexes _ l)
    else if Nat.ltb (length (lValues _ l)) (length (gIndex g)) then NoUV else UVDirect (lValues _ l)
  else NoUV.
Definition turned_uv (v : vec2 T) : vec2 T := mkV2 (v2x v) (nsub none (v2y v)).
(** Texture coordinates of corners [k], [k + 1], … (fbx2mqo.go 246-256). *)
Definition face_uvs (u : uv_use) (k n : nat) : fres (list (vec2 T)) :=
  match u with
  | NoUV => FOk []
  | UVIndexed uv idx => fmap (fun i => fbind (fopt (nth_error idx i)) (fun j => fbind (fopt (zidx uv j)) (fun v => FOk (turned_uv v)))) (seq k n)
  | UVDirect uv => fmap (fun i => fbind (fopt (nth_error uv i)) (fun v => FOk (turned_uv v))) (seq k n)
  end.
(** The index into the materials of the model (fbx2mqo.go 193-197, 228-233); [npoly] is the number of polygons. *)
Definition mat_index (g : fgeom) (npoly i : nat) : Z :=
  let arr := lIndexes _ (gMats g) in
  if String.eqb (lMapping _ (gMats g)) "ByPolygon" && Nat.leb npoly (length arr) then nth i arr 0
  else if String.eqb (lMapping _ (gMats g)) "AllSame" && Nat.ltb 0 (length arr) then nth 0 arr 0
  else 0.
(** fbx2mqo.go 234-236 *)
Definition face_material (mats : list Z) (i : Z) : fres Z := if i <? Z.of_nat (length mats) then fopt (zidx mats i) else FOk 0.
(** One face (fbx2mqo.go 226-259): polygon [i], whose first corner is [k]. *)
Definition convert_face (g : fgeom) (nt : mat4 T) (mats : list Z) (npoly i k : nat) (f : list Z) : fres (face T) :=
  fbind (face_material mats (mat_index g npoly i)) (fun m =>
  let ns := flat_map (fun p => corner_normal g nt (k + fst p) (snd p)) (combine (seq 0 (length f)) f) in
  fbind (face_uvs (uv_of g) k (length f)) (fun uvs =>
  FOk (flip (mkFace 0 f m uvs ns)))).
Fixpoint convert_faces (g : fgeom) (nt : mat4 T) (mats : list Z) (npoly i k : nat) (fs : list (list Z)) : fres (list (face T)) :=
  match fs with
  | [] => FOk []
  | f :: r => fbind (convert_face g nt mats npoly i k f) (fun x => fbind (convert_faces g nt mats npoly (S i) (k + length f) r) (fun xs => FOk (x :: xs)))
  end.

(** [Clone] (mqo/mqo.go 308-323) by value: numbers and normals of faces are not copied. *)
Definition clone_obj (o : object T) : object T := set_faces o (map (fun f => mkFace 0 (fVerts f) (fMaterial f) (fUVs f) []) (oFaces o)).
(** [convertShape] (fbx2mqo.go 329-348). *)
Fixpoint move_verts (g : fgeom) (tr : mat4 T) (idx : list Z) (offs : list (vec3 T)) (vs : list (vec3 T)) : fres (list (vec3 T)) :=
  match idx, offs with
  | i :: idx', o :: offs' =>
      if i <? Z.of_nat (length vs) then
        if i <? 0 then FCrash
        else fbind (fopt (zidx (gVerts g) i)) (fun v => move_verts g tr idx' offs' (list_set vs (Z.to_nat i) (mat_apply tr (v3add v o))))
      else move_verts g tr idx' offs' vs
  | _, _ => FOk vs
  end.
Definition convert_shape (s : fshape) (src : object T) (g : fgeom) (tr : mat4 T) : fres (object T) :=
  let obj := set_name (clone_obj src) (shown_name (shName s)) in
  if Nat.eqb (length (shVerts s)) (length (shIndexes s))
  then fbind (move_verts g tr (shIndexes s) (shVerts s) (oVerts obj)) (fun vs => FOk (set_verts obj vs))
  else FOk obj.

(** ** Bones *)

(** The objects so far, the morph sets, the bones and [boneNodeMap] (fbx2mqo.go 26-35), newest entry first. *)
Record fstate := mkFS { fsObjs : list (object T); fsMorphs : list (string * list string); fsBones : list (bone T); fsMap : list (nat * Z) }.
Definition map_find (m : list (nat * Z)) (o : nat) : option Z := option_map snd (find (fun e => Nat.eqb (fst e) o) m).
(** The loop up to the scene or a known model (fbx2mqo.go 293-302): the models from [o] upwards. *)
Fixpoint bone_path (d : fdoc) (fuel : nat) (known : list nat) (o : option nat) : fres (list nat) :=
  match o with
  | None => FOk []
  | Some o =>
      if Nat.eqb o (fdScene d) then FOk []
      else if existsb (Nat.eqb o) known then FOk []
      else match fuel with
           | O => FEndless
           | S f => fbind (bone_path d f (o :: known) (parent d o)) (fun p => FOk (o :: p))
           end
  end.
Definition zero3 : vec3 T := mkV3 nzero nzero nzero.
(** One new bone (fbx2mqo.go 303-315). *)
Definition add_bone (d : fdoc) (fuel : nat) (coord : mat4 T) (s : list (bone T) * list (nat * Z)) (o : nat) : fres (list (bone T) * list (nat * Z)) :=
  let '(bones, mp) := s in
  fbind (world_matrix d fuel o) (fun w =>
  let id := Z.of_nat (length bones) + 1 in
  let par := match parent d o with Some p => match map_find mp p with Some i => i | None => 0 end | None => 0 end in
  FOk (bones ++ [mkBone id (bone_name (name d o)) par (mat_apply (mat_mul coord w) zero3) []], (o, id) :: mp)).
(** The weights of one deformer (fbx2mqo.go 316-326). *)
Definition add_weights (b : bone T) (coord : mat4 T) (f : fdef) (obj : Z) : bone T :=
  mkBone (bID b) (bName b) (bParent b) (mat_apply (mat_mul coord (dfLink f)) zero3)
         (if Nat.eqb (length (dfWeights f)) (length (dfIndexes f))
          then fold_left (fun ws p => set_vertex_weight ws obj (fst p + 1) (snd p)) (combine (dfIndexes f) (dfWeights f)) (bWeights b)
          else bWeights b).
(** [convertDeformer] (fbx2mqo.go 287-327). *)
Definition convert_deformer (d : fdoc) (fuel : nat) (coord : mat4 T) (st : fstate) (o : nat) (obj : Z) : fres fstate :=
  match fdObjs d o with
  | Some (ODef f) =>
      match find (is_model d) (refs d o) with
      | None => FOk st
      | Some m =>
          fbind (bone_path d fuel (map fst (fsMap st)) (Some m)) (fun p =>
          fbind (ffold (add_bone d fuel coord) (rev p) (fsBones st, map (fun k => (k, 0)) (rev p) ++ fsMap st)) (fun s =>
          let '(bones, mp) := s in
          let i := match map_find mp m with Some i => i | None => 0 end - 1 in
          fbind (fopt (zidx bones i)) (fun b =>
          FOk (mkFS (fsObjs st) (fsMorphs st) (list_set bones (Z.to_nat i) (add_weights b coord f obj)) mp))))
      end
  | _ => FOk st
  end.

(** The loop over the deformers (fbx2mqo.go 262-277): the targets of blend shapes so far, and the state. *)
Definition deformer_step (d : fdoc) (fuel : nat) (coord : mat4 T) (op : foption) (obj : object T) (g : fgeom) (tr : mat4 T)
    (s : list (object T) * fstate) (o : nat) : fres (list (object T) * fstate) :=
  let '(shapes, st) := s in
  match fdObjs d o with
  | Some (ODef f) =>
      if String.eqb (dfKind f) "BlendShapeChannel" then
        if opNoShapes op then FOk s
        else fbind (fmap (fun x => convert_shape x obj g tr) (shapes_of d o)) (fun ss => FOk (shapes ++ ss, st))
      else if opNoBones op then FOk s
      else fbind (convert_deformer d fuel coord st o (oUID obj)) (fun st' => FOk (shapes, st'))
  | _ => FOk s
  end.
(** [convertGeometry] (fbx2mqo.go 188-285); [obj] has neither vertices nor faces yet. *)
Definition convert_geometry (d : fdoc) (fuel : nat) (coord : mat4 T) (op : foption) (st : fstate) (k : nat) (g : fgeom) (obj : object T) (tr : mat4 T) (mats : list Z)
  : fres (object T * list (object T) * fstate) :=
  let polys := decode_faces [] (gIndex g) in
  fbind (convert_faces g (normal_transform tr) mats (length polys) 0 0 polys) (fun fs =>
  let obj := set_faces (set_verts obj (map (mat_apply tr) (gVerts g))) fs in
  fbind (ffold (deformer_step d fuel coord op obj g tr) (deformers d k) ([], st)) (fun s =>
  let '(shapes, st') := s in
  fbind (if opNoShapes op then FOk [] else fmap (fun x => convert_shape x obj g tr) (gShapes g)) (fun own =>
  FOk (obj, shapes ++ own, st')))).

(** ** Models *)

(** The materials of a model replaced by those of the caller, in the order in which its polygons use them (fbx2mqo.go 129-150). *)
Fixpoint override_loop (over : list Z) (arr : list Z) (seen : list Z) (n : nat) (ids : list Z) : fres (list Z) :=
  match arr with
  | [] => FOk ids
  | m :: r =>
      if existsb (Z.eqb m) seen || (Z.of_nat (length ids) <=? m) then override_loop over r seen n ids
      else if m <? 0 then FCrash
      else fbind (fopt (nth_error over n)) (fun x =>
           let ids := list_set ids (Z.to_nat m) x in
           if Nat.leb (length over) (S n) then FOk ids else override_loop over r (m :: seen) (S n) ids)
  end.
Definition override (over : list Z) (g : option (nat * fgeom)) : fres (list Z) :=
  match g with
  | Some (_, g) => if Nat.ltb 1 (length over) && Nat.ltb 1 (length (lIndexes _ (gMats g))) then override_loop over (lIndexes _ (gMats g)) [] 0 (map (fun _ => 0) over) else FOk over
  | None => FOk over
  end.
(** [NewObject] (mqo/mqo.go 278-286) with number and depth (fbx2mqo.go 110-113), and the head of a target (160-166). *)
Definition new_fobj (nm : string) (uid depth : Z) : object T :=
  mkObj uid nm [] [] true false depth false 1 facet 0 0 0 nzero (Some (mkV3 none none none)) (Some (mkV3 nzero nzero nzero)) (Some (mkV3 nzero nzero nzero)) None [] None.
Definition as_target (o : object T) (uid depth : Z) : object T :=
  mkObj uid (oName o) (oVerts o) (oFaces o) false (oLocked o) depth (oFolding o) (oShading o) (oFacet o) (oPatch o) (oPatchSegment o) (oMirror o) (oMirrorDis o)
        (oScale o) (oRotation o) (oTranslation o) (oColor o) (oVertexByUID o) (oInternal o).
Fixpoint number_targets (n : nat) (depth : Z) (l : list (object T)) : list (object T) :=
  match l with [] => [] | o :: r => as_target o (Z.of_nat n + 1) depth :: number_targets (S n) depth r end.

(** The transform of a model (fbx2mqo.go 120-127). *)
Definition model_transform (d : fdoc) (op : foption) (coord : mat4 T) (o : nat) (depth : Z) (above : mat4 T) : mat4 T :=
  if (0 <? opDepth op) && (depth =? opDepth op) then
    match opRoot op with
    | Some r => let p := pivot d o in mat_mul r (mat_mul (mat_translate (nopp (vx p)) (nopp (vy p)) (nopp (vz p))) coord)
    | None => mat_mul above (local d o)
    end
  else mat_mul above (local d o).
(** The materials of a model (fbx2mqo.go 115-118, 128-151); [base] materials were in the document before. *)
Definition model_materials (d : fdoc) (op : foption) (base : nat) (o : nat) (depth : Z) : fres (list Z) :=
  let own := map (fun m => match opOverride op with
                           | None => match position m (fdMats d) with Some i => Z.of_nat (base + i) | None => 0 end
                           | Some _ => 0
                           end) (filter (is_mat d) (refs d o)) in
  if (0 <? opDepth op) && (depth =? opDepth op) then
    match opOverride op with
    | Some (x :: r) => override (x :: r) (geometry d o)
    | _ => FOk own
    end
  else FOk own.
(** One model without its children (fbx2mqo.go 108-168). *)
Definition convert_one (d : fdoc) (fuel : nat) (coord : mat4 T) (op : foption) (base : nat) (st : fstate) (o : nat) (depth : Z) (tr : mat4 T) : fres fstate :=
  let obj := new_fobj (object_name (name d o)) (Z.of_nat (length (fsObjs st)) + 1) depth in
  fbind (model_materials d op base o depth) (fun mats =>
  match geometry d o with
  | None => FOk (mkFS (fsObjs st ++ [obj]) (fsMorphs st) (fsBones st) (fsMap st))
  | Some (k, g) =>
      fbind (convert_geometry d fuel coord op st k g obj tr mats) (fun r =>
      let '(obj, shapes, st') := r in
      FOk (mkFS (fsObjs st' ++ obj :: number_targets (S (length (fsObjs st'))) (depth + 1) shapes)
                (match shapes with [] => fsMorphs st' | _ => fsMorphs st' ++ [(oName obj, map (@oName T) shapes)] end) (fsBones st') (fsMap st')))
  end).
(** [convertModel] (fbx2mqo.go 108-174); [full] is the fuel for the bones. *)
Fixpoint convert_model (d : fdoc) (full fuel : nat) (coord : mat4 T) (op : foption) (base : nat) (st : fstate) (o : nat) (depth : Z) (above : mat4 T) : fres fstate :=
  match fuel with
  | O => FEndless
  | S f =>
      let tr := model_transform d op coord o depth above in
      fbind (convert_one d full coord op base st o depth tr) (fun st =>
      ffold (fun st c => if opWhole op || negb (String.eqb (kind d c) "LimbNode") then convert_model d full f coord op base st c (depth + 1) tr else FOk st) (children d o) st)
  end.

(** [ConvertTo] and [convert] (fbx2mqo.go 50-88): the objects, materials and morph sets that are added to those of the document, and the bones that are set, if any. *)
Definition convert_fbx (d : fdoc) (fuel : nat) (op : foption) (objs : list (object T)) (base : nat) : fres (fstate * list (material T)) :=
  fbind (fopt (fdCoord d)) (fun coord =>
  let mats := match opOverride op with None => map (convert_material d) (fdMats d) | Some _ => [] end in
  let above := mat_mul coord (local d (fdScene d)) in
  let st0 := mkFS objs [] [] [] in
  if negb (String.eqb (opTarget op) "") then
    match find_child_model d (opTarget op) with
    | None => FOk (st0, mats)
    | Some m => fbind (convert_model d fuel fuel coord op base st0 m (opDepth op) above) (fun st => FOk (mkFS (fsObjs st) (fsMorphs st) [] (fsMap st), mats))
    end
  else
    fbind (ffold (fun st m =>
             fbind (if opWhole op then FOk true else if negb (String.eqb (kind d m) "LimbNode") then has_geometry d fuel m else FOk false) (fun b =>
             if b then convert_model d fuel fuel coord op base st m (opDepth op) above else FOk st)) (children d (fdScene d)) st0) (fun st =>
    FOk (st, mats))).
End Fbx2Mqo.

Arguments layer A : clear implicits.
Arguments mkLayer {A}.
Arguments lMapping {A}. Arguments lReference {A}. Arguments lValues {A}. Arguments lIndexes {A}.
Arguments fshape T : clear implicits.
Arguments fgeom T : clear implicits.
Arguments fdef T : clear implicits.
Arguments fmodel T : clear implicits.
Arguments fmaterial T : clear implicits.
Arguments fobj T : clear implicits.
Arguments fdoc T : clear implicits.
Arguments foption T : clear implicits.
Arguments fstate T : clear implicits.
