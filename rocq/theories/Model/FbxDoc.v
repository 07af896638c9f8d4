(** FBX documents: object table, properties, geometries: [fbx/fbx_document.go],
    [fbx/fbx_object.go], [fbx/fbx_geometry.go], and the accessors of [fbx/fbx_node.go]. *)
From Coq Require Import List ZArith Bool.
From Verif Require Import Model.Codec Model.Fbx.
Import ListNotations.
Local Open Scope Z_scope.
Local Open Scope list_scope.

(** *** Accessors *)

(** [AttributeList.Get] and [Node.Attr] on a non-nil node (fbx_node.go 59-64, 122-127);
    [None] is a nil attribute. *)
Definition attr_at_ (l : list attr) (i : nat) : option attr := nth_error l i.

(** [ToInt64] (fbx_node.go 163-177): Go's [int] and [byte] are not among the cases. *)
Definition to_int64 (d : Z) (a : option attr) : Z :=
  match a with
  | Some (AI8 v) | Some (AI16 v) | Some (AI32 v) | Some (AI64 v) => v
  | _ => d
  end.

(** [ToString] (fbx_node.go 206-216). *)
Definition to_str (a : option attr) : bytes :=
  match a with Some (AStr s) | Some (ARaw s) => s | _ => [] end.

(** [int32(v)] of an integer. *)
Definition wrap32 (v : Z) : Z := (v + 2 ^ 31) mod 2 ^ 32 - 2 ^ 31.

(** [ToInt32Array] (fbx_node.go 218-238); an empty result of the converting cases is nil. *)
Definition to_i32s (a : option attr) : list Z :=
  match a with
  | Some (AI32s l) => l
  | Some (AI8s l) | Some (AI16s l) => l
  | Some (AI64s l) => map wrap32 l
  | _ => []
  end.

(** [GetInt32Array] (fbx_node.go 78-86).  A slice made by appending is nil exactly when it is
    empty; the parsers' empty arrays are non-nil, which this model does not distinguish. *)
Definition get_i32s (l : list attr) : list Z :=
  match to_i32s (attr_at_ l 0) with
  | [] => map (fun a => wrap32 (to_int64 0 (Some a))) l
  | x => x
  end.

(** [FindChild] (fbx_node.go 40-50) on the list of children. *)
Fixpoint find_child (nm : bytes) (l : list node) : option node :=
  match l with
  | [] => None
  | c :: r => if beq (node_name c) nm then Some c else find_child nm r
  end.

(** *** The object table *)

(** Objects and nodes are pointers: [d_node] gives the node of an object, [d_attrs] the
    attributes of a node.  [d_objs] is the list of nodes below "Objects"; [None] if the
    document has no such node. *)
Record doc := mkDoc {
  d_table : list (Z * nat);        (* ObjectByID, newest entry first *)
  d_next : Z;                      (* NextObjectID *)
  d_node : nat -> nat;
  d_attrs : nat -> list attr;
  d_objs : option (list nat) }.

Fixpoint lookup (k : Z) (t : list (Z * nat)) : option nat :=
  match t with
  | [] => None
  | (k', o) :: r => if k =? k' then Some o else lookup k r
  end.

(** [ID] (fbx_object.go 52-54). *)
Definition obj_id (d : doc) (o : nat) : Z := to_int64 0 (attr_at_ (d_attrs d (d_node d o)) 0).

(** [newID] (fbx_document.go 57-63): the id and the new counter.  Ids are integers here; the
    counter would have to pass 2^63 for the difference to show. *)
Fixpoint new_id (fuel : nat) (t : list (Z * nat)) (next : Z) : option Z :=
  match fuel with
  | O => None
  | S f => match lookup next t with None => Some next | Some _ => new_id f t (next + 1) end
  end.

Definition upd {A} (f : nat -> A) (k : nat) (v : A) (x : nat) : A := if Nat.eqb x k then v else f x.

(** [AddObject] (fbx_document.go 143-155): [None] is a crash (a node without attributes, or a
    document without an "Objects" node). *)
Definition add_object (d : doc) (o : nat) : option doc :=
  let existing := lookup (obj_id d o) (d_table d) in
  if (match existing with Some e => Nat.eqb e o | None => false end) then Some d
  else
    let renumbered :=
      if (obj_id d o =? 0) || (match existing with Some _ => true | None => false end)
      then match new_id (S (length (d_table d))) (d_table d) (d_next d), d_attrs d (d_node d o) with
           | Some v, _ :: r =>
               Some (mkDoc (d_table d) (v + 1) (d_node d) (upd (d_attrs d) (d_node d o) (AI64 v :: r)) (d_objs d))
           | _, _ => None
           end
      else Some d in
    match renumbered with
    | None => None
    | Some d1 =>
        match d_objs d1 with
        | None => None
        | Some l =>
            Some (mkDoc ((obj_id d1 o, o) :: d_table d1) (d_next d1) (d_node d1) (d_attrs d1)
                        (Some (l ++ [d_node d1 o])))
        end
    end.

Fixpoint add_objects (d : doc) (l : list nat) : option doc :=
  match l with
  | [] => Some d
  | o :: r => match add_object d o with Some d' => add_objects d' r | None => None end
  end.

(** The object table of [BuildDocument] for versions other than 6100 (fbx_document.go 65-119):
    object 0 is the scene, whose node has no attributes, and object [i + 1] belongs to the
    [i]-th child of "Objects". *)
Fixpoint table_of (i : nat) (l : list node) (t : list (Z * nat)) : list (Z * nat) :=
  match l with
  | [] => t
  | n :: r => table_of (S i) r ((to_int64 0 (attr_at_ (node_attrs n) 0), i) :: t)
  end.
Definition objects_name : bytes := [79; 98; 106; 101; 99; 116; 115].
Definition build_doc (root : node) : doc :=
  let kids := match find_child objects_name (node_kids root) with Some n => Some (node_kids n) | None => None end in
  let l := match kids with Some k => k | None => [] end in
  mkDoc (table_of 1 l [(0, 0%nat)]) 0 (fun o => o)
        (fun n => match n with O => [] | S i => match nth_error l i with Some x => node_attrs x | None => [] end end)
        (match kids with Some k => Some (seq 1 (length k)) | None => None end).

(** The object table of [BuildDocument] for version 6100 (fbx_document.go 85-119): every node is
    copied and the copy gets a fresh id before its other attributes.  The result is the
    attributes of the copies, the table and the counter. *)
Fixpoint number (i : nat) (l : list node) (t : list (Z * nat)) (next : Z) : list (list attr) * list (Z * nat) * Z :=
  match l with
  | [] => ([], t, next)
  | n :: r =>
      let v := match new_id (S (length t)) t next with Some v => v | None => next end in
      let '(a, t', x) := number (S i) r ((v, i) :: t) (v + 1) in
      ((AI64 v :: node_attrs n) :: a, t', x)
  end.
(** Node 0 is the scene's, nodes 1 to [n] are the copies and nodes [n + 1] to [2 n] the
    originals below "Objects". *)
Definition build_doc_6100 (root : node) : doc :=
  let kids := match find_child objects_name (node_kids root) with Some n => Some (node_kids n) | None => None end in
  let l := match kids with Some k => k | None => [] end in
  let '(copies, t, next) := number 1 l [(0, 0%nat)] 0 in
  let all := [] :: copies ++ map node_attrs l in
  mkDoc t next (fun o => o) (fun n => nth n all [])
        (match kids with Some k => Some (seq (S (length l)) (length k)) | None => None end).

(** *** Properties *)

(** [Property] (fbx_object.go 7-12). *)
Record property := mkP { p_type : bytes; p_label : bytes; p_flag : bytes; p_vals : list attr }.

(** [Obj] as far as properties go (fbx_object.go 26-31): the attribute lists of the nodes
    below Properties70 ([None]: no such node), the lazily built map and the template. *)
Inductive pobj : Type := PObj (nodes : option (list (list attr))) (cache : option (list (bytes * property))) (tmpl : option pobj).

Fixpoint plook (k : bytes) (m : list (bytes * property)) : option property :=
  match m with
  | [] => None
  | (k', p) :: r => if beq k k' then Some p else plook k r
  end.

(** One entry of the map (fbx_object.go 62-66); [None]: the slice expression [4:] of fewer
    than four attributes crashes. *)
Definition prop_of (a : list attr) : option (bytes * property) :=
  if Nat.ltb (length a) 4 then None
  else Some (to_str (attr_at_ a 0),
             mkP (to_str (attr_at_ a 1)) (to_str (attr_at_ a 2)) (to_str (attr_at_ a 3)) (skipn 4 a)).
(** The loop building the map (fbx_object.go 60-68): later entries replace earlier ones. *)
Fixpoint build_cache (m : list (bytes * property)) (l : list (list attr)) : option (list (bytes * property)) :=
  match l with
  | [] => Some m
  | a :: r => match prop_of a with Some e => build_cache (e :: m) r | None => None end
  end.

(** [GetProperty] (fbx_object.go 58-75): the result and the object with its map built; the
    outer [None] is a crash. *)
Fixpoint get_property (o : pobj) (k : bytes) : option (property * pobj) :=
  let 'PObj nodes cache tmpl := o in
  match (match cache with
         | Some m => Some m
         | None => build_cache [] (match nodes with Some l => l | None => [] end)
         end) with
  | None => None
  | Some m =>
      match plook k m with
      | Some p => Some (p, PObj nodes (Some m) tmpl)
      | None =>
          match tmpl with
          | None => Some (mkP [] [] [] [], PObj nodes (Some m) tmpl)
          | Some t => match get_property t k with
                      | Some (p, t') => Some (p, PObj nodes (Some m) (Some t'))
                      | None => None
                      end
          end
      end
  end.

Fixpoint set_first (k : bytes) (v : list attr) (l : list (list attr)) : option (list (list attr)) :=
  match l with
  | [] => None
  | a :: r => if beq (to_str (attr_at_ a 0)) k then Some (v :: r)
              else match set_first k v r with Some r' => Some (a :: r') | None => None end
  end.

(** [SetProperty] (fbx_object.go 76-96); [None]: no Properties70 node, a nil dereference. *)
Definition set_property (o : pobj) (k : bytes) (p : property) : option pobj :=
  let 'PObj nodes cache tmpl := o in
  let cache' := match cache with Some m => Some ((k, p) :: m) | None => None end in
  let attrs := [AStr k; AStr (p_type p); AStr (p_label p); AStr (p_flag p)] ++ p_vals p in
  match nodes with
  | None => None
  | Some l => match set_first k attrs l with
              | Some l' => Some (PObj (Some l') cache' tmpl)
              | None => Some (PObj (Some (l ++ [attrs])) cache' tmpl)
              end
  end.

(** *** Geometries *)

(** The index list of [NewGeometry] (fbx_geometry.go 37-45). *)
Fixpoint close_face (f : list Z) : list Z :=
  match f with
  | [] => []
  | [i] => [Z.lnot (wrap32 i)]
  | i :: r => wrap32 i :: close_face r
  end.
Definition encode_faces (fs : list (list Z)) : list Z := flat_map close_face fs.

(** The loop of [Init] (fbx_geometry.go 63-74). *)
Fixpoint decode_faces (cur : list Z) (l : list Z) : list (list Z) :=
  match l with
  | [] => []
  | i :: r => if i <? 0 then (cur ++ [Z.lnot i]) :: decode_faces [] r else decode_faces (cur ++ [i]) r
  end.

Definition vertices_name : bytes := [86; 101; 114; 116; 105; 99; 101; 115].
Definition polygons_name : bytes :=
  [80; 111; 108; 121; 103; 111; 110; 86; 101; 114; 116; 101; 120; 73; 110; 100; 101; 120].
Definition layer_name : bytes := [76; 97; 121; 101; 114].
Definition props_name : bytes := [80; 114; 111; 112; 101; 114; 116; 105; 101; 115; 55; 48].

(** The children of the node [NewGeometry] makes (fbx_geometry.go 47-52, fbx_object.go 36-44);
    vertex coordinates are float32 bit patterns. *)
Definition new_geometry (verts : list (Z * Z * Z)) (faces : list (list Z)) : list node :=
  [Node vertices_name [AF32s (flat_map (fun '(x, y, z) => [x; y; z]) verts)] [];
   Node polygons_name [AI32s (encode_faces faces)] [];
   Node layer_name [AInt 0] [];
   Node props_name [] []].

(** [Init] (fbx_geometry.go 59-75): the polygons and [PolygonVertexCount]. *)
Definition init_polygons (kids : list node) : list (list Z) :=
  match find_child polygons_name kids with
  | Some n => decode_faces [] (get_i32s (node_attrs n))
  | None => []
  end.
Definition init_count (kids : list node) : nat :=
  match find_child polygons_name kids with Some n => length (get_i32s (node_attrs n)) | None => 0 end.

(** [GetVec3Array] (fbx_node.go 112-120) of an array attribute that is not empty, which is the
    only case the conversions of [GetFloat32Array] leave alone. *)
Fixpoint vec3s (l : list Z) : list (Z * Z * Z) :=
  match l with x :: y :: z :: r => (x, y, z) :: vec3s r | _ => [] end.
(** [GetVertices] (fbx_geometry.go 77-79) for vertices stored as a float32 array. *)
Definition init_vertices (kids : list node) : list (Z * Z * Z) :=
  match find_child vertices_name kids with
  | Some n => match node_attrs n with AF32s l :: _ => vec3s l | _ => [] end
  | None => []
  end.

(** [AddOrReplaceChild] (fbx_object.go 127-137): the children and whether one was added. *)
Fixpoint add_or_replace (n : node) (l : list node) : list node * bool :=
  match l with
  | [] => ([n], true)
  | c :: r => if beq (node_name c) (node_name n) then (n :: r, false)
              else let (r', b) := add_or_replace n r in (c :: r', b)
  end.
(** Appending to the children of the first child of that name; [None]: there is none. *)
Fixpoint append_below (nm : bytes) (x : node) (l : list node) : option (list node) :=
  match l with
  | [] => None
  | c :: r => if beq (node_name c) nm
              then let 'Node a b k := c in Some (Node a b (k ++ [x]) :: r)
              else match append_below nm x r with Some r' => Some (c :: r') | None => None end
  end.

Definition le_name : bytes := [76; 97; 121; 101; 114; 69; 108; 101; 109; 101; 110; 116].   (* LayerElement *)
Definition normal_el : bytes := le_name ++ [78; 111; 114; 109; 97; 108].
Definition material_el : bytes := le_name ++ [77; 97; 116; 101; 114; 105; 97; 108].
Definition uv_el : bytes := le_name ++ [85; 86].
Definition type_name : bytes := [84; 121; 112; 101].
Definition tindex_name : bytes := [84; 121; 112; 101; 100; 73; 110; 100; 101; 120].

(** [setLayerElementNode] (fbx_geometry.go 102-113); [values] is not used; [None]: no "Layer"
    node, a nil dereference. *)
Definition set_layer_element (kids : list node) (name : bytes) (typeIndex : Z) (values : list node) : option (list node) :=
  let (kids1, added) := add_or_replace (Node name [AInt 0] []) kids in
  if added
  then append_below layer_name
         (Node le_name [] [Node type_name [AStr name] []; Node tindex_name [AInt typeIndex] []]) kids1
  else Some kids1.

Definition mapping_name : bytes := [77; 97; 112; 112; 105; 110; 103; 73; 110; 102; 111; 114; 109; 97; 116; 105; 111; 110; 84; 121; 112; 101].
Definition reference_name : bytes := [82; 101; 102; 101; 114; 101; 110; 99; 101; 73; 110; 102; 111; 114; 109; 97; 116; 105; 111; 110; 84; 121; 112; 101].
Definition normals_name : bytes := [78; 111; 114; 109; 97; 108; 115].
Definition materials_name : bytes := [77; 97; 116; 101; 114; 105; 97; 108; 115].
Definition uv_name : bytes := [85; 86].
Definition uvindex_name : bytes := [85; 86; 73; 110; 100; 101; 120].
Definition direct : bytes := [68; 105; 114; 101; 99; 116].
Definition index_to_direct : bytes := [73; 110; 100; 101; 120; 84; 111; 68; 105; 114; 101; 99; 116].

(** [SetLayerElementMaterialIndex], [SetLayerElementUVIndexed], [SetLayerElementNormal]
    (fbx_geometry.go 115-148). *)
Definition set_materials (kids : list node) (mat : list Z) (mapping : bytes) : option (list node) :=
  set_layer_element kids material_el 0
    [Node mapping_name [AStr mapping] []; Node reference_name [AStr index_to_direct] []; Node materials_name [AI32s mat] []].
Definition set_uvs (kids : list node) (uv : list (Z * Z)) (indices : list Z) (mapping : bytes) : option (list node) :=
  set_layer_element kids normal_el 0
    [Node mapping_name [AStr mapping] []; Node reference_name [AStr index_to_direct] [];
     Node uv_name [AF32s (flat_map (fun '(u, v) => [u; v]) uv)] []; Node uvindex_name [AI32s indices] []].
Definition set_normals (kids : list node) (ns : list (Z * Z * Z)) (mapping : bytes) : option (list node) :=
  set_layer_element kids normal_el 0
    [Node mapping_name [AStr mapping] []; Node reference_name [AStr direct] [];
     Node normals_name [AF32s (flat_map (fun '(x, y, z) => [x; y; z]) ns)] []].

(** [GetLayerElement] (fbx_geometry.go 150-153): the node holding the values, if any. *)
Definition layer_array (kids : list node) (el arr : bytes) : option node :=
  match find_child el kids with Some n => find_child arr (node_kids n) | None => None end.

(** *** Model trees *)

(** [Model.Parent], set by the connections (fbx_document.go 121-138): the last model a model
    was connected to.  [conns] lists the connections between two existing models, as
    (from, to). *)
Fixpoint parent_of (m : nat) (conns : list (nat * nat)) : option nat :=
  match conns with
  | [] => None
  | (f, t) :: r => match parent_of m r with
                   | Some p => Some p
                   | None => if Nat.eqb f m then Some t else None
                   end
  end.

(** [GetWorldMatrix] (fbx_model.go 74-79) over any matrix type; [None] if the recursion is not
    over after [fuel] calls. *)
Fixpoint world {M : Type} (mul : M -> M -> M) (local : nat -> M) (parent : nat -> option nat) (fuel : nat) (m : nat) : option M :=
  match fuel with
  | O => None
  | S f => match parent m with
           | None => Some (local m)
           | Some p => match world mul local parent f p with
                       | Some w => Some (mul w (local m))
                       | None => None
                       end
           end
  end.
