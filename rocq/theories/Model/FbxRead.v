(** From the nodes of an FBX file to the document that is converted: [BuildDocument] of [fbx/fbx_document.go] and the accessors of [fbx/fbx_node.go],
    [fbx/fbx_object.go] and [fbx/fbx_geometry.go].  Numbers of files are bit patterns; what they are as float32 is a parameter.  A row of properties with fewer
    than four attributes, which crashes when a property is read (Props/C31.v), has no values here. *)
From Coq Require Import String Ascii List ZArith Bool.
From Verif.Model Require Import Num Vec Matrix Codec Fbx FbxDoc Fbx2Mqo.
Import ListNotations.
Local Open Scope list_scope.
Local Open Scope Z_scope.

(** Bytes as a string, and the other way round. *)
Definition str (b : bytes) : string := string_of_list_ascii (map (fun c => ascii_of_nat (Z.to_nat c)) b).
Definition byt (s : string) : bytes := map (fun c => Z.of_nat (nat_of_ascii c)) (list_ascii_of_string s).

(** [ToInt32Array] (fbx_node.go 213-235); [None] is nil. *)
Definition some_ints (l : list Z) : option (list Z) := match l with [] => None | _ => Some l end.
Definition int_array (a : option attr) : option (list Z) :=
  match a with
  | Some (AI32s l) => Some l
  | Some (AI8s l) | Some (AI16s l) => some_ints l
  | Some (AI64s l) => some_ints (map wrap32 l)
  | _ => None
  end.
(** [GetInt32Array] (fbx_node.go 82-90). *)
Definition ints_of (l : list attr) : list Z :=
  match int_array (attr_at_ l 0) with
  | Some x => x
  | None => map (fun a => wrap32 (to_int64 0 (Some a))) l
  end.

(** [FindChild] of a node that may be nil (fbx_node.go 40-50), and its attributes. *)
Definition kid (n : string) (o : option node) : option node := match o with Some x => find_child (byt n) (node_kids x) | None => None end.
Definition attrs_at (o : option node) : list attr := match o with Some x => node_attrs x | None => [] end.
Definition kids_at (o : option node) : list node := match o with Some x => node_kids x | None => [] end.
Definition is_named (n : string) (x : node) : bool := beq (node_name x) (byt n).

Section Read.
Context {T : Type} {N : Num T}.
(** The float32 values of a float32, a float64 and an integer. *)
Variables (f32 f64 of_int : Z -> T).

(** [ToFloat32] (fbx_node.go 177-199); [None]: not a number. *)
Definition float_of (a : attr) : option T :=
  match a with
  | AF32 b => Some (f32 b)
  | AF64 b => Some (f64 b)
  | AI8 v | AI16 v | AI32 v | AI64 v => Some (of_int v)
  | _ => None
  end.
(** [ToFloat32Array] (fbx_node.go 237-261); [None] is nil. *)
Definition some_floats (l : list T) : option (list T) := match l with [] => None | _ => Some l end.
Definition float_array (a : option attr) : option (list T) :=
  match a with
  | Some (AF32s l) => Some (map f32 l)
  | Some (AF64s l) => some_floats (map f64 l)
  | Some (AI32s l) | Some (AI64s l) => some_floats (map of_int l)
  | _ => None
  end.
(** [GetFloat32Array] (fbx_node.go 92-100). *)
Definition floats_of (l : list attr) : list T :=
  match float_array (attr_at_ l 0) with
  | Some x => x
  | None => map (fun a => match float_of a with Some x => x | None => nzero end) l
  end.
(** [GetVec2Array], [GetVec3Array] (fbx_node.go 102-118). *)
Fixpoint pairs (l : list T) : list (vec2 T) := match l with x :: y :: r => mkV2 x y :: pairs r | _ => [] end.
Fixpoint triples (l : list T) : list (vec3 T) := match l with x :: y :: z :: r => mkV3 x y z :: triples r | _ => [] end.

(** The rows below Properties70 as [GetProperty] reads them (fbx_object.go 56-75): the last row of a name counts, then the template. *)
Definition row_values (r : node) : list (option T) := map float_of (skipn 4 (node_attrs r)).
Definition row_named (n : string) (r : node) : bool := beq (to_str (attr_at_ (node_attrs r) 0)) (byt n).
Definition row (o : option node) (n : string) : option node := find (row_named n) (rev (kids_at (kid "Properties70" o))).
Definition property_row (o tmpl : option node) (n : string) : option node := match row o n with Some r => Some r | None => row tmpl n end.
Definition props (o tmpl : option node) (n : string) : list (option T) := match property_row o tmpl n with Some r => row_values r | None => [] end.

(** *** Objects *)

(** [GetLayerElement] (fbx_geometry.go 148-187). *)
Definition layer_string (el : option node) (n : string) : string := str (to_str (attr_at_ (attrs_at (kid n el)) 0)).
Definition read_layer {A} (o : option node) (el idx : string) (values : option node -> list A) : layer A :=
  mkLayer (layer_string (kid el o) "MappingInformationType") (layer_string (kid el o) "ReferenceInformationType") (values (kid el o)) (ints_of (attrs_at (kid idx (kid el o)))).
(** The name of a shape (fbx_geometry.go 193-198); a short form has no separator. *)
Definition shape_name (a : list attr) : string := str (to_str (attr_at_ a (if Nat.leb 3 (length a) then 1 else 0))).
Definition read_shape (n : node) : fshape T :=
  mkFShape (shape_name (node_attrs n)) (triples (floats_of (attrs_at (kid "Vertices" (Some n))))) (ints_of (attrs_at (kid "Indexes" (Some n)))).
(** [Geometry] after [Init] (fbx_geometry.go 59-78, 92-100). *)
Definition read_geom (n : node) : fgeom T :=
  let o := Some n in
  mkFG (shape_name (node_attrs n)) (str (to_str (attr_at_ (node_attrs n) 2))) (triples (floats_of (attrs_at (kid "Vertices" o))))
       (ints_of (attrs_at (kid "PolygonVertexIndex" o))) (ints_of (attrs_at (kid "Indexes" o)))
       (read_layer o "LayerElementMaterial" "Materials" (fun _ => []))
       (read_layer o "LayerElementNormal" "NormalsIndex" (fun e => triples (floats_of (attrs_at (kid "Normals" e)))))
       (read_layer o "LayerElementUV" "UVIndex" (fun e => pairs (floats_of (attrs_at (kid "UV" e)))))
       (map read_shape (filter (is_named "Shape") (node_kids n))).
(** [GetTransformLink] (fbx_geometry.go 233-239). *)
Definition link_of (l : list T) : mat4 T :=
  match l with
  | [a; b; c; d; e; f; g; h; i; j; k; l; m; n; o; p] => mkM a b c d e f g h i j k l m n o p
  | _ => mat_id
  end.
Definition read_def (n : node) : fdef T :=
  mkFDef (str (to_str (attr_at_ (node_attrs n) 2))) (floats_of (attrs_at (kid "Weights" (Some n)))) (ints_of (attrs_at (kid "Indexes" (Some n))))
         (link_of (floats_of (attrs_at (kid "TransformLink" (Some n))))).

(** [UpdateMatrix] (fbx_model.go 54-65) as a function of the properties: Model/FbxMatrix.v has it over exact reals. *)
Variable local_of : (string -> list (option T)) -> mat4 T.
Definition read_model (o tmpl : option node) : fmodel T :=
  let p := props o tmpl in
  mkFM (str (to_str (attr_at_ (attrs_at o) 1))) (str (to_str (attr_at_ (attrs_at o) 2))) (local_of p) (attr_vec (p "ScalingPivot"%string) nzero nzero nzero).
(** The type of an object (fbx_document.go 92-113). *)
Definition read_obj (n : node) (tmpl : option node) : fobj T :=
  if is_named "Deformer" n then ODef (read_def n)
  else if is_named "Geometry" n then OGeom (read_geom n)
  else if is_named "Material" n then OMat (mkFMat (str (to_str (attr_at_ (node_attrs n) 1))) (props (Some n) tmpl))
  else if is_named "Model" n then OModel (read_model (Some n) tmpl)
  else OOther (str (node_name n)) (str (to_str (attr_at_ (attrs_at (kid "RelativeFilename" (Some n))) 0))).

(** *** Documents *)

Section Root.
Variable root : node.
Definition top (n : string) : option node := kid n (Some root).
(** fbx_document.go 75 *)
Definition version : Z := to_int64 0 (attr_at_ (attrs_at (kid "FBXVersion" (top "FBXHeaderExtension"))) 0).
Definition old_version : bool := version =? 6100.
(** [templates] (fbx_document.go 77-83): the last one of a name. *)
Definition template (n : bytes) : option node :=
  match find (fun x => is_named "ObjectType" x && beq (to_str (attr_at_ (node_attrs x) 0)) n) (rev (kids_at (top "Definitions"))) with
  | Some x => kid "PropertyTemplate" (Some x)
  | None => None
  end.
(** The nodes of the objects (fbx_document.go 86-92): those of version 6100 get a number, which is their position. *)
Fixpoint numbered_from (i : Z) (l : list node) : list node :=
  match l with [] => [] | n :: r => Node (node_name n) (AI64 i :: node_attrs n) (node_kids n) :: numbered_from (i + 1) r end.
Definition object_nodes : list node := if old_version then numbered_from 1 (kids_at (top "Objects")) else kids_at (top "Objects").
Definition id_of (n : node) : Z := to_int64 0 (attr_at_ (node_attrs n) 0).
Definition name_of (n : node) : bytes := to_str (attr_at_ (node_attrs n) 1).

(** [ObjectByID] and [objectByName] (fbx_document.go 66, 85, 114-115): object 0 is the scene; the last assignment counts. *)
Definition scene_name : bytes := byt "Scene" ++ [0; 1] ++ byt "Model".
Definition by_id : list (Z * nat) := table_of 1 object_nodes [(0, 0%nat)].
Fixpoint names_from (i : nat) (l : list node) (t : list (bytes * nat)) : list (bytes * nat) :=
  match l with [] => t | n :: r => names_from (S i) r ((name_of n, i) :: t) end.
Definition by_name : list (bytes * nat) := names_from 1 object_nodes [(scene_name, 0%nat)].
Fixpoint blook (k : bytes) (t : list (bytes * nat)) : option nat :=
  match t with [] => None | (k', o) :: r => if beq k k' then Some o else blook k r end.
Definition found (a : option attr) : option nat := if old_version then blook (to_str a) by_name else lookup (to_int64 0 a) by_id.
(** One connection (fbx_document.go 118-137). *)
Definition link (c : node) : list (nat * nat) :=
  let a := node_attrs c in
  let kind := to_str (attr_at_ a 0) in
  if (beq kind (byt "OO") || beq kind (byt "OP")) && Nat.leb 3 (length a)
  then match found (attr_at_ a 1), found (attr_at_ a 2) with Some f, Some t => [(f, t)] | _, _ => [] end
  else [].
(** Which models hold a geometry of their own (fbx_document.go 107-112). *)
Definition holds (n : node) : bool := old_version && is_named "Model" n && match kid "Vertices" (Some n) with Some _ => true | None => false end.

(** The objects: the scene, whose node has no attributes, those of the file, and the geometries that models hold, by the number of the model. *)
Definition count : nat := length object_nodes.
Definition objects (o : nat) : option (fobj T) :=
  match o with
  | O => Some (OModel (read_model None None))
  | S i => match nth_error object_nodes i with
           | Some n => Some (read_obj n (template (node_name n)))
           | None => match nth_error object_nodes (i - count) with
                     | Some n => if holds n then Some (OGeom (read_geom n)) else None
                     | None => None
                     end
           end
  end.
Definition held (o : nat) : list nat :=
  match o with
  | O => []
  | S i => match nth_error object_nodes i with Some n => if holds n then [S (i + count)] else [] | None => [] end
  end.
Fixpoint places (f : node -> bool) (i : nat) (l : list node) : list nat :=
  match l with [] => [] | n :: r => (if f n then [i] else []) ++ places f (S i) r end.
(** [CoordMatrix] (fbx_document.go 169-181); integers are read as integers. *)
Definition settings_row (n : string) : option node := property_row (top "GlobalSettings") (template (byt "GlobalSettings")) n.
Definition setting (n : string) (def : Z) : Z := match settings_row n with Some r => to_int64 def (attr_at_ (node_attrs r) 4) | None => def end.
Definition sign (n : string) : T := attr_num (props (top "GlobalSettings") (template (byt "GlobalSettings")) n) 0 none.
Definition coord : option (mat4 T) :=
  coord_matrix (setting "CoordAxis" 0) (setting "UpAxis" 1) (setting "FrontAxis" 2) (sign "CoordAxisSign") (sign "UpAxisSign") (sign "FrontAxisSign").

(** [BuildDocument] (fbx_document.go 64-141). *)
Definition read_doc : fdoc T :=
  mkFD objects held (flat_map link (kids_at (top "Connections"))) 0 (places (is_named "Material") 1 object_nodes) coord.
End Root.
End Read.
