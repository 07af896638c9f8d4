(** What the nodes of an FBX file say about the contents of its objects. *)
From Coq Require Import String List ZArith Bool.
From Verif.Model Require Import Num Vec Matrix Codec Fbx FbxRead Fbx2Mqo.
From Verif.Spec Require Import FbxReadSpec.
Import ListNotations.
Local Open Scope list_scope.
Local Open Scope Z_scope.

(** The first child of a name. *)
Definition child (n : string) (x c : node) : Prop := exists l1 l2, node_kids x = l1 ++ c :: l2 /\ node_name c = byt n /\ forall y, In y l1 -> node_name y <> byt n.
Definition childless (n : string) (x : node) : Prop := forall y, In y (node_kids x) -> node_name y <> byt n.

(** Rows of properties: the last one of a name counts; a template says what the object does not. *)
Definition row_says (o : node) (n : string) (r : node) : Prop :=
  exists p l1 l2, child "Properties70" o p /\ node_kids p = l1 ++ r :: l2 /\ string_at r 0 (byt n) /\ forall y, In y l2 -> ~ string_at y 0 (byt n).
Definition template_says (root : node) (ty : bytes) (t : node) : Prop :=
  exists d x l1 l2, child "Definitions" root d /\ node_kids d = l1 ++ x :: l2 /\ node_name x = byt "ObjectType" /\ string_at x 0 ty /\
    (forall y, In y l2 -> ~ (node_name y = byt "ObjectType" /\ string_at y 0 ty)) /\ child "PropertyTemplate" x t.
Definition property_says (root o : node) (n : string) (r : node) : Prop :=
  row_says o n r \/ (forall r', ~ row_says o n r') /\ exists t, template_says root (node_name o) t /\ row_says t n r.

Section Numbers.
Context {T : Type} {N : Num T}.
Variables (f32 f64 of_int : Z -> T).
(** The number that an attribute is. *)
Definition number (a : attr) : option T :=
  match a with AF32 b => Some (f32 b) | AF64 b => Some (f64 b) | AI8 v | AI16 v | AI32 v | AI64 v => Some (of_int v) | _ => None end.
(** Numbers in an array of any type, or one by one. *)
Inductive float_list : list attr -> list T -> Prop :=
| fl_single l r : float_list (AF32s l :: r) (map f32 l)
| fl_double l r : l <> [] -> float_list (AF64s l :: r) (map f64 l)
| fl_int32 l r : l <> [] -> float_list (AI32s l :: r) (map of_int l)
| fl_int64 l r : l <> [] -> float_list (AI64s l :: r) (map of_int l)
| fl_each l xs : Forall2 (fun a x => number a = Some x) l xs -> float_list l xs.
Definition small (v : Z) : Prop := - 2 ^ 31 <= v < 2 ^ 31.
Inductive int_list : list attr -> list Z -> Prop :=
| il_int8 l r : l <> [] -> int_list (AI8s l :: r) l
| il_int16 l r : l <> [] -> int_list (AI16s l :: r) l
| il_int32 l r : int_list (AI32s l :: r) l
| il_int64 l r : l <> [] -> Forall small l -> int_list (AI64s l :: r) l
| il_each l xs : Forall2 (fun a v => (a = AI8 v \/ a = AI16 v \/ a = AI32 v \/ a = AI64 v) /\ small v) l xs -> int_list l xs.
Inductive points : list T -> list (vec3 T) -> Prop :=
| pt_nil : points [] []
| pt_cons x y z r l : points r l -> points (x :: y :: z :: r) (mkV3 x y z :: l).
Inductive points2 : list T -> list (vec2 T) -> Prop :=
| p2_nil : points2 [] []
| p2_cons x y r l : points2 r l -> points2 (x :: y :: r) (mkV2 x y :: l).

(** Children with numbers. *)
Definition has_floats (n : string) (x : node) (l : list T) : Prop := (exists c, child n x c /\ float_list (node_attrs c) l) \/ childless n x /\ l = [].
Definition has_ints (n : string) (x : node) (l : list Z) : Prop := (exists c, child n x c /\ int_list (node_attrs c) l) \/ childless n x /\ l = [].
Definition has_string (n : string) (x : node) (s : bytes) : Prop := exists c, child n x c /\ string_at c 0 s.

(** A layer of a geometry: where its values are, which of them, and what they are. *)
Definition layer_says {A} (m : node) (el idx : string) (l : layer A) (values : node -> list A -> Prop) : Prop :=
  forall e, child el m e ->
    (forall s, has_string "MappingInformationType" e s -> lMapping l = str s) /\ (forall s, has_string "ReferenceInformationType" e s -> lReference l = str s) /\
    (forall v, has_ints idx e v -> lIndexes l = v) /\ (forall v, values e v -> lValues l = v).
Definition shape_says (m : node) (s : fshape T) : Prop :=
  (forall a b c r n, node_attrs m = a :: b :: c :: r -> string_at m 1 n -> shName s = str n) /\
  (forall a n, node_attrs m = [a] -> string_at m 0 n -> shName s = str n) /\
  (forall l ps, has_floats "Vertices" m l -> points l ps -> shVerts s = ps) /\ (forall l, has_ints "Indexes" m l -> shIndexes s = l).
Definition geometry_says (m : node) (g : fgeom T) : Prop :=
  (forall l ps, has_floats "Vertices" m l -> points l ps -> gVerts g = ps) /\
  (forall l, has_ints "PolygonVertexIndex" m l -> gIndex g = l) /\ (forall l, has_ints "Indexes" m l -> gOwn g = l) /\
  layer_says m "LayerElementMaterial" "Materials" (gMats g) (fun _ _ => False) /\
  layer_says m "LayerElementNormal" "NormalsIndex" (gNormals g) (fun e v => exists l, has_floats "Normals" e l /\ points l v) /\
  layer_says m "LayerElementUV" "UVIndex" (gUVs g) (fun e v => exists l, has_floats "UV" e l /\ points2 l v) /\
  exists ns, Forall2 shape_says ns (gShapes g) /\ ns = filter (fun x => if list_eq_dec Z.eq_dec (node_name x) (byt "Shape") then true else false) (node_kids m).
Definition deformer_says (m : node) (f : fdef T) : Prop :=
  (forall l, has_floats "Weights" m l -> dfWeights f = l) /\ (forall l, has_ints "Indexes" m l -> dfIndexes f = l) /\
  (forall a b c d e g h i j k l n o p q r, has_floats "TransformLink" m [a; b; c; d; e; g; h; i; j; k; l; n; o; p; q; r] ->
     dfLink f = mkM a b c d e g h i j k l n o p q r).
(** The values of the property of a name. *)
Definition values_say (root o : node) (n : string) (v : list (option T)) : Prop :=
  (forall r, property_says root o n r -> v = map number (skipn 4 (node_attrs r))) /\ ((forall r, ~ property_says root o n r) -> v = []).
End Numbers.
(** The name and the kind of an object come after its number, which files of version 6100 do not have. *)
Definition object_string (root m : node) (k : nat) (s : bytes) : Prop := string_at m (if version root =? 6100 then k else S k) s.
