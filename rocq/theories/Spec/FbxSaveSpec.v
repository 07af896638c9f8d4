(** FBX documents that are saved as text: which trees keep their meaning, and what is the same afterwards. *)
From Coq Require Import String Ascii List ZArith Bool.
From Verif.Model Require Import Num Vec Matrix Codec Fbx Fbx2Mqo FbxRead.
From Verif.Spec Require Import FbxTextSpec.
Import ListNotations.
Local Open Scope list_scope.
Local Open Scope Z_scope.

(** Names of classes, "name NUL SOH class". *)
Definition separated (s : bytes) : Prop := exists a b, s = a ++ [0; 1] ++ b.
Definition is_float (a : attr) : Prop := match a with AF32 _ | AF64 _ | AF32s _ | AF64s _ => True | _ => False end.
(** Nodes with whole numbers. *)
Definition whole_names : list bytes :=
  map byt ["FBXVersion"; "Indexes"; "PolygonVertexIndex"; "UVIndex"; "NormalsIndex"; "Materials"]%string.
Definition axes : list bytes := map byt ["CoordAxis"; "UpAxis"; "FrontAxis"]%string.
Definition of_whole (n : node) : Prop := In (node_name n) whole_names \/ exists s, nth_error (node_attrs n) 0 = Some (AStr s) /\ In s axes.
(** Attribute [i]: no raw data, no empty array, and classes only where the names of objects are, in the second attribute. *)
Definition usual (i : nat) (a : attr) : Prop :=
  match a with
  | AI8 _ | AI16 _ | AI32 _ | AI64 _ | AF32 _ | AF64 _ => True
  | AStr s => i <> 1%nat -> ~ separated s
  | AI32s l | AI64s l | AF32s l | AF64s l => l <> []
  | _ => False
  end.
Inductive tidy : node -> Prop :=
| tidy_node nm a k : (forall i x, nth_error a i = Some x -> usual i x) -> (of_whole (Node nm a k) -> forall x, In x a -> ~ is_float x) -> Forall tidy k -> tidy (Node nm a k).
(** Objects and connections have whole numbers. *)
Definition whole_ids (objs conns : list node) : Prop :=
  Forall (fun n => forall a, nth_error (node_attrs n) 0 = Some a -> ~ is_float a) objs /\
  Forall (fun c => forall a, In a (node_attrs c) -> ~ is_float a) conns.

(** The text of a number means the same number (as a float32; the sign of zero does not count). *)
Definition same_numbers {T} (parse_float : bytes -> Z * bool) (fmt32 fmt64 : Z -> bytes) (f32 f64 of_int : Z -> T) : Prop :=
  (forall b, number (fmt64 b) -> f64 (fst (parse_float (fmt64 b))) = f64 b) /\ (forall b, number (fmt32 b) -> f64 (fst (parse_float (fmt32 b))) = f32 b) /\
  (forall b v, decimal (fmt64 b) v -> of_int v = f64 b) /\ (forall b v, decimal (fmt32 b) v -> of_int v = f32 b).

(** Names of classes are written the other way round. *)
Definition renamed (s s' : string) : Prop :=
  s = s' \/ exists a b, s = str (a ++ [0; 1] ++ b) /\ s' = str (b ++ [58; 58] ++ a).

Section Same.
Context {T : Type}.
Definition same_shape (s s' : fshape T) : Prop := renamed (shName s) (shName s') /\ shVerts s = shVerts s' /\ shIndexes s = shIndexes s'.
Inductive same_obj : option (fobj T) -> option (fobj T) -> Prop :=
| so_none : same_obj None None
| so_model m m' : renamed (fmName m) (fmName m') -> fmKind m = fmKind m' -> fmLocal m = fmLocal m' -> fmPivot m = fmPivot m' -> same_obj (Some (OModel m)) (Some (OModel m'))
| so_geom g g' : renamed (gName g) (gName g') -> gKind g = gKind g' -> gVerts g = gVerts g' -> gIndex g = gIndex g' -> gOwn g = gOwn g' -> gMats g = gMats g' ->
    gNormals g = gNormals g' -> gUVs g = gUVs g' -> Forall2 same_shape (gShapes g) (gShapes g') -> same_obj (Some (OGeom g)) (Some (OGeom g'))
| so_mat m m' : renamed (fxName m) (fxName m') -> (forall n, fxProp m n = fxProp m' n) -> same_obj (Some (OMat m)) (Some (OMat m'))
| so_def f : same_obj (Some (ODef f)) (Some (ODef f))
| so_other n f : same_obj (Some (OOther n f)) (Some (OOther n f)).
Definition same_doc (d d' : fdoc T) : Prop :=
  (forall o, same_obj (fdObjs d o) (fdObjs d' o)) /\ (forall o, fdHeld d o = fdHeld d' o) /\ fdConns d = fdConns d' /\ fdScene d = fdScene d' /\ fdMats d = fdMats d' /\
  fdCoord d = fdCoord d'.
End Same.
