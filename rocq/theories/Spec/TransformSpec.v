(** What transforming a document, and turning its bones, should mean. *)
From Coq Require Import String List ZArith Reals Bool.
From Verif.Model Require Import Num NumR Vec Matrix Euler Mqo MqoDoc MqoTransform.
From Verif.Spec Require Import GeomSpec.
Import ListNotations.
Local Open Scope R_scope.

(** The scaled place of a point, and the half turn about the vertical axis. *)
Definition scaled (k p : vec3 R) : vec3 R := mkV3 (vx k * vx p) (vy k * vy p) (vz k * vz p).
Definition half_turn (p : vec3 R) : vec3 R := mkV3 (- vx p) (vy p) (- vz p).

(** An object keeps everything but its vertices, normals, internal and local transform. *)
Definition same_object (o o' : object R) : Prop :=
  oUID o' = oUID o /\ oName o' = oName o /\ oVisible o' = oVisible o /\ oLocked o' = oLocked o /\ oDepth o' = oDepth o /\ oFolding o' = oFolding o /\
  oShading o' = oShading o /\ oFacet o' = oFacet o /\ oPatch o' = oPatch o /\ oPatchSegment o' = oPatchSegment o /\ oMirror o' = oMirror o /\
  oMirrorDis o' = oMirrorDis o /\ oColor o' = oColor o /\ oVertexByUID o' = oVertexByUID o /\
  map (fun f => (fUID f, fVerts f, fMaterial f, fUVs f)) (oFaces o') = map (fun f => (fUID f, fVerts f, fMaterial f, fUVs f)) (oFaces o).
Definition has_local (o : object R) : Prop := oTranslation o <> None /\ oRotation o <> None /\ oScale o <> None.
(** The local transform of an object, as a map of points. *)
Definition local_matrix (o : object R) : option (mat4 R) :=
  match oTranslation o, oRotation o, oScale o with Some t, Some r, Some s => Some (get_local_transform t r s) | _, _, _ => None end.

(** Points, bones and shapes move with [f]; bones keep their names, parents and weights. *)
Definition moved_bone (f : vec3 R -> vec3 R) (b b' : bone R) : Prop :=
  bID b' = bID b /\ bName b' = bName b /\ bParent b' = bParent b /\ bWeights b' = bWeights b /\ bPos b' = f (bPos b).
(** The direction of an axis of a shape. *)
Definition shape_axis (s : pshape) (v : vec3 R) : vec3 R := qapply (euler_to_quat (mkE (psRot s) XYZ)) v.

(** ** Turning a bone (C83) *)

(** The place of a point turned about [pos], and the place between two points. *)
Definition turned (pos : vec3 R) (rot : vec4 R) (p : vec3 R) : vec3 R := v3add pos (qapply rot (v3sub p pos)).
Definition between (w : R) (a b : vec3 R) : vec3 R := v3add (v3scale a w) (v3scale b (1 - w)).
Definition sumR (l : list R) : R := fold_right Rplus 0 l.
(** The weights of an object id belong to the object with that id and to the targets of its morphs. *)
Definition is_meant (os : list (object R)) (ms : list target_list) (id : Z) (o : object R) : Prop :=
  oUID o = id \/ exists m b, In m ms /\ In b os /\ oName b = tlBase m /\ oUID b = id /\ In (oName o) (tlTargets m).
Definition meant (os : list (object R)) (ms : list target_list) (id : Z) (o : object R) : bool :=
  (oUID o =? id)%Z || existsb (fun m => existsb (fun b => String.eqb (oName b) (tlBase m) && (oUID b =? id)%Z) os && existsb (String.eqb (oName o)) (tlTargets m)) ms.
(** The part of a vertex that hangs on a bone. *)
Definition bone_share (os : list (object R)) (ms : list target_list) (b : bone R) (o : object R) (vi : nat) : R :=
  sumR (map (fun bw => if meant os ms (fst bw) o then sumR (map (fun vw => if (get_vertex_index_by_id o (fst vw) =? Z.of_nat vi)%Z then snd vw / 100 else 0) (snd bw)) else 0) (bWeights b)).
(** Names and ids say which object is meant; a target has one base. *)
Definition well_named (os : list (object R)) (ms : list target_list) : Prop :=
  NoDup (map (@oUID R) os) /\ NoDup (map (@oName R) os) /\ NoDup (flat_map tlTargets ms) /\
  forall m t, In m ms -> In t (tlTargets m) -> In t (map (@oName R) os) /\ t <> tlBase m.

(** ** Levelling an arm (C84): the arm keeps its length, depth and side, and is level. *)
Definition levelled (v : vec3 R) : vec3 R :=
  let r := sqrt (vx v * vx v + vy v * vy v) in mkV3 (if Rlt_dec 0 (vx v) then r else - r) 0 (vz v).
(** The farthest child of a bone. *)
Definition farthest_child (bones : list (bone R)) (b0 : bone R) (i : nat) (c : bone R) : Prop :=
  nth_error bones i = Some c /\ bParent c = bID b0 /\ 0 < v3lensqr (v3sub (bPos c) (bPos b0)) /\
  forall x, In x bones -> bParent x = bID b0 -> v3lensqr (v3sub (bPos x) (bPos b0)) <= v3lensqr (v3sub (bPos c) (bPos b0)).
