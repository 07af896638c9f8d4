(** What the MQO to PMX conversion should produce, corner by corner. *)
From Coq Require Import String List ZArith Bool.
From Verif.Model Require Import Num Vec Matrix Mqo MqoDoc Mmd2Mqo Mqo2Mmd.
From Verif Require Import Spec.PmxSpec.
Import ListNotations.
Local Open Scope Z_scope.

Section Spec.
Context {T : Type} {N : Num T}.
Variables (scale centi : T).

(** A point in PMX: scaled, and mirrored in z. *)
Definition scaled (v : vec3 T) : vec3 T :=
  mkV3 (nmul (vx v) scale) (nmul (vy v) scale) (nmul (nmul (vz v) scale) (nopp none)).

(** Exported objects are visible and no morph targets. *)
Definition exported (sets : list target_list) (o : object T) : bool :=
  oVisible o && negb (existsb (fun s => existsb (fun t => String.eqb t (oName o)) (tlTargets s)) sets).

(** A corner of a face: its object, vertex and texture coordinate. *)
Definition corner : Type := object T * Z * vec2 T.
Definition corners (o : object T) (f : face T) : list corner :=
  map (fun i => (o, nth i (fVerts f) 0, nth i (fUVs f) (mkV2 nzero nzero))) (seq 0 (length (fVerts f))).
(** The triangles of a polygon, as a fan around its first corner. *)
Definition triangles {A} (l : list A) : list (list A) :=
  flat_map (fun n => match nth_error l 0, nth_error l (n + 1), nth_error l (n + 2) with
                     | Some a, Some b, Some c => [[a; b; c]]
                     | _, _, _ => []
                     end) (seq 0 (length l)).
(** The triangles of material [mi], in the order of objects and faces. *)
Definition material_triangles (sets : list target_list) (os : list (object T)) (mi : Z) : list (list corner) :=
  flat_map (fun o => flat_map (fun f => if fMaterial f =? mi then triangles (corners o f) else []) (oFaces o))
           (filter (exported sets) os).

(** Go's equality of texture coordinates, or identity. *)
Definition same_uv (a b : vec2 T) : Prop := a = b \/ neqb (v2x a) (v2x b) = true /\ neqb (v2y a) (v2y b) = true.

(** PMX vertex [id] has position and texture coordinate of the corner. *)
Definition at_corner (p : pmodel T) (id : Z) (c : corner) : Prop :=
  let '(o, v, uv) := c in
  exists x q, zidx (pVerts p) id = Some x /\ zidx (oVerts o) v = Some q /\ pvPos x = scaled q /\ same_uv (pvUV x) uv.

(** All weights of a vertex, in the order of the bones, as fractions. *)
Definition weights_of (o : object T) (bones : list (bone T)) (v : Z) : list (Z * T) :=
  flat_map (fun ib => flat_map (fun bw =>
      if fst bw =? oUID o
      then map (fun e => (Z.of_nat (fst ib), nmul (snd e) centi))
               (filter (fun e => get_vertex_index_by_id o (fst e) =? v) (snd bw))
      else []) (bWeights (snd ib))) (combine (seq 0 (length bones)) bones).
Definition has_weights (p : pmodel T) (id : Z) (ws : list (Z * T)) : Prop :=
  exists x, zidx (pVerts p) id = Some x /\ pvBones x = map fst ws /\ pvWeights x = map snd ws.

(** The object a morph target names, and the targets of a base object. *)
Definition named (os : list (object T)) (name : string) (o : object T) : Prop :=
  exists a b, os = a ++ o :: b /\ oName o = name /\ Forall (fun x => oName x <> name) b.
Definition targets_of (sets : list target_list) (base : string) (l : list string) : Prop :=
  exists a s b, sets = a ++ s :: b /\ tlBase s = base /\ Forall (fun x => tlBase x <> base) b /\ l = tlTargets s.
(** Morph [name] moves PMX vertex [id] by [d]. *)
Definition has_offset (p : pmodel T) (name : string) (id : Z) (d : vec3 T) : Prop :=
  exists m, In m (pMorphs p) /\ phName m = name /\ In (id, d) (phVerts m).

(** All vertex indices of all faces are valid. *)
Definition valid_faces (d : document T) : Prop :=
  Forall (fun o => Forall (fun f => Forall (fun v => 0 <= v < Z.of_nat (length (oVerts o))) (fVerts f)) (oFaces o)) (dObjects d).
(** Corner [c] of an exported face became PMX vertex [id]: they are at the same place of the
    faces of a material, split as the material counts say. *)
Definition exported_as (d : document T) (sets : list target_list) (p : pmodel T) (c : corner) (id : Z) : Prop :=
  exists slices k s tri ids i, pFaces p = concat slices /\ map pmCount (pMats p) = map (fun s => 3 * Z.of_nat (length s)) slices /\
    nth_error slices k = Some s /\
    exists j, nth_error s j = Some ids /\ nth_error (material_triangles sets (fix_ids 0 (dObjects d)) (Z.of_nat k)) j = Some tri /\
    nth_error ids i = Some id /\ nth_error tri i = Some c.


(** Skinning of every vertex after a save and load; [bits] and [value] are the float codec. *)
Definition reload (fsub1 : Z -> Z) (bits : T -> Z) (value : Z -> T) (p : pmodel T) : pmodel T :=
  mkPModel (map (fun x => let '(bs, ws) := skin_after_save fsub1 (pvBones x) (map bits (pvWeights x)) in
                          mkPV (pvPos x) (pvNormal x) (pvUV x) bs (map value ws)) (pVerts p))
           (pFaces p) (pMats p) (pMorphs p) (pNBones p).

(** The PMX bones of MQO bones: parents are given by position. *)
Definition parent_position (bones : list (bone T)) (b : bone T) (pos : Z) : Prop :=
  bParent b <= 0 /\ pos = -1 \/
  0 < bParent b /\ 0 <= pos /\ exists q, nth_error bones (Z.to_nat pos) = Some q /\ bID q = bParent b.
(** Parents, by position, form a forest. *)
Definition forest (parents : list Z) : Prop :=
  exists rank : Z -> nat, forall i p, nth_error parents i = Some p -> 0 <= p -> (rank p < rank (Z.of_nat i))%nat.
End Spec.
