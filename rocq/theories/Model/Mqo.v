(** [mqo/mqo.go], [mqo/utils.go]: the MQO document and operations on single objects.
    Pointers are modelled by the values they point to (see Model/MqoHeap.v for aliasing);
    [nil] pointers that the code distinguishes are [None]. *)
From Coq Require Import String List ZArith Bool.
From Verif.Model Require Import Num Vec Matrix Triangulate.
Import ListNotations.
Local Open Scope Z_scope.

(** Slice indexing by a Go [int]; [None] is the out-of-range panic. *)
Definition zidx {A} (l : list A) (i : Z) : option A :=
  if i <? 0 then None else nth_error l (Z.to_nat i).

Section Mqo.
Context {T : Type} {N : Num T}.

(** mqo/mqo.go:229-235 *)
Record face := mkFace {
  fUID : Z; fVerts : list Z; fMaterial : Z;
  fUVs : list (vec2 T); fNormals : list (option (vec3 T)) }.

(** mqo/mqo.go:249-276, without [Extra] *)
Record object := mkObj {
  oUID : Z; oName : string; oVerts : list (vec3 T); oFaces : list face;
  oVisible : bool; oLocked : bool; oDepth : Z; oFolding : bool; oShading : Z;
  oFacet : T; oPatch : Z; oPatchSegment : Z; oMirror : Z; oMirrorDis : T;
  oScale : option (vec3 T); oRotation : option (vec3 T); oTranslation : option (vec3 T);
  oColor : option (vec3 T);
  oVertexByUID : list (Z * Z);
  oInternal : option (mat4 T) }.

Definition set_verts (o : object) (vs : list (vec3 T)) : object :=
  mkObj (oUID o) (oName o) vs (oFaces o) (oVisible o) (oLocked o) (oDepth o) (oFolding o)
        (oShading o) (oFacet o) (oPatch o) (oPatchSegment o) (oMirror o) (oMirrorDis o)
        (oScale o) (oRotation o) (oTranslation o) (oColor o) (oVertexByUID o) (oInternal o).
Definition set_faces (o : object) (fs : list face) : object :=
  mkObj (oUID o) (oName o) (oVerts o) fs (oVisible o) (oLocked o) (oDepth o) (oFolding o)
        (oShading o) (oFacet o) (oPatch o) (oPatchSegment o) (oMirror o) (oMirrorDis o)
        (oScale o) (oRotation o) (oTranslation o) (oColor o) (oVertexByUID o) (oInternal o).
Definition set_internal (o : object) (m : option (mat4 T)) : object :=
  mkObj (oUID o) (oName o) (oVerts o) (oFaces o) (oVisible o) (oLocked o) (oDepth o) (oFolding o)
        (oShading o) (oFacet o) (oPatch o) (oPatchSegment o) (oMirror o) (oMirrorDis o)
        (oScale o) (oRotation o) (oTranslation o) (oColor o) (oVertexByUID o) m.
Definition set_name (o : object) (n : string) : object :=
  mkObj (oUID o) n (oVerts o) (oFaces o) (oVisible o) (oLocked o) (oDepth o) (oFolding o)
        (oShading o) (oFacet o) (oPatch o) (oPatchSegment o) (oMirror o) (oMirrorDis o)
        (oScale o) (oRotation o) (oTranslation o) (oColor o) (oVertexByUID o) (oInternal o).
Definition set_uid (o : object) (u : Z) : object :=
  mkObj u (oName o) (oVerts o) (oFaces o) (oVisible o) (oLocked o) (oDepth o) (oFolding o)
        (oShading o) (oFacet o) (oPatch o) (oPatchSegment o) (oMirror o) (oMirrorDis o)
        (oScale o) (oRotation o) (oTranslation o) (oColor o) (oVertexByUID o) (oInternal o).
Definition set_visible (o : object) (b : bool) : object :=
  mkObj (oUID o) (oName o) (oVerts o) (oFaces o) b (oLocked o) (oDepth o) (oFolding o)
        (oShading o) (oFacet o) (oPatch o) (oPatchSegment o) (oMirror o) (oMirrorDis o)
        (oScale o) (oRotation o) (oTranslation o) (oColor o) (oVertexByUID o) (oInternal o).

(** mqo/mqo.go:238-240 (and 241-246): the swapping loop
    [for i, j := 0, len-1; i < j; i, j = i+1, j-1 { s[i], s[j] = s[j], s[i] }];
    indices stay in range, so a missing element leaves the slice unchanged. *)
Definition list_set {A} (l : list A) (i : nat) (x : A) : list A :=
  firstn i l ++ match skipn i l with [] => [] | _ :: r => x :: r end.
Fixpoint swap_loop {A} (fuel i j : nat) (l : list A) : list A :=
  match fuel with
  | O => l
  | S f =>
      if (i <? j)%nat then
        match nth_error l i, nth_error l j with
        | Some a, Some b => swap_loop f (S i) (j - 1) (list_set (list_set l i b) j a)
        | _, _ => l
        end
      else l
  end.
Definition swap_all {A} (l : list A) : list A := swap_loop (length l) 0 (length l - 1) l.

(** mqo/mqo.go:237-247 *)
Definition flip (f : face) : face :=
  mkFace (fUID f) (swap_all (fVerts f)) (fMaterial f) (swap_all (fUVs f)) (swap_all (fNormals f)).

(** mqo/utils.go:18-20 *)
Definition normal_transform (m : mat4 T) : mat4 T :=
  let rs := mkM (m0 m) (m1 m) (m2 m) (m3 m) (m4 m) (m5 m) (m6 m) (m7 m)
                (m8 m) (m9 m) (m10 m) (m11 m) nzero nzero nzero (m15 m) in
  mat_transposed (mat_inverse rs).

(** mqo/utils.go:10-28 *)
Definition apply_transform (m : mat4 T) (o : object) : object :=
  let o1 := set_verts o (map (mat_apply m) (oVerts o)) in
  let o2 := set_internal o1 (option_map (mat_mul m) (oInternal o1)) in
  let nt := normal_transform m in
  set_faces o2 (map (fun f => mkFace (fUID f) (fVerts f) (fMaterial f) (fUVs f)
                               (map (option_map (mat_apply nt)) (fNormals f))) (oFaces o2)).

(** three indexed elements; [None] is a panic *)
Definition pick3 {A} (l : list A) (t : tri) : option (list A) :=
  let '(a, b, c) := t in
  match nth_error l a, nth_error l b, nth_error l c with
  | Some x, Some y, Some z => Some [x; y; z]
  | _, _, _ => None
  end.

(** mqo/utils.go:92-103 *)
Definition sub_face (f : face) (t : tri) : option face :=
  match pick3 (fVerts f) t with
  | None => None
  | Some vs =>
      match (match fUVs f with [] => Some [] | _ => pick3 (fUVs f) t end) with
      | None => None
      | Some us =>
          match (match fNormals f with [] => Some [] | _ => pick3 (fNormals f) t end) with
          | None => None
          | Some ns => Some (mkFace 0 vs (fMaterial f) us ns)
          end
      end
  end.

Fixpoint all_some {A B} (g : A -> option B) (l : list A) : option (list B) :=
  match l with
  | [] => Some []
  | x :: r =>
      match g x, all_some g r with Some y, Some ys => Some (y :: ys) | _, _ => None end
  end.

(** mqo/utils.go:83-104, one face *)
Definition triangulate_face (vs : list (vec3 T)) (f : face) : option (list face) :=
  if Nat.eqb (length (fVerts f)) 3 then Some [f]
  else match all_some (zidx vs) (fVerts f) with
       | None => None
       | Some poly =>
           match triangulate poly with
           | None => None
           | Some ts => all_some (sub_face f) ts
           end
       end.

(** mqo/utils.go:81-107; [None] is a panic *)
Definition triangulate_object (o : object) : option object :=
  match all_some (triangulate_face (oVerts o)) (oFaces o) with
  | None => None
  | Some fss => Some (set_faces o (concat fss))
  end.
End Mqo.

Arguments face T : clear implicits.
Arguments object T : clear implicits.
