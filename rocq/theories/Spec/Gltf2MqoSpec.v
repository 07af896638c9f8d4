(** What importing a glTF document should give. *)
From Coq Require Import String List ZArith Bool Permutation.
From Verif.Model Require Import Num Vec Matrix Mqo MqoDoc Gltf.
From Verif Require Import Spec.GltfSpec.
Import ListNotations.
Local Open Scope Z_scope.

Section Spec.
Context {T : Type} {N : Num T}.

(** Triangle [k] of a list of indices. *)
Definition triangle_at (is_ : list Z) (k : nat) (a b c : Z) : Prop :=
  nth_error is_ (3 * k) = Some a /\ nth_error is_ (3 * k + 1) = Some b /\ nth_error is_ (3 * k + 2) = Some c.
(** The primitive puts index [i] at [q]. *)
Definition prim_pos (p : prim T) (i : Z) (q : vec3 T) : Prop := exists pos, gpPos p = Some pos /\ zidx pos i = Some q.
Definition prim_uvs (p : prim T) : list (vec2 T) := match gpUV p with Some l => l | None => [] end.

(** [gs] are the faces of a primitive: the corners in the opposite order, texture coordinates if
    the primitive has some. *)
Definition imports_prim (p : prim T) (gs : list (face T)) : Prop :=
  match gpIndices p with
  | None => gs = []
  | Some is_ =>
      length gs = (length is_ / 3)%nat /\
      forall k a b c, triangle_at is_ k a b c -> exists f, nth_error gs k = Some f /\ fVerts f = [a; c; b] /\
        fMaterial f = (match gpMaterial p with Some m => m | None => 0 end) /\
        (Z.of_nat (length (prim_uvs p)) <= a /\ fUVs f = [] \/
         exists ua ub uc, zidx (prim_uvs p) a = Some ua /\ zidx (prim_uvs p) b = Some ub /\ zidx (prim_uvs p) c = Some uc /\ fUVs f = [ua; uc; ub])
  end.
Definition positions (ps : list (prim T)) : list (vec3 T) :=
  concat (map (fun p => match gpIndices p, gpPos p with Some _, Some l => l | _, _ => [] end) ps).

(** *** MQO to glTF and back *)

(** [f'] is the triangle [f] again, starting at another corner, at [scale]. *)
Definition same_triangle (scale eps : T) (mmap : Z -> option Z) (o o' : object T) (f f' : face T) : Prop :=
  mmap (fMaterial f) = Some (fMaterial f') /\
  exists x y z x' y' z' px py pz, fVerts f = [x; y; z] /\ fVerts f' = [z'; x'; y'] /\
    zidx (oVerts o) x = Some px /\ zidx (oVerts o') x' = Some (at_scale scale px) /\
    zidx (oVerts o) y = Some py /\ zidx (oVerts o') y' = Some (at_scale scale py) /\
    zidx (oVerts o) z = Some pz /\ zidx (oVerts o') z' = Some (at_scale scale pz) /\
    (fUVs f <> [] -> exists ux uy uz tx ty tz, fUVs f = [ux; uy; uz] /\ fUVs f' = [tz; tx; ty] /\
       uv_close eps ux tx /\ uv_close eps uy ty /\ uv_close eps uz tz).
Definition is_mapped (mmap : Z -> option Z) (f : face T) : bool := match mmap (fMaterial f) with Some _ => true | None => false end.
(** [o'] has the triangles of [o] whose material was exported, in some order. *)
Definition comes_back (scale eps : T) (mmap : Z -> option Z) (o o' : object T) : Prop :=
  oName o' = oName o /\
  exists tris kept, triangles_of o tris /\ Permutation kept (filter (is_mapped mmap) tris) /\
    Forall2 (same_triangle scale eps mmap o o') kept (oFaces o').

(** *** Bones *)

(** The nodes at and below [i], depth first. *)
Inductive subtree (nodes : list (gnode T)) : nat -> list nat -> Prop :=
| st_node i n ls : nth_error nodes i = Some n -> Forall2 (subtree nodes) (gnChildren n) ls -> subtree nodes i (i :: concat ls).

(** [bs] are bones for the nodes [l] of a skeleton, numbered after [off]: the first one hangs on
    [parent] at [base] (nothing, at the origin, if there is no parent), the others on an earlier one whose node lists theirs as child. *)
Definition skeleton_bones (nodes : list (gnode T)) (off : Z) (l : list nat) (parent : Z) (base : option (vec3 T)) (bs : list (bone T)) : Prop :=
  length bs = length l /\
  forall k b, nth_error bs k = Some b ->
    bID b = off + Z.of_nat k + 1 /\ bWeights b = [] /\
    exists i n, nth_error l k = Some i /\ nth_error nodes i = Some n /\ bName b = gnName n /\
      (k = O /\ bParent b = parent /\ bPos b = match base with Some q => v3add (gnTrans n) q | None => gnTrans n end \/
       exists j pi pn pb, (j < k)%nat /\ nth_error l j = Some pi /\ nth_error nodes pi = Some pn /\ In i (gnChildren pn) /\
         nth_error bs j = Some pb /\ bParent b = bID pb /\ bPos b = v3add (gnTrans n) (bPos pb)).

(** [bs] are the bones of the skeletons with the given roots, one skeleton after the other. *)
Inductive skeletons (nodes : list (gnode T)) : list nat -> list (bone T) -> Prop :=
| sk_nil : skeletons nodes [] []
| sk_snoc roots bs r l new : skeletons nodes roots bs -> subtree nodes r l -> skeleton_bones nodes (Z.of_nat (length bs)) l 0 None new ->
    skeletons nodes (roots ++ [r]) (bs ++ new).
End Spec.
