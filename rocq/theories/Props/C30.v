(** C30: FBX polygon index encoding is reversible. *)
From Coq Require Import List ZArith Bool Lia.
From Verif Require Import Model.Codec Model.Fbx Model.FbxDoc Spec.FbxDocSpec Proofs.FbxDocProofs.
Import ListNotations.
Open Scope Z_scope.

(** Reading a new geometry gives its polygons and vertices. *)
Theorem C30_polygons : forall verts fs, Forall (fun f => f <> [] /\ Forall vertex_index f) fs ->
  init_polygons (new_geometry verts fs) = fs.
Proof. exact new_init. Qed.
Print Assumptions C30_polygons.
Theorem C30_vertices : forall verts fs, init_vertices (new_geometry verts fs) = verts.
Proof. exact new_vertices. Qed.
Print Assumptions C30_vertices.

(** In the other direction every index array that ends with the end of a polygon is the
    encoding of what was read from it. *)
Theorem C30_indices : forall l, Forall (fun i => - 2 ^ 31 <= i < 2 ^ 31) l -> (l <> [] -> last l 0 < 0) ->
  encode_faces (decode_faces [] l) = l.
Proof. exact (fun l H L => decode_encode l [] H (Forall_nil _) (fun _ => eq_refl) L). Qed.
Print Assumptions C30_indices.

(** The number of corners is wrong for a geometry without polygons: the empty array is
    taken for a list of single numbers. *)
Theorem C30_count_refuted : exists verts fs, Forall (fun f => f <> [] /\ Forall vertex_index f) fs /\
  init_count (new_geometry verts fs) <> length (concat fs).
Proof. exists [(0, 0, 0)], []. split; [constructor|]. vm_compute. discriminate. Qed.
Print Assumptions C30_count_refuted.
Theorem C30_count_partial : forall verts fs, fs <> [] -> Forall (fun f => f <> [] /\ Forall vertex_index f) fs ->
  init_count (new_geometry verts fs) = length (concat fs).
Proof. exact new_count. Qed.
Print Assumptions C30_count_partial.

Example C30_example :
  encode_faces [[0; 1; 2]; [3]; [2; 1; 2147483647]] = [0; 1; -3; -4; 2; 1; -2147483648] /\
  init_polygons (new_geometry [(1, 2, 3); (4, 5, 6)] [[0; 1; 2]; [3]; [2; 1; 2147483647]]) =
    [[0; 1; 2]; [3]; [2; 1; 2147483647]].
Proof. vm_compute. auto. Qed.
