(** [Object.Clone] (mqo/mqo.go:308-323) with an explicit heap, because the point is aliasing. *)
From Coq Require Import List ZArith Arith.
From Verif.Model Require Import Num Vec.
Import ListNotations.

Section Clone.
Context {T : Type}.

(** A heap cell: a [Vector3], a backing array (of [[]*Vector3], [[]*Face], [[]int] or
    [[]Vector2]), a [Face] struct (mqo/mqo.go:229-235) or a [map[int]int].  A slice is the
    address of its backing array (sub-slices and spare capacity are not modelled). *)
Inductive cell :=
| CVec (v : vec3 T)
| CVPtrs (l : list (option nat))
| CFPtrs (l : list (option nat))
| CInts (l : list Z)
| CUVs (l : list (vec2 T))
| CFace (uid : Z) (verts : nat) (mat : Z) (uvs : nat) (normals : nat)
| CMap (l : list (Z * Z)).
Definition heap := list cell.
Definition alloc (h : heap) (c : cell) : heap * nat := (h ++ [c], length h).
Definition store (h : heap) (a : nat) (c : cell) : heap := firstn a h ++ c :: skipn (S a) h.

(** The [Object] struct (mqo/mqo.go:249-276): the two slices that [Clone] replaces, the
    pointers and the map that it copies, and the plain fields. *)
Record hobj := mkHObj {
  hVerts : nat; hFaces : nat;
  hScale : option nat; hRotation : option nat; hTranslation : option nat; hColor : option nat;
  hVertexByUID : nat; hPlain : list Z }.

(** mqo/mqo.go:310-314: copies of the vertices; [None] is a nil dereference *)
Fixpoint copy_vecs (h : heap) (ps : list (option nat)) : option (heap * list (option nat)) :=
  match ps with
  | [] => Some (h, [])
  | Some p :: r =>
      match nth_error h p with
      | Some (CVec v) =>
          let (h1, a) := alloc h (CVec v) in
          match copy_vecs h1 r with
          | Some (h2, l) => Some (h2, Some a :: l)
          | None => None
          end
      | _ => None
      end
  | None :: _ => None
  end.

(** mqo/mqo.go:316-321: copies of the faces; [UID] and [Normals] are not set *)
Fixpoint copy_faces (h : heap) (ps : list (option nat)) : option (heap * list (option nat)) :=
  match ps with
  | [] => Some (h, [])
  | Some p :: r =>
      match nth_error h p with
      | Some (CFace _ vs m us _) =>
          match nth_error h vs, nth_error h us with
          | Some (CInts vl), Some (CUVs ul) =>
              let (h1, a1) := alloc h (CInts vl) in
              let (h2, a2) := alloc h1 (CUVs ul) in
              let (h3, a3) := alloc h2 (CVPtrs []) in
              let (h4, a4) := alloc h3 (CFace 0 a1 m a2 a3) in
              match copy_faces h4 r with
              | Some (h5, l) => Some (h5, Some a4 :: l)
              | None => None
              end
          | _, _ => None
          end
      | _ => None
      end
  | None :: _ => None
  end.

(** mqo/mqo.go:308-323 *)
Definition clone (h : heap) (o : hobj) : option (heap * hobj) :=
  match nth_error h (hVerts o), nth_error h (hFaces o) with
  | Some (CVPtrs vs), Some (CFPtrs fs) =>
      match copy_vecs h vs with
      | None => None
      | Some (h1, vs') =>
          let (h2, av) := alloc h1 (CVPtrs vs') in
          match copy_faces h2 fs with
          | None => None
          | Some (h3, fs') =>
              let (h4, af) := alloc h3 (CFPtrs fs') in
              Some (h4, mkHObj av af (hScale o) (hRotation o) (hTranslation o) (hColor o)
                               (hVertexByUID o) (hPlain o))
          end
      end
  | _, _ => None
  end.

(** Edits of an object through its pointer, as the rest of the code does them. *)
Inductive edit :=
| EMoveVertex (i : nat) (v : vec3 T)      (* *o.Vertexes[i] = v, e.g. BoneTransform *)
| ENewVertex (i : nat) (v : vec3 T)       (* o.Vertexes[i] = &v, e.g. ApplyTransform *)
| ESetCorner (f k : nat) (x : Z)          (* o.Faces[f].Verts[k] = x, e.g. Flip *)
| ESetUV (f k : nat) (u : vec2 T)         (* o.Faces[f].UVs[k] = u *)
| ESetMaterial (f : nat) (m : Z)          (* o.Faces[f].Material = m *)
| ESetNormal (f k : nat) (n : vec3 T).    (* o.Faces[f].Normals[k] = &n *)

Definition set_nth {A} (l : list A) (i : nat) (x : A) : option (list A) :=
  if i <? length l then Some (firstn i l ++ x :: skipn (S i) l) else None.

Definition vptrs_at (h : heap) (a : nat) : option (list (option nat)) :=
  match nth_error h a with Some (CVPtrs l) => Some l | _ => None end.
Definition fptrs_at (h : heap) (a : nat) : option (list (option nat)) :=
  match nth_error h a with Some (CFPtrs l) => Some l | _ => None end.
Definition nth_ptr (l : option (list (option nat))) (i : nat) : option nat :=
  match l with
  | Some l => match nth_error l i with Some (Some p) => Some p | _ => None end
  | None => None
  end.

Definition apply_edit (h : heap) (o : hobj) (e : edit) : option heap :=
  match e with
  | EMoveVertex i v =>
      match nth_ptr (vptrs_at h (hVerts o)) i with
      | Some p => match nth_error h p with Some (CVec _) => Some (store h p (CVec v)) | _ => None end
      | None => None
      end
  | ENewVertex i v =>
      match vptrs_at h (hVerts o) with
      | Some l =>
          let (h1, a) := alloc h (CVec v) in
          match set_nth l i (Some a) with
          | Some l' => Some (store h1 (hVerts o) (CVPtrs l'))
          | None => None
          end
      | None => None
      end
  | ESetCorner f k x =>
      match nth_ptr (fptrs_at h (hFaces o)) f with
      | Some p =>
          match nth_error h p with
          | Some (CFace _ vs _ _ _) =>
              match nth_error h vs with
              | Some (CInts l) => match set_nth l k x with Some l' => Some (store h vs (CInts l')) | None => None end
              | _ => None
              end
          | _ => None
          end
      | None => None
      end
  | ESetUV f k u =>
      match nth_ptr (fptrs_at h (hFaces o)) f with
      | Some p =>
          match nth_error h p with
          | Some (CFace _ _ _ us _) =>
              match nth_error h us with
              | Some (CUVs l) => match set_nth l k u with Some l' => Some (store h us (CUVs l')) | None => None end
              | _ => None
              end
          | _ => None
          end
      | None => None
      end
  | ESetMaterial f m =>
      match nth_ptr (fptrs_at h (hFaces o)) f with
      | Some p =>
          match nth_error h p with
          | Some (CFace u vs _ us ns) => Some (store h p (CFace u vs m us ns))
          | _ => None
          end
      | None => None
      end
  | ESetNormal f k n =>
      match nth_ptr (fptrs_at h (hFaces o)) f with
      | Some p =>
          match nth_error h p with
          | Some (CFace _ _ _ _ ns) =>
              match vptrs_at h ns with
              | Some l =>
                  let (h1, a) := alloc h (CVec n) in
                  match set_nth l k (Some a) with Some l' => Some (store h1 ns (CVPtrs l')) | None => None end
              | None => None
              end
          | _ => None
          end
      | None => None
      end
  end.
Fixpoint apply_edits (h : heap) (o : hobj) (es : list edit) : option heap :=
  match es with
  | [] => Some h
  | e :: r => match apply_edit h o e with Some h' => apply_edits h' o r | None => None end
  end.

(** What one sees when reading an object: vertices, and per face uid, corners, material, UVs
    and normals.  [None]: the object is not well formed. *)
Record face_view := mkFV { fvUID : Z; fvVerts : list Z; fvMat : Z; fvUVs : list (vec2 T);
                           fvNormals : list (option (vec3 T)) }.
Fixpoint read_all {A B} (g : A -> option B) (l : list A) : option (list B) :=
  match l with
  | [] => Some []
  | x :: r => match g x, read_all g r with Some y, Some ys => Some (y :: ys) | _, _ => None end
  end.
Definition read_vec (h : heap) (p : nat) : option (vec3 T) :=
  match nth_error h p with Some (CVec v) => Some v | _ => None end.
Definition read_normal (h : heap) (p : option nat) : option (option (vec3 T)) :=
  match p with None => Some None | Some a => option_map Some (read_vec h a) end.
Definition read_vertex (h : heap) (p : option nat) : option (vec3 T) :=
  match p with None => None | Some a => read_vec h a end.
Definition read_face (h : heap) (p : option nat) : option face_view :=
  match p with
  | None => None
  | Some a =>
      match nth_error h a with
      | Some (CFace u vs m us ns) =>
          match nth_error h vs, nth_error h us, vptrs_at h ns with
          | Some (CInts vl), Some (CUVs ul), Some nl =>
              match read_all (read_normal h) nl with
              | Some nv => Some (mkFV u vl m ul nv)
              | None => None
              end
          | _, _, _ => None
          end
      | _ => None
      end
  end.
Definition view (h : heap) (o : hobj) : option (list (vec3 T) * list face_view) :=
  match vptrs_at h (hVerts o), fptrs_at h (hFaces o) with
  | Some vs, Some fs =>
      match read_all (read_vertex h) vs, read_all (read_face h) fs with
      | Some v, Some f => Some (v, f)
      | _, _ => None
      end
  | _, _ => None
  end.
End Clone.
Arguments cell T : clear implicits.
Arguments heap T : clear implicits.
Arguments edit T : clear implicits.
Arguments face_view T : clear implicits.
