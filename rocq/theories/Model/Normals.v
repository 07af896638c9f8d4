(** [GetSmoothNormals] and [FixhNormals] of [mqo/utils.go]. *)
From Coq Require Import String List ZArith Bool.
From Verif.Model Require Import Num Vec Matrix Mqo MqoDoc.
Import ListNotations.
Local Open Scope Z_scope.
Local Open Scope list_scope.

Section Normals.
Context {T : Type} {N : Num T}.

Definition v3zero : vec3 T := mkV3 nzero nzero nzero.

(** The normal a corner contributes (mqo/utils.go 48-56): its own one, or the normalised cross
    product of the edges at the corner; [None] is an index panic. *)
Definition corner_normal (vs : list (vec3 T)) (f : face T) (i : nat) (v : Z) : option (vec3 T) :=
  match nth_error (fNormals f) i with
  | Some (Some n) => Some n
  | _ =>
      let n := length (fVerts f) in
      match nth_error (fVerts f) ((i + n - 1) mod n), nth_error (fVerts f) ((i + 1) mod n), zidx vs v with
      | Some a, Some b, Some c =>
          match zidx vs a, zidx vs b with
          | Some pa, Some pb => Some (v3normalize (v3cross (v3sub pa c) (v3sub pb c)))
          | _, _ => None
          end
      | _, _, _ => None
      end
  end.
Definition add_at (ns : list (vec3 T)) (v : Z) (n : vec3 T) : option (list (vec3 T)) :=
  match zidx ns v with
  | Some m => Some (list_set ns (Z.to_nat v) (v3add m n))
  | None => None
  end.
(** The loop over the corners of a face (mqo/utils.go 47-57). *)
Fixpoint add_corners (vs : list (vec3 T)) (f : face T) (i : nat) (verts : list Z) (ns : list (vec3 T)) : option (list (vec3 T)) :=
  match verts with
  | [] => Some ns
  | v :: r =>
      match corner_normal vs f i v with
      | Some n => match add_at ns v n with Some ns' => add_corners vs f (S i) r ns' | None => None end
      | None => None
      end
  end.
Fixpoint add_faces (vs : list (vec3 T)) (fs : list (face T)) (ns : list (vec3 T)) : option (list (vec3 T)) :=
  match fs with
  | [] => Some ns
  | f :: r => match add_corners vs f 0 (fVerts f) ns with Some ns' => add_faces vs r ns' | None => None end
  end.
(** [GetSmoothNormals] (mqo/utils.go 43-63). *)
Definition smooth_normals (o : object T) : option (list (vec3 T)) :=
  option_map (map v3normalize) (add_faces (oVerts o) (oFaces o) (repeat v3zero (length (oVerts o)))).

(** [FixhNormals] (mqo/utils.go 65-79): the new faces.  The smooth normals are computed once,
    at the first face that lacks some, and do not depend on the faces given normals before. *)
Definition set_normals (f : face T) (ns : list (option (vec3 T))) : face T :=
  mkFace (fUID f) (fVerts f) (fMaterial f) (fUVs f) ns.
Fixpoint fix_normals (smooth : option (list (vec3 T))) (fs : list (face T)) : option (list (face T)) :=
  match fs with
  | [] => Some []
  | f :: r =>
      if Nat.eqb (length (fNormals f)) (length (fVerts f))
      then option_map (cons f) (fix_normals smooth r)
      else match smooth with
           | None => None
           | Some ns =>
               match all_some (zidx ns) (fVerts f), fix_normals smooth r with
               | Some l, Some fs' => Some (set_normals f (map Some l) :: fs')
               | _, _ => None
               end
           end
  end.
Definition fixh_normals (o : object T) : option (object T) :=
  option_map (set_faces o) (fix_normals (smooth_normals o) (oFaces o)).
End Normals.
