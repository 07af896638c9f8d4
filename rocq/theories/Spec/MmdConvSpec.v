(** What the PMX to MQO conversion should produce, face by face and vertex by vertex. *)
From Coq Require Import String List ZArith Bool.
From Verif.Model Require Import Num Vec Matrix Mqo MqoDoc Mmd2Mqo.
Import ListNotations.
Local Open Scope Z_scope.

Section Spec.
Context {T : Type} {N : Num T}.

(** PMX and MQO differ by the sign of z. *)
Definition flip_z (v : vec3 T) : vec3 T := mkV3 (vx v) (vy v) (nmul (vz v) (nopp none)).

(** The material of face [fi]: each material owns as many faces as its count says, in order. *)
Fixpoint owner (mats : list (pmat)) (idx : Z) (fi : nat) : option Z :=
  match mats with
  | [] => None
  | m :: r => let n := Z.to_nat (pmCount m / 3) in
              if (fi <? n)%nat then Some idx else owner r (idx + 1) (fi - n)
  end.
Fixpoint total (mats : list pmat) : nat :=
  match mats with [] => O | m :: r => (Z.to_nat (pmCount m / 3) + total r)%nat end.
(** The materials cover the faces exactly. *)
Definition covers (p : pmodel T) : Prop :=
  Forall (fun m => 0 <= pmCount m) (pMats p) /\ total (pMats p) = length (pFaces p).

(** A face with everything it refers to: its material, and position, texture coordinate and
    normal of every corner. *)
Definition full_face : Type :=
  option Z * list (option (vec3 T)) * list (option (vec2 T)) * list (option (vec3 T)).
Definition resolve (o : object T) (f : face T) : full_face :=
  (Some (fMaterial f), map (zidx (oVerts o)) (fVerts f), map Some (fUVs f), fNormals f).
Definition source (p : pmodel T) (fi : nat) : full_face :=
  let corner {A} (g : pvert T -> A) := map (fun v => option_map g (zidx (pVerts p) v)) (nth fi (pFaces p) []) in
  (owner (pMats p) 0 fi, corner (fun v => flip_z (pvPos v)), corner (fun v => pvUV v), corner (fun v => flip_z (pvNormal v))).

(** Morph targets are the objects of depth 1. *)
Definition mesh (o : object T) : bool := oDepth o =? 0.
Definition all_faces (os : list (object T)) : list full_face := flat_map (fun o => map (resolve o) (oFaces o)) os.

(** A model that can be converted: every index is valid, every weight used names a bone, and
    the materials cover the faces. *)
Record proper (p : pmodel T) : Prop := mkProper {
  pr_faces : Forall (Forall (fun v => 0 <= v < Z.of_nat (length (pVerts p)))) (pFaces p);
  pr_morphs : Forall (fun m => Forall (fun v => 0 <= v < Z.of_nat (length (pVerts p)))
                                 (map fst (phVerts m) ++ map fst (phUVs m))) (pMorphs p);
  pr_bones : Forall (fun v => length (pvBones v) = length (pvWeights v) /\
                              Forall (fun b => 0 <= b < Z.of_nat (pNBones p)) (pvBones v)) (pVerts p);
  pr_covers : covers p }.

(** Object [o] shows PMX faces [fsrc] with PMX vertices [src]: corner [k] of a face is vertex
    [nth k src]. *)
Definition shows (p : pmodel T) (o : object T) (src : list Z) (fsrc : list nat) : Prop :=
  NoDup src /\
  map Some (oVerts o) = map (fun v => option_map (fun x => flip_z (pvPos x)) (zidx (pVerts p) v)) src /\
  Forall2 (fun f fi => map (zidx src) (fVerts f) = map Some (nth fi (pFaces p) []) /\
                       Some (fMaterial f) = owner (pMats p) 0 fi) (oFaces o) fsrc.

(** All offsets a morph has for a vertex, applied in their order. *)
Definition moved (m : pmorph T) (v : Z) (pos : vec3 T) : vec3 T :=
  fold_left (fun a e => if fst e =? v then v3add a (flip_z (snd e)) else a) (phVerts m) pos.
Definition moved_uv (m : pmorph T) (v : Z) (uv : vec2 T) : vec2 T :=
  fold_left (fun a e => if fst e =? v then v2add a (snd e) else a) (phUVs m) uv.

(** [t] is the target of morph [m] for base object [o]. *)
Definition morphed (p : pmodel T) (m : pmorph T) (o t : object T) (src : list Z) : Prop :=
  oName t = phName m /\ oDepth t = 1 /\ oVisible t = false /\
  oVerts t = map (fun e => moved m (fst e) (snd e)) (combine src (oVerts o)) /\
  Forall2 (fun f g => fVerts g = fVerts f /\ fMaterial g = fMaterial f /\
                      map Some (fUVs g) =
                        map (fun e => option_map (fun v => moved_uv m v (snd e)) (zidx src (fst e)))
                            (combine (fVerts f) (fUVs f))) (oFaces o) (oFaces t).

(** The weights stored in a bone for a vertex of an object. *)
Definition stored (ws : list (Z * list (Z * T))) (obj vid : Z) : list T :=
  map snd (filter (fun e => fst e =? vid) (flat_map (fun e => if fst e =? obj then snd e else []) ws)).
(** The weights a PMX vertex has for a bone. *)
Definition weights_for (v : pvert T) (b : Z) : list T :=
  map snd (filter (fun e => (fst e =? b) && nltb nzero (snd e)) (combine (pvBones v) (pvWeights v))).
(** Their sum in percent, if there is any: what MQO stores. *)
Definition percent (hundred : T) (l : list T) : list T :=
  match l with [] => [] | w :: r => [fold_left (fun a x => nadd a (nmul hundred x)) r (nmul hundred w)] end.
End Spec.
