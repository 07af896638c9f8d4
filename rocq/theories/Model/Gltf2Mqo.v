(** [converter/gltf2mqo.go]: glTF to MQO, without textures.  Accessors are the lists stored in
    them (see Gltf.v), primitives are lists of triangles.  Crashes of the Go program give
    [None]. *)
From Coq Require Import String List ZArith Bool.
From Verif.Model Require Import Num Vec Matrix Mqo MqoDoc Mmd2Mqo Gltf.
Import ListNotations.
Local Open Scope Z_scope.
Local Open Scope list_scope.

Section Convert.
Context {T : Type} {N : Num T}.
(** The default smoothing angle, and whether a material has [PBRMetallicRoughness]; its factors
    are the ones returned by the [OrDefault] methods. *)
Variables (facet : T) (has_pbr : gmat T -> bool).

(** [AlphaCutoffOrDefault]; [half] is 0.5. *)
Definition cutoff (half : T) (a : galpha T) : T := match a with GMask c => c | _ => half end.
(** [convertMaterial] (gltf2mqo.go 28-54).  The parameter AlphaMode has the type gltf.AlphaMode,
    which none of the typed getters (mqo/mqo.go 184-213) returns, so it is left out here. *)
Definition import_material (half : T) (m : gmat T) : material T :=
  let pbr := has_pbr m in
  mkMat (gtName m) 0 (if pbr then gtColor m else mkV4 nzero nzero nzero nzero) nzero nzero nzero
    (if pbr then gtMetal m else nzero) nzero "" "" "" (Some (gtEmissive m)) (gtDouble m) 2
    (Some (mkEx2 "hlsl" "glTF"
       (("AlphaCutoff"%string, PFloat (cutoff half (gtAlpha m))) ::
        (if pbr then [("Metallic"%string, PFloat (gtMetal m)); ("Roughness"%string, PFloat (gtRough m))] else [])) [] [])).

(** The triangles of an index list; one or two indices left over are ignored
    (gltf2mqo.go 93-94). *)
Fixpoint triples (l : list Z) : list (Z * Z * Z) :=
  match l with a :: b :: c :: r => (a, b, c) :: triples r | _ => [] end.
(** One face (gltf2mqo.go 94-101); [None]: no texture coordinate for a corner other than the first. *)
Definition import_face (mat : Z) (uvs : list (vec2 T)) (t : Z * Z * Z) : option (face T) :=
  let '(a, b, c) := t in
  if a <? Z.of_nat (length uvs)
  then match zidx uvs a, zidx uvs c, zidx uvs b with
       | Some ua, Some uc, Some ub => Some (mkFace 0 [a; c; b] mat [ua; uc; ub] [])
       | _, _, _ => None
       end
  else Some (mkFace 0 [a; c; b] mat [] []).
(** [convertMesh] (gltf2mqo.go 56-105). *)
Fixpoint import_prims (ps : list (prim T)) (vs : list (vec3 T)) (fs : list (face T)) : option (list (vec3 T) * list (face T)) :=
  match ps with
  | [] => Some (vs, fs)
  | p :: r =>
      match gpIndices p with
      | None => import_prims r vs fs
      | Some is_ =>
          let vs1 := match gpPos p with Some pos => vs ++ pos | None => vs end in
          let uvs := match gpUV p with Some l => l | None => [] end in
          match all_some (import_face (match gpMaterial p with Some k => k | None => 0 end) uvs) (triples is_) with
          | None => None
          | Some l => import_prims r vs1 (fs ++ l)
          end
      end
  end.
Definition import_mesh (m : gmesh T) : option (object T) :=
  option_map (fun p => new_object facet (gmName m) (fst p) (snd p)) (import_prims (gmPrims m) [] []).

(** [convertBones] (gltf2mqo.go 107-125); [None]: a node that does not exist, or the recursion is
    not over after [fuel] levels. *)
Fixpoint import_bones (fuel : nat) (nodes : list (gnode T)) (node : nat) (parent : Z) (bones : list (bone T)) : option (list (bone T)) :=
  match fuel with
  | O => None
  | S f =>
      match nth_error nodes node with
      | None => None
      | Some n =>
          match (if 0 <? parent then option_map (fun b => v3add (gnTrans n) (bPos b)) (zidx bones (parent - 1)) else Some (gnTrans n)) with
          | None => None
          | Some pos =>
              let id := Z.of_nat (length bones) + 1 in
              fold_left (fun acc c => match acc with Some bs => import_bones f nodes c id bs | None => None end)
                        (gnChildren n) (Some (bones ++ [mkBone id (gnName n) parent pos []]))
          end
      end
  end.
(** The loop over the skins (gltf2mqo.go 140-149); [seen] is [bonemap]. *)
Fixpoint import_skins (fuel : nat) (nodes : list (gnode T)) (skins : list (gskin T)) (seen : list nat) (bones : list (bone T)) : option (list (bone T)) :=
  match skins with
  | [] => Some bones
  | s :: r =>
      match gsSkeleton s with
      | Some k => if existsb (Nat.eqb k) seen then import_skins fuel nodes r seen bones
                  else match import_bones fuel nodes k 0 bones with
                       | Some bs => import_skins fuel nodes r (k :: seen) bs
                       | None => None
                       end
      | None => import_skins fuel nodes r seen bones
      end
  end.

(** [Convert] (gltf2mqo.go 127-153). *)
Definition from_gltf (half : T) (fuel : nat) (g : gdoc T) : option (document T * list (bone T)) :=
  match all_some (fun i => match nth_error (gdMeshes g) i with Some m => import_mesh m | None => None end)
          (flat_map (fun n => match gnMesh n with Some i => [i] | None => [] end) (gdNodes g)),
        import_skins fuel (gdNodes g) (gdSkins g) [] [] with
  | Some os, Some bones => Some (mkDocument (map (import_material half) (gdMats g)) os, bones)
  | _, _ => None
  end.
End Convert.
