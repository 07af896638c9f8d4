(** What modifications of a prefab instance mean. *)
From Coq Require Import String Ascii List ZArith NArith Bool DecimalString DecimalN.
From Verif.Model Require Import Vec UnityScene.
Import ListNotations.
Local Open Scope string_scope.
Local Open Scope list_scope.
Local Open Scope Z_scope.

Section S.
Context {T : Type}.
Notation pmod := (@pmod T).
(** A modification of the element [k] of the prefab. *)
Definition targets (k : Z) (m : pmod) : bool := match pmTarget m with Some r => srFile r =? k | None => false end.
(** The last modification of the property [path] of [k]. *)
Definition last_mod (k : Z) (path : string) (ms : list pmod) : option pmod := find (fun m => targets k m && String.eqb (pmPath m) path) (rev ms).
(** The numbers of a transform that modifications can name. *)
Definition number (path : string) : option (utrans T -> T) :=
  if String.eqb path "m_LocalPosition.x" then Some (fun t => vx (utPos t))
  else if String.eqb path "m_LocalPosition.y" then Some (fun t => vy (utPos t))
  else if String.eqb path "m_LocalPosition.z" then Some (fun t => vz (utPos t))
  else if String.eqb path "m_LocalRotation.x" then Some (fun t => qx (utRot t))
  else if String.eqb path "m_LocalRotation.y" then Some (fun t => qy (utRot t))
  else if String.eqb path "m_LocalRotation.z" then Some (fun t => qz (utRot t))
  else if String.eqb path "m_LocalRotation.w" then Some (fun t => qw (utRot t))
  else if String.eqb path "m_LocalScale.x" then Some (fun t => vx (utScale t))
  else if String.eqb path "m_LocalScale.y" then Some (fun t => vy (utScale t))
  else if String.eqb path "m_LocalScale.z" then Some (fun t => vz (utScale t))
  else None.
(** The path of the material [n] of a renderer. *)
Definition material_path (n : nat) : string := ("m_Materials.Array.data[" ++ NilEmpty.string_of_uint (N.to_uint (N.of_nat n)) ++ "]")%string.
(** The property [name] is only modified as a whole. *)
Definition whole (name : string) (m : pmod) : Prop := forall rest, pmPath m <> (name ++ "." ++ rest)%string.
(** The modification does not concern the children or the link to another prefab. *)
Definition ordinary (m : pmod) : Prop := forall name, In name ["m_PrefabInstance"; "m_CorrespondingSourceObject"; "m_Children"] -> pmPath m <> name /\ whole name m.
(** Modifications of a list of materials: its size or one of them. *)
Definition material_mod (m : pmod) : Prop := (forall rest, pmPath m <> ("m_Materials." ++ rest)%string) \/ pmPath m = "m_Materials.Array.size" \/ exists n, Z.of_nat n <= 2147483647 /\ pmPath m = material_path n.

(** The scene [s], loaded from the documents [ds] of the file [guid], has an instance [id] of a prefab, [ps] when loaded by itself, whose first root is the object [f] of its file,
    with the transform [k0]. *)
Record instance (files : string -> option (list (Z * @udoc T))) (load : nat -> string -> @lres T) (n : nat) (guid : string) (ds : list (Z * @udoc T)) (s ps : scene T) (id f k0 : Z) (i : @pinst T) (src par : sref) : Prop := mkInst {
  in_file : files guid = Some ds;
  in_ids : NoDup (map fst ds);
  in_scene : load (S n) guid = Loaded s;
  in_doc : In (id, DPrefab (Some i)) ds;
  in_new : piOld i = false;
  in_source : piSource i = Some src;
  in_valid : srFile src <> 0;
  in_prefab : load n (srGuid src) = Loaded ps;
  in_root : exists rs, scRoots ps = ([], f) :: rs;
  in_transform : object_transform ps ([], f) = Some ([], k0);
  in_parent : piParent i = Some par;
  in_mods : Forall ordinary (piMods i) }.

(** Prefabs do not contain themselves: [rank] goes down from a file to the prefabs it has instances of. *)
Definition ranked (files : string -> option (list (Z * @udoc T))) (rank : string -> nat) : Prop :=
  forall g ds id i q, files g = Some ds -> In (id, DPrefab (Some i)) ds -> piOld i = false -> piSource i = Some q -> srFile q <> 0 -> (rank (srGuid q) < rank g)%nat.
(** A modification that does not name elements of a list, except for materials. *)
Definition safe_mod (m : pmod) : Prop := (forall a b, pmPath m <> (a ++ ".Array.data[" ++ b)%string) \/ exists n, Z.of_nat n <= 2147483647 /\ pmPath m = material_path n.
(** Documents that can be decoded, and instances with a parent. *)
Definition safe_doc (d : @udoc T) : Prop := match d with DGo None => False | DPrefab (Some i) => piParent i <> None /\ Forall safe_mod (piMods i) | _ => True end.
End S.
