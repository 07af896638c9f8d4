(** [ExtensionsUsed] of an exported document: [converter/mqo2gltf.go] 461-467, 901-922.  The materials are those of Mqo2GltfTextures.v. *)
From Coq Require Import String List Bool QArith.
From Verif.Model Require Import Gltf Mqo2GltfTextures.
Import ListNotations.
Local Open Scope string_scope.
Local Open Scope list_scope.

(** The keys of [mm.Extensions] (mqo2gltf.go 461-467, 485-488, 573-575). *)
Definition material_exts (t : tmat) : list string := map fst (tmExts t) ++ (if gtUnlit (tmMat t) then ["KHR_materials_unlit"] else []).
(** The keys of the map [m.extensions]: lights that were found (901-902), materials, and the option ConvertPhysics (917-919; the name in mqo2gltf.go 98). *)
Definition ext_keys (lights physics : bool) (ts : list tmat) : list string :=
  nodup string_dec ((if lights then ["KHR_lights_punctual"] else []) ++ flat_map material_exts ts ++ (if physics then ["BLENDER_physics"] else [])).
Section Used.
(** The order in which Go goes through a map (920-922). *)
Variable order : list string -> list string.
Definition extensions_used (lights physics : bool) (ts : list tmat) : list string := order (ext_keys lights physics ts).
End Used.
