(** Where a point of a model ends up: [main] (cmd/modelconv/main.go 191-262) with the loading (utils.go 29-95) and saving (main.go 116-157) of formats, exact numbers.
    Points are those of meshes at their place in the whole model; Unity scenes are left out (C49, C87). *)
From Coq Require Import String Ascii List ZArith Reals Bool.
From Verif.Model Require Import Num NumR Vec Matrix Cli Mmd2Mqo Mqo2Mmd Mqo2Gltf.
Import ListNotations.
Local Open Scope R_scope.
Local Open Scope string_scope.

(** Into an MQO document: mmd2mqo.go 25-27 (the third coordinate with the other sign), fbx2mqo.go 68 (the axes [coord] of the document), gltf2mqo.go 70 and mqo.Load (as they are). *)
Definition load_point (coord : mat4 R) (e : string) (v : vec3 R) : vec3 R :=
  if is_mmd e then mirror v else if String.eqb e ".fbx" then mat_apply coord v else v.
(** Out of it: mqo2gltf.go 594 with 150, mqo2mmd.go 88 with 15, mqo.Save (as they are). *)
Definition save_point (e : string) (v : vec3 R) : vec3 R :=
  if is_gltf e then v3scaled (1 / 1000) v else if String.eqb e ".pmx" then to_pmx (1 / 80) v else v.
(** The scale that is applied (main.go 230, 256). *)
Definition scale_point (k : option (vec3 R)) (v : vec3 R) : vec3 R :=
  match k with Some k => mat_apply (mat_scale (vx k) (vy k) (vz k)) v | None => v end.
(** main.go 191-262; [None]: nothing is written.  MMD models that become .vrm are turned (192); glTF to glTF (224-237) and FBX to FBX (240-250) are cases of their own. *)
Definition whole_point (coord : mat4 R) (rot180 : bool) (scale sx sy sz : R) (i o : string) (v : vec3 R) : option (vec3 R) :=
  let k := scale_vec 80 (rot180 || is_mmd i && String.eqb o ".vrm") i scale sx sy sz in
  if negb (can_save i o) || is_unity i then None
  else if is_gltf i && is_gltf o then Some (scale_point k v)
  else if String.eqb i ".fbx" && String.eqb o ".fbx" then Some v
  else Some (save_point o (scale_point k (load_point coord i v))).
