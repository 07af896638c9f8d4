(** What lights mean in Unity and in glTF (C107). *)
From Coq Require Import String List ZArith Reals Bool.
From Verif.Model Require Import Num NumR Vec Matrix Mqo MqoDoc Unity Unity2Mqo Lights.
From Verif.Spec Require Import GeomSpec UnitySpec SceneSpec.
Import ListNotations.
Local Open Scope R_scope.

(** A cone has half angles, in radians: up to the inner one the light is full, from the outer one it is dark. *)
Inductive emitter := Directional | Point | Cone (inner outer : R).
Record light := mkLight { lEmitter : emitter; lColor : list R; lIntensity : R; lRange : option R }.

(** Unity: 0 is a spot light, with full angles in degrees, 1 a directional light, 2 a point light; others are areas. *)
Definition half_angle (degrees : R) : R := degrees / 2 * (PI / 180).
Definition unity_light (u : ulight) : option light :=
  let with_emitter e := mkLight e [qx (liColor u); qy (liColor u); qz (liColor u)] (liIntensity u) (Some (liRange u)) in
  if liEnabled u
  then match liType u with
       | 0%Z => Some (with_emitter (Cone (half_angle (liInner u)) (half_angle (liSpot u))))
       | 1%Z => Some (with_emitter Directional)
       | 2%Z => Some (with_emitter Point)
       | _ => None
       end
  else None.

(** glTF: KHR_lights_punctual; missing properties have defaults, unknown ones are ignored. *)
Fixpoint field (k : string) (j : jobj) : option jv :=
  match j with [] => None | (k', v) :: r => if String.eqb k' k then Some v else field k r end.
Definition num_field (k : string) (d : R) (j : jobj) : R := match field k j with Some (JNum x) => x | _ => d end.
Definition gltf_emitter (j : jobj) : option emitter :=
  match field "type" j with
  | Some (JStr t) =>
      if String.eqb t "directional" then Some Directional
      else if String.eqb t "point" then Some Point
      else if String.eqb t "spot"
           then let s := match field "spot" j with Some (JObj s) => s | _ => [] end in
                Some (Cone (num_field "innerConeAngle" 0 s) (num_field "outerConeAngle" (PI / 4) s))
           else None
  | _ => None
  end.
Definition gltf_light (j : jobj) : option light :=
  match gltf_emitter j with
  | Some e => Some (mkLight e (match field "color" j with Some (JNums c) => c | _ => [1; 1; 1] end) (num_field "intensity" 1 j)
                            (match field "range" j with Some (JNum x) => Some x | _ => None end))
  | None => None
  end.

(** Where a light is, and where it shines: along z in Unity, against z in glTF.  [m] is the matrix of its node. *)
Definition ahead : vec3 R := mkV3 0 0 1.
Definition behind : vec3 R := mkV3 0 0 (-1).
Definition centre : vec3 R := mkV3 0 0 0.
Definition shines (gscale scale : R) (path : list (transform R)) (m : mat4 R) : Prop :=
  mat_apply m centre = v3scale (v3scale (mirror (place path centre)) scale) gscale /\
  v3sub (mat_apply m behind) (mat_apply m centre) = v3scale (mirror (v3sub (place path ahead) (place path centre))) scale.

(** The objects of the document made of each object of the scene, one after the other: where those of number [j] begin. *)
Definition start {A} (oss : list (list A)) (j : nat) : nat := length (concat (firstn j oss)).
