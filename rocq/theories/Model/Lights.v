(** Lights: from Unity scenes (converter/unity2mqo.go) to glTF documents (converter/mqo2gltf.go). *)
From Coq Require Import String List ZArith Reals Bool.
From Verif.Model Require Import Num NumR Vec Matrix Mqo MqoDoc Unity2Mqo Mqo2GltfShared.
Import ListNotations.
Local Open Scope R_scope.

(** Values of JSON objects, as far as they occur here. *)
Inductive jv := JStr (s : string) | JNum (x : R) | JNums (l : list R) | JObj (l : list (string * jv)).
Definition jobj : Type := list (string * jv).

(** converter/unity2mqo.go 187-193 *)
Definition light_type (t : Z) : string := if (t =? 1)%Z then "directional" else if (t =? 2)%Z then "point" else "spot".
(** converter/unity2mqo.go 194-202: [obj.Extra["light"]]. *)
Definition light_params (u : ulight) : jobj :=
  [("type", JStr (light_type (liType u))); ("color", JNums [qx (liColor u); qy (liColor u); qz (liColor u)]);
   ("intensity", JNum (liIntensity u)); ("range", JNum (liRange u)); ("outerConeAngle", JNum (liSpot u)); ("innerConeAngle", JNum (liInner u))]%string.

(** The objects of the document of a scene, for the exporter.  Their keys are left out (C106). *)
Definition scene_objects (st : ust) : list (sobj R) :=
  map (fun p => mkSO (fst p) None (match snd p with Some _ => true | None => false end)) (combine (uObjs st) (uLights st)).

(** converter/mqo2gltf.go 818, 853-860, 902-908: which light a node has, and the lights of the document; [n] is the number of lights so far. *)
Fixpoint node_lights (on : bool) (os : list (object R)) (es : list (option jobj)) (n : nat) : list (option nat) * list jobj :=
  match os, es with
  | o :: os, e :: es =>
      match (if oVisible o && on then e else None) with
      | Some p => let '(is, ps) := node_lights on os es (S n) in (Some n :: is, p :: ps)
      | None => let '(is, ps) := node_lights on os es n in (None :: is, ps)
      end
  | _, _ => ([], [])
  end.
Definition scene_lights (on : bool) (st : ust) : list (option nat) * list jobj :=
  node_lights on (uObjs st) (map (option_map light_params) (uLights st)) 0.

(** Which objects become nodes (converter/mqo2gltf.go 765), in documents without morph targets. *)
Definition becomes_node (ignore : bool) (o : object R) : bool :=
  negb ignore || oVisible o && match oFaces o with [] => false | _ => true end.
