(** What a material of an FBX document is to look like. *)
From Coq Require Import String List ZArith.
From Verif.Model Require Import Num Vec Mqo MqoDoc Fbx2Mqo.
Import ListNotations.
Local Open Scope string_scope.
Local Open Scope list_scope.

Section S.
Context {T : Type} {N : Num T}.
(** A number, if the property has one; otherwise the default. *)
Definition number_is (l : list (option T)) (def x : T) : Prop := match l with Some y :: _ => x = y | _ => x = def end.
(** A colour with three parts, or none. *)
Definition color_is (l : list (option T)) (def : T) (c : vec3 T) : Prop :=
  (forall r g b rest, l = Some r :: Some g :: Some b :: rest -> c = mkV3 r g b) /\ (l = [] -> c = mkV3 def def def).
(** A grey of brightness [c] under a factor. *)
Definition grey_is (col fac : list (option T)) (x : T) : Prop :=
  forall c rest k rest', col = Some c :: Some c :: Some c :: rest -> fac = Some k :: rest' -> x = nmul c k.
(** The result [x] for material [m], which is object [o]: name, colours, and the file of its texture if it has no more than one. *)
Definition material_is (tenth : T) (d : fdoc T) (o : nat) (x : material T) : Prop :=
  forall m, fdObjs d o = Some (OMat m) ->
  mtName x = shown_name (fxName m) /\
  color_is (fxProp m "DiffuseColor") none (mkV3 (qx (mtColor x)) (qy (mtColor x)) (qz (mtColor x))) /\ number_is (fxProp m "Opacity") none (qw (mtColor x)) /\
  number_is (fxProp m "DiffuseFactor") none (mtDiffuse x) /\ number_is (fxProp m "ShininessExponent") nzero (mtPower x) /\
  grey_is (fxProp m "SpecularColor") (fxProp m "SpecularFactor") (mtSpecular x) /\ grey_is (fxProp m "AmbientColor") (fxProp m "AmbientFactor") (mtAmbient x) /\
  (exists e, grey_is (fxProp m "EmissiveColor") (fxProp m "EmissiveFactor") e /\ mtEmission x = nmul e tenth) /\
  (forall t file, filter (is_texture d) (refs d o) = [t] -> fdObjs d t = Some (OOther "Texture" file) -> mtTexture x = file) /\
  (filter (is_texture d) (refs d o) = [] -> mtTexture x = "").
End S.
