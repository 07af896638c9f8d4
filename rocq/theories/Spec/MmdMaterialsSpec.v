(** What materials look like in PMX models and in MQO documents, and what material morphs of PMX models mean. *)
From Coq Require Import String Ascii List ZArith Bool Reals.
From Verif.Model Require Import Num Vec Mqo MqoDoc MmdMaterials.
Import ListNotations.
Local Open Scope Z_scope.

Section Spec.
Context {T : Type}.

(** The file a texture number of a PMX model stands for; -1 is no file. *)
Definition shows (texs : list string) (id : Z) (file : string) : Prop :=
  (id < 0 /\ file = EmptyString) \/ (0 <= id /\ nth_error texs (Z.to_nat id) = Some file).
(** Name, colour, shininess and texture agree. *)
Definition same_look (texs : list string) (x : mmat T) (m : material T) : Prop :=
  mtName m = xmName x /\ mtColor m = xmColor x /\ mtPower m = xmSpecularity x /\ shows texs (xmTexture x) (mtTexture m).
(** Both show their back, or none does. *)
Definition same_sides (x : mmat T) (m : material T) : Prop := mtDouble m = Z.odd (xmFlags x).
(** Two PMX materials of two models look alike. *)
Definition alike (t1 : list string) (x1 : mmat T) (t2 : list string) (x2 : mmat T) : Prop :=
  xmName x1 = xmName x2 /\ xmColor x1 = xmColor x2 /\ xmSpecularity x1 = xmSpecularity x2 /\
  forall file, shows t1 (xmTexture x1) file -> shows t2 (xmTexture x2) file.
(** All texture numbers are of the list. *)
Definition textures_ok (texs : list string) (xs : list (mmat T)) : Prop :=
  forall x, In x xs -> xmTexture x < Z.of_nat (length texs).
End Spec.

(** The component of a material at value [v] of a morph: [d * v] is added, or it is multiplied by what goes from 1 to [d]. *)
Definition at_value (add : bool) (v c d : R) : R := if add then (c + d * v)%R else (c * (1 + (d - 1) * v))%R.
Definition color_at (o : mmorph R) (v : R) (c : vec4 R) : vec4 R :=
  let f := at_value (Z.odd (moFlags o)) v in
  mkV4 (f (qx c) (qx (moDiffuse o))) (f (qy c) (qy (moDiffuse o))) (f (qz c) (qz (moDiffuse o))) (f (qw c) (qw (moDiffuse o))).
(** Whether a morph entry is about material [k]: -1 are all of them. *)
Definition about (o : mmorph R) (k : nat) : Prop := moTarget o = Z.of_nat k \/ moTarget o = -1.
(** No colon in a name. *)
Fixpoint no_colon (s : string) : Prop :=
  match s with EmptyString => True | String a r => a <> ":"%char /\ no_colon r end.
