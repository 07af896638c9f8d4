(** What the command line options are meant to do. *)
From Coq Require Import String Ascii List ZArith Bool.
From Verif.Model Require Import Num Vec Mqo MqoDoc Gltf.
From Verif Require Import Spec.GltfSpec.
Import ListNotations.

(** How a list of words is written on the command line. *)
Definition without (c : ascii) (s : string) : Prop := ~ In c (list_ascii_of_string s).
Definition comma_list (ws : list string) : string := String.concat "," ws.

(** The subtree of an object: the object, the objects whose parent it is, and so on. *)
Inductive in_subtree (depths : list Z) (r : nat) : nat -> Prop :=
| sub_self : in_subtree depths r r
| sub_child i p : tree_parent depths i p -> in_subtree depths r p -> in_subtree depths r i.

Section Spec.
Context {T : Type}.
(** A name stands for the last bone that has it. *)
Definition names_bone (bones : list (bone T)) (n : string) (i : nat) : Prop :=
  (exists b, nth_error bones i = Some b /\ bName b = n) /\
  forall j b, (i < j)%nat -> nth_error bones j = Some b -> bName b <> n.
(** The last element of a list that satisfies a property. *)
Definition last_such {A} (P : A -> Prop) (l : list A) (x : A) : Prop :=
  exists a b, l = a ++ x :: b /\ P x /\ Forall (fun y => ~ P y) b.
(** Everything but the parent is as before. *)
Definition same_but_parent (b b' : bone T) : Prop :=
  bID b' = bID b /\ bName b' = bName b /\ bPos b' = bPos b /\ bWeights b' = bWeights b.
(** Bone [i] is below itself. *)
Inductive below (bones : list (bone T)) (i : nat) : nat -> Prop :=
| below_child k : bone_parent bones i k -> below bones i k
| below_step k l : below bones i k -> bone_parent bones k l -> below bones i l.
End Spec.

Section Materials.
Context {T : Type}.
(** The colour without alpha, the reflection, the textures, and so on: all but name, alpha and shader. *)
Definition same_look (m m' : material T) : Prop :=
  mtUID m' = mtUID m /\ qx (mtColor m') = qx (mtColor m) /\ qy (mtColor m') = qy (mtColor m) /\ qz (mtColor m') = qz (mtColor m) /\
  mtDiffuse m' = mtDiffuse m /\ mtAmbient m' = mtAmbient m /\ mtEmission m' = mtEmission m /\ mtSpecular m' = mtSpecular m /\ mtPower m' = mtPower m /\
  mtTexture m' = mtTexture m /\ mtBump m' = mtBump m /\ mtAlpha m' = mtAlpha m /\ mtEmissionColor m' = mtEmissionColor m /\ mtDouble m' = mtDouble m.
(** A hidden material: marked by its name, and transparent. *)
Definition hidden_of (zero : T) (m m' : material T) : Prop :=
  mtName m' = (mtName m ++ "$IGNORE")%string /\ qw (mtColor m') = zero /\ same_look m m' /\ mtShader m' = mtShader m /\ mtEx2 m' = mtEx2 m.
(** The entries of a map of shader parameters other than [k]. *)
Definition same_params_but (k : string) (l l' : list (string * param T)) : Prop :=
  forall k' p, k' <> k -> (In (k', p) l' <-> In (k', p) l).
(** What one alpha setting does to a material that it names; [export] is how the material is seen in glTF, [translucent] tells which alphas are. *)
Definition alpha_effect (export : material T -> gmat T) (zero one : T) (translucent : T -> bool) (parse_float : string -> option T) (value : string) (m m' : material T) : Prop :=
  (same_look m m' /\ mtShader m' = mtShader m /\
  (value = "opaque" -> mtName m' = mtName m /\ qw (mtColor m') = one /\ gtAlpha (export m') = GOpaque) /\
  (value = "mask" -> mtName m' = mtName m /\ mtColor m' = mtColor m /\ exists c, gtAlpha (export m') = GMask c) /\
  (value = "blend" -> mtName m' = mtName m /\ mtColor m' = mtColor m /\ gtAlpha (export m') = GBlend) /\
  (value = "0" -> hidden_of zero m m') /\
  (~ In value ["opaque"; "mask"; "blend"; "0"] -> exists a, parse_float value = Some a /\ mtName m' = mtName m /\ qw (mtColor m') = a /\
     (translucent a = true -> gtAlpha (export m') = GBlend)))%string.
End Materials.

(** [e] is the file name extension of [path], with its dot: what follows the last dot of the last path element; empty without a dot. *)
Definition is_extension (path e : string) : Prop :=
  exists stem, path = (stem ++ e)%string /\
  ((exists r, e = String "." r /\ without "." r /\ without "/" r) \/
   e = ""%string /\ forall a b, path = (a ++ String "." b)%string -> ~ without "/" b).

(** [w] is [e], with some of the letters written as capitals. *)
Definition small_letters : string := "abcdefghijklmnopqrstuvwxyz".
Definition capitals : string := "ABCDEFGHIJKLMNOPQRSTUVWXYZ".
Definition capital_of (c d : ascii) : Prop := exists i, String.get i small_letters = Some c /\ String.get i capitals = Some d.
Inductive written : string -> string -> Prop :=
| written_nil : written "" ""
| written_same c w e : written w e -> written (String c w) (String c e)
| written_capital c d w e : capital_of c d -> written w e -> written (String d w) (String c e).
(** Names of formats. *)
Definition known_formats : list string := [".mqo"; ".mqoz"; ".glb"; ".gltf"; ".vrm"; ".pmx"; ".pmd"; ".fbx"; ".unity"; ".prefab"; ".unitypackage"]%string.
