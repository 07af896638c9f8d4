(** Materials of Unity and their files. *)
From Coq Require Import String Ascii List ZArith Reals Bool.
From Verif.Model Require Import Num NumR Vec Matrix Mqo MqoDoc UnityYaml UnityPackage UnityProject Unity2Mqo UnityMaterial.
From Verif.Spec Require Import YamlSpec UnityTextureSpec ProjectSpec.
Import ListNotations.
Local Open Scope string_scope.
Local Open Scope list_scope.

(** A list of maps gives [v] for [name]: the first map with that key has it. *)
Definition gives {A} (l : list (list (string * A))) (name : string) (v : A) : Prop :=
  exists a b c d, l = a ++ (c ++ (name, v) :: d) :: b /\ (forall x, ~ In (name, x) (concat a)) /\ (forall x, ~ In (name, x) c).
(** No map has the key. *)
Definition lacks {A} (l : list (list (string * A))) (name : string) : Prop := forall x, ~ In (name, x) (concat l).

(** The file has materials, [d] is the first of them: the documents before it are not materials. *)
Definition first_is (hs : list head_line) (ds : list sdoc) (d : sdoc) : Prop :=
  exists a b, ds = a ++ d :: b /\ (forall t, meaning hs d t -> t = list_ascii_of_string "tag:unity3d.com,2011:21") /\
    (forall x t, In x a -> meaning hs x t -> t <> list_ascii_of_string "tag:unity3d.com,2011:21").

(** The property [name] of the material is a texture of the asset [x] (GUID and path). *)
Definition shows_asset (asset : string -> option string) (m : fmat) (name : string) (t : tenv) (x : string * path) : Prop :=
  gives (fmTex m) name (Some t) /\ exists r, teTexture t = Some r /\ rFile r <> 0%Z /\ rGUID r = fst x /\ asset (fst x) = Some (slashed (snd x)).

(** The word is one of the keywords. *)
Definition has_keyword (m : fmat) (k : string) : Prop := exists a b, fmKeywords m = (a ++ k ++ b)%string /\
  (a = "" \/ exists a', a = (a' ++ " ")%string) /\ (b = "" \/ exists b', b = (" " ++ b')%string).
(** The standard shader: colour, with its alpha if the mode is not opaque, and emission if it is switched on. *)
Definition true_color (m : fmat) (c : vec4 R) : Prop :=
  exists k, (gives (fmColors m) "_Color" (Some k) \/ lacks (fmColors m) "_Color" /\ k = mkV4 1 1 1 1)%R /\
    (gives (fmFloats m) "_Mode" 0%R /\ c = mkV4 (qx k) (qy k) (qz k) 1%R \/ ~ gives (fmFloats m) "_Mode" 0%R /\ c = k).
Definition true_emission (m : fmat) (e : option (vec3 R)) : Prop :=
  match e with
  | Some v => has_keyword m "_EMISSION" /\ exists k, gives (fmColors m) "_EmissionColor" (Some k) /\ v = mkV3 (qx k) (qy k) (qz k)
  | None => has_keyword m "_EMISSION" -> forall k, gives (fmColors m) "_EmissionColor" (Some k) -> qx k = 0%R /\ qy k = 0%R /\ qz k = 0%R
  end.
(** The property [name] refers to nothing. *)
Definition no_texture (m : fmat) (name : string) : Prop :=
  lacks (fmTex m) name \/ gives (fmTex m) name None \/ exists t, gives (fmTex m) name (Some t) /\ (teTexture t = None \/ exists r, teTexture t = Some r /\ rFile r = 0%Z).
