(** Files of textures. *)
From Coq Require Import String Ascii List Bool.
From Verif.Model Require Import Cli UnityPackage UnityProject.
From Verif.Spec Require Import ProjectSpec.
Import ListNotations.
Local Open Scope string_scope.
Local Open Scope list_scope.

(** A reference in a document in the directory [base] leads to a file with this content. *)
Definition leads (fs : fsys) (base : path) (ref data : string) : Prop := stat fs (join base ref) = Some (FFile data).
(** An asset: a GUID of Unity and a path. *)
Definition asset_ok (x : string * path) : Prop := without "_" (fst x) /\ has_sep (fst x) = false /\ snd x <> [] /\ Forall name_ok (snd x).
(** Where its file is expected. *)
Definition expected (src : path) (x : string * path) : path := src ++ ["saved_textures"; (fst x ++ "_" ++ last (snd x) "")%string].
(** The assets as the converter is given them. *)
Definition given (x : string * path) : string * string := (fst x, slashed (snd x)).
