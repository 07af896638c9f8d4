(** What a user asks for on the command line. *)
From Coq Require Import String Ascii List Bool.
From Verif.Model Require Import CliRun.
From Verif.Spec Require Import CliSpec.
Import ListNotations.
Local Open Scope string_scope.
Local Open Scope list_scope.

(** The formats of files. *)
Definition format_read (r : reader) (e : string) : Prop :=
  match r with
  | RMqoText => e = ".mqo" | RMqoz => e = ".mqoz" | RGltf => e = ".glb" \/ e = ".gltf" \/ e = ".vrm" | RMmd => e = ".pmx" \/ e = ".pmd"
  | RUnity => e = ".unity" \/ e = ".prefab" \/ e = ".unitypackage" | RFbx => e = ".fbx"
  end.
Definition format_written (w : writer) : string :=
  match w with WGlb => ".glb" | WGltf => ".gltf" | WVrm => ".vrm" | WMqoText => ".mqo" | WMqoz => ".mqoz" | WPmx => ".pmx" | WFbx => ".fbx" end.
(** A name of a format in small letters, and a path that ends in it, however it is written. *)
Definition path_of_format (p e : string) : Prop := exists w, is_extension p w /\ written w e.
(** The format that is asked for: by the option, by the output, or neither. *)
Definition asked_for (format : string) (args : list string) (e : string) : Prop :=
  (format <> "" /\ e = String "." format) \/
  (format = "" /\ (exists a b l, args = a :: b :: l) /\ path_of_format (last args "") e) \/
  (format = "" /\ exists a, args = [a] /\ exists i, path_of_format a i /\ In i known_formats /\ e = if existsb (String.eqb i) [".mqo"; ".mqoz"] then ".glb" else ".mqo").
(** What can be converted. *)
Definition convertible (i e : string) : Prop :=
  In i known_formats /\ (In e [".glb"; ".gltf"; ".vrm"; ".mqo"; ".mqoz"; ".pmx"] \/ i = ".fbx" /\ e = ".fbx").
(** A name that is in small letters where the tool looks for an archive. *)
Definition ends_in (suf s : string) : Prop := exists p, s = (p ++ suf)%string.
