(** Files of a .gltf document. *)
From Coq Require Import String Ascii List ZArith Bool.
From Verif.Model Require Import Cli GltfPack GltfSave.
From Verif.Spec Require Import CliSpec.
Import ListNotations.
Local Open Scope string_scope.
Local Open Scope list_scope.

(** Buffers that are files of their own beside the document [name]: different names in the same directory, none of them the document, with some data. *)
Definition separate (name : string) (l : list kbuf) : Prop :=
  NoDup (map kbUri l) /\ Forall (fun b => without "/" (kbUri b) /\ kbUri b <> name /\ (forall r, kbUri b <> ("data:" ++ r)%string) /\ kbData b <> []) l.
(** Nothing changed on the disk but these files. *)
Definition only_changed (d d' : disk) (ps : list (list string)) : Prop := forall p, ~ In p ps -> found d' p = found d p.
(** The images of the document in [dir] that are files of their own are there. *)
Definition images_there (d : disk) (dir : list string) (doc : kdoc) : Prop :=
  Forall (fun i => kiView i = None -> kiUri i <> "" -> (forall r, kiUri i <> ("data:" ++ r)%string) -> found d (place dir (kiUri i)) <> None) (kdImages doc).
