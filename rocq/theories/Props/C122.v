(** C122: Names in a document come back from its MQO file, whatever they are.  Refuted: names are written between quotes as they are, and read as string literals of Go. *)
From Coq Require Import String Ascii List ZArith Bool Lia.
From Verif.Model Require Import Num Vec Mqo MqoDoc MqoText MqoLex Gltf Gltf2Mqo GltfScene.
From Verif Require Import Spec.NameSpec Spec.TextSpec Proofs.MqoLexProofs Proofs.MqoTextMore Proofs.NameProofs.
From Verif.Model Require Import MqoCodePage MqoNames.
Import ListNotations.
Local Open Scope list_scope.
Local Open Scope char_scope.

(** Exactly these names come back, and what follows them is read: the inside of a literal that does not end in a quote. *)
Theorem C122_names_partial : forall s rest, read_name (written_name s rest) = (0%nat, s, rest) <-> kept_name s.
Proof. exact name_back. Qed.
Print Assumptions C122_names_partial.
(** Names of textures come back with slashes exactly if they have no quotes, line ends and NUL. *)
Theorem C122_textures_partial : forall s rest, read_name (written_texture s rest) = (0%nat, replace_backslashes s, rest) <-> kept_texture s.
Proof. exact texture_back. Qed.
Print Assumptions C122_textures_partial.
(** Line ends and NUL make the whole file unreadable. *)
Theorem C122_fails : forall s rest, ~ In quote s -> ~ In backslash s -> In newline s \/ In nul s -> parse_fails (fst (fst (read_name (written_name s rest)))) = true.
Proof. exact name_fails. Qed.
Print Assumptions C122_fails.
(** Every name can be the name of an object: that of a mesh of a glTF document. *)
Theorem C122_any_name : forall (T : Type) (N : Num T) (facet : T) (s : string), exists m : xmesh T, option_map (@oName T) (import_xmesh facet m) = Some s.
Proof. intros T N facet s. exists (mkXMesh s []). reflexivity. Qed.
Print Assumptions C122_any_name.

Definition txt (s : string) : MqoCodePage.text := list_ascii_of_string s.
(** A quote ends the name early, and the file cannot be read. *)
Theorem C122_quote_refuted : exists s rest, s = txt "12"" disc" /\ read_name (written_name s rest) = (0%nat, txt "12", txt " disc" ++ quote :: rest) /\
  parse_fails (fst (fst (read_name (quote :: rest)))) = true.
Proof. exists (txt "12"" disc"), (txt " {" ++ newline :: txt "	depth 0"). repeat split; vm_compute; reflexivity. Qed.
Print Assumptions C122_quote_refuted.
(** A backslash that starts no escape makes the file unreadable. *)
Theorem C122_backslash_refuted : exists s rest, s = txt "face\eye" /\ parse_fails (fst (fst (read_name (written_name s rest)))) = true.
Proof. exists (txt "face\eye"), (txt " {"). split; vm_compute; reflexivity. Qed.
Print Assumptions C122_backslash_refuted.
(** An escaped quote at the end is cut off: no error, another name. *)
Theorem C122_trimmed_refuted : exists s rest, s = txt "say \""" /\ read_name (written_name s rest) = (0%nat, txt "say \", rest).
Proof. exists (txt "say \"""), (txt " {"). split; vm_compute; reflexivity. Qed.
Print Assumptions C122_trimmed_refuted.
Local Open Scope Z_scope.
(** A name can hold further objects: a document with one object is loaded as a document with two. *)
Definition two_names : string := "a"" {" ++ String MqoLex.newline ("}" ++ String MqoLex.newline "Object ""b").
Definition named (s : string) : object Z :=
  mkObj 3 s [mkV3 0 0 0; mkV3 1 0 0; mkV3 0 1 0] [] true false 0 false 1 59 0 0 0 0 None None None None [] None.
Theorem C122_objects_refuted : exists d d' : text_doc Z, map (@oName Z) (dObjects (tdDoc d)) = [two_names] /\ parse_text (write_text d) = Some d' /\
  map (fun o => (oName o, length (oVerts o))) (dObjects (tdDoc d')) = [("a"%string, 0%nat); ("b"%string, 3%nat)].
Proof. exists (mkTD None None (mkDocument [] [named two_names])). eexists. split; [reflexivity|]. split; vm_compute; reflexivity. Qed.
Print Assumptions C122_objects_refuted.

(** Names that come back: with escapes, with an escaped quote inside, and a texture in a directory. *)
Example C122_example : kept_name (txt "aä\x41 \""b\"" \101.") /\ kept_texture (txt "tex\eye.png") /\
  read_name (written_name (txt "aä\x41 \""b\"" \101.") (txt " {")) = (0%nat, txt "aä\x41 \""b\"" \101.", txt " {") /\
  read_name (written_texture (txt "tex\eye.png") (txt ")")) = (0%nat, txt "tex/eye.png", txt ")") /\
  (~ In quote (txt ("a" ++ String newline "b")) /\ ~ In backslash (txt ("a" ++ String newline "b")) /\ In newline (txt ("a" ++ String newline "b"))).
Proof.
  assert (A : read_name (written_name (txt "aä\x41 \""b\"" \101.") (txt " {")) = (0%nat, txt "aä\x41 \""b\"" \101.", txt " {")) by (vm_compute; reflexivity).
  assert (B : read_name (written_texture (txt "tex\eye.png") (txt ")")) = (0%nat, txt "tex/eye.png", txt ")")) by (vm_compute; reflexivity).
  split; [apply name_back in A; exact A|]. split; [apply (texture_back (txt "tex\eye.png") (txt ")")); exact B|]. split; [exact A|]. split; [exact B|].
  repeat split; cbn; intuition discriminate.
Qed.
