(** Names in MQO files: how [mqo/mqo_writer.go] writes them and [mqo/mqo_parser.go] reads them.  Characters are bytes, and invalid UTF-8 is left out, as in MqoCodePage.v; files of this program are
    in UTF-8, so backslashes are not replaced while reading (C118). *)
From Coq Require Import String Ascii List Bool.
From Verif.Model Require Import MqoCodePage.
Import ListNotations.
Local Open Scope list_scope.
Local Open Scope char_scope.

(** Names of materials, objects, shaders and the .mqx file between quotes, as they are (mqo_writer.go 46, 74, 112-113, 132); [rest] is what is written next. *)
Definition written_name (s rest : text) : text := quote :: s ++ quote :: rest.
(** Names of textures, with slashes (mqo_writer.go 88-96). *)
Definition written_texture (s rest : text) : text := quote :: replace_backslashes s ++ quote :: rest.

Definition nul : ascii := "000".
(** [readStr] (mqo_parser.go 82-85) with the error that text/scanner reports for each NUL: the number of errors, the string and what follows. *)
Definition read_name (l : text) : nat * text * text :=
  let '(e, t, rest) := read_str l in ((e + count_occ ascii_dec (firstn (length l - length rest) l) nul)%nat, t, rest).
