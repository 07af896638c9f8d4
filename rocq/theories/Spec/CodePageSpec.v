(** Files and the code page they declare; names of files. *)
From Coq Require Import String Ascii List Bool.
From Verif.Model Require Import MqoCodePage.
Import ListNotations.
Local Open Scope list_scope.
Local Open Scope char_scope.

(** The text declares UTF-8. *)
Definition declares_utf8 (l : text) : Prop :=
  exists a ws b, l = a ++ list_ascii_of_string "CodePage" ++ ws ++ list_ascii_of_string "utf8" ++ b /\ ws <> [] /\
    Forall (fun c => In c ["009"; "010"; "012"; "013"; " "]) ws.
(** A file as this program writes it. *)
Definition written (body : text) : text :=
  list_ascii_of_string "Metasequoia Document" ++ newline :: list_ascii_of_string "Format Text Ver 1.1" ++ newline :: list_ascii_of_string "CodePage utf8" ++ newline :: body.
(** The characters of a name in a literal: neither quotes nor line ends. *)
Definition name_text (s : text) : Prop := ~ In quote s /\ ~ In newline s.
(** A name of a file means the same with slashes. *)
Definition with_slashes (s t : text) : Prop := Forall2 (fun a b => b = a /\ a <> backslash \/ b = "/" /\ a = backslash) s t.
(** The text of a literal as Go understands it: characters, and escapes with the right number of digits. *)
Definition octal_digit (c : ascii) : Prop := (48 <= nat_of_ascii c <= 55)%nat.
Definition hexadecimal_digit (c : ascii) : Prop := (48 <= nat_of_ascii c <= 57 \/ 97 <= nat_of_ascii c <= 102 \/ 65 <= nat_of_ascii c <= 70)%nat.
Inductive go_literal : text -> Prop :=
| L_end : go_literal []
| L_char c s : c <> quote -> c <> newline -> c <> backslash -> go_literal s -> go_literal (c :: s)
| L_letter c s : In c ["a"; "b"; "f"; "n"; "r"; "t"; "v"; backslash; quote] -> go_literal s -> go_literal (backslash :: c :: s)
| L_octal d s : length d = 3 -> Forall octal_digit d -> go_literal s -> go_literal (backslash :: d ++ s)
| L_hex c n d s : In (c, n) [("x", 2); ("u", 4); ("U", 8)] -> length d = n -> Forall hexadecimal_digit d -> go_literal s -> go_literal (backslash :: c :: d ++ s).
