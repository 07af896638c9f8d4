(** Which names can stand between quotes. *)
From Coq Require Import String Ascii List.
Import ListNotations.
Local Open Scope list_scope.
Local Open Scope char_scope.

Definition octal (c : ascii) : Prop := In c (list_ascii_of_string "01234567").
Definition hexadecimal (c : ascii) : Prop := In c (list_ascii_of_string "0123456789abcdefABCDEF").
(** The inside of a string literal of Go. *)
Inductive literal : list ascii -> Prop :=
| lit_nil : literal []
| lit_char c s : ~ In c [""""; "\"; "010"; "000"] -> literal s -> literal (c :: s)
| lit_escape c s : In c (list_ascii_of_string "abfnrtv\""") -> literal s -> literal ("\" :: c :: s)
| lit_octal a b c s : octal a -> octal b -> octal c -> literal s -> literal ("\" :: a :: b :: c :: s)
| lit_hex k n ds s : In (k, n) [("x", 2); ("u", 4); ("U", 8)] -> length ds = n -> Forall hexadecimal ds -> literal s -> literal ("\" :: k :: ds ++ s).
(** Quotes are trimmed on both sides. *)
Definition kept_name (s : list ascii) : Prop := literal s /\ forall t, s <> t ++ [""""].
Definition kept_texture (s : list ascii) : Prop := Forall (fun c => ~ In c [""""; "010"; "000"]) s.
