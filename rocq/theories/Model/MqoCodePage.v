(** [mqo/mqo_parser.go]: the code page of a file (43-53, 330-341) and string literals as [text/scanner] reads them, with escapes (which MqoLex.v leaves out).  A reader is the list of what its
    calls of Read would return; characters are bytes, and invalid UTF-8 is left out. *)
From Coq Require Import String Ascii List ZArith Bool.
Import ListNotations.
Local Open Scope list_scope.
Local Open Scope char_scope.

Definition text : Type := list ascii.
Definition newline : ascii := "010".
Definition quote : ascii := """".
Definition backslash : ascii := "\".

(** The class \s of [regexp]: tab, newline, form feed, carriage return, space. *)
Definition is_space (c : ascii) : bool :=
  Ascii.eqb c "009" || Ascii.eqb c "010" || Ascii.eqb c "012" || Ascii.eqb c "013" || Ascii.eqb c " ".
Fixpoint starts_with (p l : text) : bool :=
  match p, l with
  | [], _ => true
  | a :: p, b :: l => Ascii.eqb a b && starts_with p l
  | _, [] => false
  end.
(** One or more spaces and then utf8; [seen]: there was one already. *)
Fixpoint spaces_utf8 (seen : bool) (l : text) : bool :=
  (seen && starts_with (list_ascii_of_string "utf8") l) ||
  match l with c :: r => is_space c && spaces_utf8 true r | [] => false end.
Definition code_page : text := list_ascii_of_string "CodePage".
(** [regexp.Match] of CodePage\s+utf8 anywhere (mqo_parser.go 334). *)
Fixpoint matched (l : text) : bool :=
  (starts_with code_page l && spaces_utf8 false (skipn 8 l)) || match l with _ :: r => matched r | [] => false end.

(** The first call of Read with a buffer of 128 bytes (mqo_parser.go 331-333), and what the reader returns afterwards. *)
Definition first_read (chunks : list text) : text * list text :=
  match chunks with
  | [] => ([], [])
  | c :: r => (firstn 128 c, skipn 128 c :: r)
  end.
(** [basckSlashReplacer] (mqo_parser.go 45-53). *)
Definition replace_backslashes (l : text) : text := map (fun c => if Ascii.eqb c backslash then "/" else c) l.

Section Decode.
(** [japanese.ShiftJIS.NewDecoder]: the UTF-8 text of bytes in Shift-JIS. *)
Variable sjis : text -> text.
(** [detectCodePage] (mqo_parser.go 330-337): the text that the scanner gets. *)
Definition decoded (chunks : list text) : text :=
  let '(buf, rest) := first_read chunks in
  let all := buf ++ concat rest in
  if matched buf then all else replace_backslashes (sjis all).
End Decode.

Definition digit_val (c : ascii) : Z :=
  let n := Z.of_nat (nat_of_ascii c) in
  if (48 <=? n)%Z && (n <=? 57)%Z then (n - 48)%Z
  else if (97 <=? n)%Z && (n <=? 102)%Z then (n - 97 + 10)%Z
  else if (65 <=? n)%Z && (n <=? 70)%Z then (n - 65 + 10)%Z else 16%Z.
(** [scanDigits] of text/scanner, called from mqo_parser.go 83: at most [n] digits; the number of errors and the rest. *)
Fixpoint scan_digits (base : Z) (n : nat) (l : text) : nat * text :=
  match n with
  | O => (O, l)
  | S k => match l with
           | c :: r => if (digit_val c <? base)%Z then scan_digits base k r else (1%nat, l)
           | [] => (1%nat, l)
           end
  end.
(** [scanEscape] of text/scanner, after the backslash. *)
Definition scan_escape (l : text) : nat * text :=
  match l with
  | [] => (1%nat, [])
  | c :: r =>
      if existsb (Ascii.eqb c) ["a"; "b"; "f"; "n"; "r"; "t"; "v"; backslash; quote] then (O, r)
      else if (digit_val c <? 8)%Z then scan_digits 8 3 l
      else if Ascii.eqb c "x" then scan_digits 16 2 r
      else if Ascii.eqb c "u" then scan_digits 16 4 r
      else if Ascii.eqb c "U" then scan_digits 16 8 r
      else (1%nat, l)
  end.
(** [scanString] of text/scanner, after the opening quote: the number of errors and what follows the literal (a line end is read with it); the fuel is enough if it is more than the number of characters. *)
Fixpoint scan_string (fuel : nat) (l : text) : nat * text :=
  match fuel with
  | O => (1%nat, l)
  | S f =>
      match l with
      | [] => (1%nat, [])
      | c :: r =>
          if Ascii.eqb c quote then (O, r)
          else if Ascii.eqb c newline then (1%nat, r)
          else if Ascii.eqb c backslash then let '(e, r1) := scan_escape r in let '(e2, r2) := scan_string f r1 in ((e + e2)%nat, r2)
          else scan_string f r
      end
  end.
(** [strings.Trim] with a quote. *)
Fixpoint trim_left_quote (l : text) : text := match l with c :: r => if Ascii.eqb c quote then trim_left_quote r else l | [] => [] end.
Definition trim_quotes (l : text) : text := rev (trim_left_quote (rev (trim_left_quote l))).
(** [readStr] (mqo_parser.go 82-85) at a literal, [l] starting with its opening quote: the number of errors, the string and what follows. *)
Definition read_str (l : text) : nat * text * text :=
  match l with
  | [] => (O, [], [])
  | c :: r => let '(e, rest) := scan_string (S (length r)) r in (e, trim_quotes (firstn (length l - length rest) l), rest)
  end.
(** [Parse] (mqo_parser.go 386-388) fails if there was any error. *)
Definition parse_fails (errors : nat) : bool := negb (Nat.eqb errors 0).
