(** Characters of MQO text: what the writer prints and how Go's [text/scanner] splits it.

    [lex] covers the part of [text/scanner] that MQO text needs; [None] means that the input
    leaves that part (comments, character and raw string literals, escapes or line ends in
    strings, hexadecimal numbers, ...) or that the scanner reports an error.  A carriage return
    is plain white space here, and white space before a line end is invisible ([Peek] in
    [procAttrs] would see it).  Bytes from 128 on are only handled inside strings. *)
From Coq Require Import String Ascii List ZArith Bool.
From Verif.Model Require Import Num Vec Matrix Mqo MqoDoc MqoText.
Import ListNotations.
Local Open Scope string_scope.

Definition newline : ascii := "010".
Definition is_letter (c : ascii) : bool :=
  let n := nat_of_ascii c in
  (Nat.leb 65 n && Nat.leb n 90) || (Nat.leb 97 n && Nat.leb n 122) || Ascii.eqb c "_".
Definition is_ident (c : ascii) : bool := is_letter c || is_digit c.
Definition is_space (c : ascii) : bool := Ascii.eqb c " " || Ascii.eqb c "009" || Ascii.eqb c "013".
(** Characters that are tokens of their own. *)
Definition is_punct (c : ascii) : bool :=
  Ascii.eqb c "(" || Ascii.eqb c ")" || Ascii.eqb c "{" || Ascii.eqb c "}" || Ascii.eqb c "-" ||
  Ascii.eqb c "[" || Ascii.eqb c "]" || Ascii.eqb c ".".
Definition next_is (p : ascii -> bool) (s : string) : bool := match s with String c _ => p c | EmptyString => false end.

Fixpoint lex_ident (s : string) : string * string :=
  match s with
  | String c r => if is_ident c then let (a, b) := lex_ident r in (String c a, b) else (EmptyString, s)
  | EmptyString => (EmptyString, EmptyString)
  end.
(** the rest of a string literal after the opening quote *)
Definition str_char (c : ascii) : bool :=
  negb (Ascii.eqb c """" || Ascii.eqb c "\" || Ascii.eqb c newline || Ascii.eqb c "000").
Fixpoint lex_string (s : string) : option (string * string) :=
  match s with
  | EmptyString => None
  | String c r =>
      if Ascii.eqb c """" then Some (EmptyString, r)
      else if str_char c then
        match lex_string r with Some (a, b) => Some (String c a, b) | None => None end
      else None
  end.
(** One token (or line end, or white space) off the front: [Scanner.Scan]. *)
Inductive lexed := LTok (t : tok) (r : string) | LSpace (r : string) | LEnd | LBad.
Definition lex1 (s : string) : lexed :=
  match s with
  | EmptyString => LEnd
  | String c r =>
      if Ascii.eqb c newline then LTok TNL r
      else if is_space c then LSpace r
      else if is_letter c then let (a, b) := lex_ident s in LTok (TId a) b
      else if is_digit c then
        match lex_number s with
        | Some (isint, a, b) => if next_is (fun c => is_ident c || Ascii.eqb c ".") b then LBad else LTok (TNum isint a) b
        | None => LBad
        end
      else if Ascii.eqb c """" then match lex_string r with Some (a, b) => LTok (TStr a) b | None => LBad end
      else if is_punct c then if Ascii.eqb c "." && next_is is_digit r then LBad else LTok (TCh c) r
      else LBad
  end.
Fixpoint lex_fuel (f : nat) (s : string) : option (list tok) :=
  match f with
  | O => None
  | S f =>
      match lex1 s with
      | LEnd => Some []
      | LBad => None
      | LSpace r => lex_fuel f r
      | LTok t r => match lex_fuel f r with Some ts => Some (t :: ts) | None => None end
      end
  end.
Definition lex (s : string) : option (list tok) := lex_fuel (S (String.length s)) s.

(** The characters written: mqo/mqo_writer.go:35-244 *)
Definition piece_text (p : piece) : string :=
  match p with W s => s | K TNL => String newline EmptyString | K t => text t end.
Fixpoint render (l : list piece) : string := match l with [] => "" | p :: r => piece_text p ++ render r end.

Section Text.
Context {T : Type} {N : Num T} {X : TextNum T}.
Definition write_text (d : text_doc T) : string := render (write_mqo d).
(** mqo/mqo_parser.go:339-399 *)
Definition parse_text (s : string) : option (text_doc T) := match lex s with Some ts => parse_toks ts | None => None end.
End Text.
