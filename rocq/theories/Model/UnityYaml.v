(** [unity/unity_yaml.go]: splitting a scene file into its documents.  A position in the data is modelled by the bytes from there on. *)
From Coq Require Import String Ascii List ZArith Bool.
Import ListNotations.
Local Open Scope list_scope.
Local Open Scope char_scope.

Definition bytes : Type := list ascii.
Definition nl : ascii := "010".
Definition cr : ascii := "013".
Definition bytes_eqb (a b : bytes) : bool := if list_eq_dec ascii_dec a b then true else false.

Definition is_blank (c : ascii) : bool := Ascii.eqb c " " || Ascii.eqb c cr.
(** unity_yaml.go 72-74. *)
Fixpoint skip_blanks (l : bytes) : bytes := match l with c :: r => if is_blank c then skip_blanks r else l | [] => [] end.
(** unity_yaml.go 75-79: the token and what follows it. *)
Fixpoint take_token (l : bytes) : bytes * bytes :=
  match l with
  | c :: r => if Ascii.eqb c nl || is_blank c then ([], l) else let '(t, q) := take_token r in (c :: t, q)
  | [] => ([], [])
  end.
(** [readToken] (unity_yaml.go 71-80). *)
Definition read_token (l : bytes) : bytes * bytes := take_token (skip_blanks l).
(** [nextLine] (unity_yaml.go 82-91). *)
Fixpoint next_line (l : bytes) : bytes := match l with c :: r => if Ascii.eqb c nl then r else next_line r | [] => [] end.

(** [strings.Trim(s, !)]. *)
Fixpoint trim_left (l : bytes) : bytes := match l with c :: r => if Ascii.eqb c "!" then trim_left r else l | [] => [] end.
Definition trim_bang (l : bytes) : bytes := rev (trim_left (rev (trim_left l))).
(** The first part of [strings.SplitN(s, !, 2)]. *)
Fixpoint before_bang (l : bytes) : bytes := match l with c :: r => if Ascii.eqb c "!" then [] else c :: before_bang r | [] => [] end.
(** [tags], the newest entry first. *)
Fixpoint tag_at (m : list (bytes * bytes)) (k : bytes) : option bytes :=
  match m with (a, v) :: r => if bytes_eqb a k then Some v else tag_at r k | [] => None end.
(** [getTag] after the token is read (unity_yaml.go 60-69); [None]: slice bounds out of range. *)
Definition resolve_tag (tags : list (bytes * bytes)) (tag : bytes) : option bytes :=
  match tag with
  | c :: r =>
      if Ascii.eqb c "!" then
        let t0 := before_bang r in
        match tag_at tags t0 with
        | Some v => if (length t0 + 2 <=? length tag)%nat then Some (v ++ skipn (length t0 + 2) tag) else None
        | None => Some tag
        end
      else Some tag
  | [] => Some tag
  end.
(** [strings.TrimPrefix(s, &)]. *)
Definition trim_amp (l : bytes) : bytes := match l with c :: r => if Ascii.eqb c "&" then r else l | [] => [] end.

(** [YAMLDoc] (unity_yaml.go 9-13). *)
Record ydoc := mkYDoc { yTag : bytes; yID : bytes; yBody : bytes }.
(** [data[docStart:s.pos]]. *)
Definition slice_from (start rest : bytes) : bytes := firstn (length start - length rest) start.
Definition starts_tag (l : bytes) : bool := match l with a :: b :: c :: d :: _ => Ascii.eqb a "%" && Ascii.eqb b "T" && Ascii.eqb c "A" && Ascii.eqb d "G" | _ => false end.
Definition starts_doc (l : bytes) : bool := match l with a :: b :: c :: _ => Ascii.eqb a "-" && Ascii.eqb b "-" && Ascii.eqb c "-" | _ => false end.
(** The open document: its tag, its id, and its bytes from [docStart] on. *)
Definition close_doc (doc : option (bytes * bytes * bytes)) (rest : bytes) : list ydoc :=
  match doc with Some (tag, id, start) => [mkYDoc tag id (slice_from start rest)] | None => [] end.
(** [ParseYamlDocuments] (unity_yaml.go 25-58); the fuel is enough if it is at least the number of bytes. *)
Fixpoint parse_yaml (fuel : nat) (tags : list (bytes * bytes)) (doc : option (bytes * bytes * bytes)) (rest : bytes) : option (list ydoc) :=
  match fuel with
  | O => Some (close_doc doc rest)
  | S f =>
      if (length rest <=? 3)%nat then Some (close_doc doc rest)
      else if starts_tag rest then
        let '(name, r1) := read_token (skipn 4 rest) in
        let '(value, r2) := read_token r1 in
        parse_yaml f ((trim_bang name, value) :: tags) doc (next_line r2)
      else if starts_doc rest then
        let r0 := skipn 3 rest in
        let '(tag, r1) := read_token r0 in
        match resolve_tag tags tag with
        | None => None
        | Some tag1 =>
            let '(id, r2) := read_token r1 in
            let r3 := next_line r2 in
            match parse_yaml f tags (Some (tag1, trim_amp id, r3)) r3 with
            | Some ds => Some (close_doc doc r0 ++ ds)
            | None => None
            end
        end
      else parse_yaml f tags doc (next_line rest)
  end.
Definition parse_yaml_documents (data : bytes) : option (list ydoc) := parse_yaml (length data) [] None data.
