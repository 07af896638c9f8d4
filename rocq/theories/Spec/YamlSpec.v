(** Scene files as they are written. *)
From Coq Require Import String Ascii List Bool.
From Verif.Model Require Import UnityYaml.
Import ListNotations.
Local Open Scope list_scope.
Local Open Scope char_scope.

(** Text of one line; a word has no blanks either. *)
Definition one_line (l : bytes) : Prop := ~ In nl l.
Definition word (l : bytes) : Prop := l <> [] /\ Forall (fun c => c <> nl /\ c <> " " /\ c <> cr) l.
(** A line which is neither a directive nor the start of a document. *)
Definition plain_line (l : bytes) : Prop := one_line l /\ (forall r, l <> "%" :: "T" :: "A" :: "G" :: r) /\ (forall r, l <> "-" :: "-" :: "-" :: r).
Definition line (l : bytes) : bytes := l ++ [nl].
(** The rest of a line after a word. *)
Definition tail_of (l : bytes) : Prop := one_line l /\ (l = [] \/ exists r, l = " " :: r \/ l = cr :: r).

(** The lines before the first document: directives (handle, value, rest of the line) and others. *)
Inductive head_line := Directive (handle value tail : bytes) | Other (l : bytes).
Definition head_text (h : head_line) : bytes :=
  match h with Directive n v t => line (list_ascii_of_string "%TAG !" ++ n ++ list_ascii_of_string "! " ++ v ++ t) | Other l => line l end.
Definition head_ok (h : head_line) : Prop :=
  match h with Directive n v t => word n /\ ~ In "!" n /\ word v /\ tail_of t | Other l => plain_line l end.
(** A document: handle and suffix of its tag, id, the rest of that line, the lines. *)
Record sdoc := mkSDoc { sdHandle : bytes; sdSuffix : bytes; sdID : bytes; sdTail : bytes; sdLines : list bytes }.
Definition sdoc_body (d : sdoc) : bytes := concat (map line (sdLines d)).
Definition sdoc_text (d : sdoc) : bytes :=
  line (list_ascii_of_string "--- !" ++ sdHandle d ++ "!" :: sdSuffix d ++ list_ascii_of_string " &" ++ sdID d ++ sdTail d) ++ sdoc_body d.
Definition sdoc_ok (d : sdoc) : Prop :=
  word (sdHandle d) /\ ~ In "!" (sdHandle d) /\ word (sdSuffix d) /\ word (sdID d) /\ tail_of (sdTail d) /\ Forall plain_line (sdLines d).
Definition file_text (hs : list head_line) (ds : list sdoc) : bytes := concat (map head_text hs) ++ concat (map sdoc_text ds).
(** What a tag means: the last directive for its handle counts. *)
Definition meaning (hs : list head_line) (d : sdoc) (tag : bytes) : Prop :=
  (exists a b v t, hs = a ++ Directive (sdHandle d) v t :: b /\ (forall v' t', ~ In (Directive (sdHandle d) v' t') b) /\ tag = v ++ sdSuffix d) \/
  ((forall v t, ~ In (Directive (sdHandle d) v t) hs) /\ tag = "!" :: sdHandle d ++ "!" :: sdSuffix d).
(** The last line of the file is at least three characters long, or belongs to the head of a document. *)
Definition long_end (ds : list sdoc) : Prop := forall a d, ds = a ++ [d] -> forall b l, sdLines d = b ++ [l] -> 3 <= length l.
