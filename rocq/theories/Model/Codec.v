(** Little-endian byte streams: [encoding/binary] as used by [mmd/base_parser.go] and
    [mmd/pmx_writer.go].  A byte is a [Z] in 0..255, a byte string a [list Z]. *)
From Coq Require Import List ZArith Bool.
Import ListNotations.
Open Scope Z_scope.

Definition bytes := list Z.

(** Little-endian encoding of the low [8*k] bits of [v] (two's complement for negative
    [v]); this is what [binary.Write] emits after a Go integer conversion such as
    [int8(v)], [uint16(v)], [int32(v)]. *)
Fixpoint le_enc (k : nat) (v : Z) : bytes :=
  match k with
  | O => []
  | S k' => v mod 256 :: le_enc k' (v / 256)
  end.

Fixpoint le_dec (bs : bytes) : Z :=
  match bs with
  | [] => 0
  | b :: r => b + 256 * le_dec r
  end.

(** Reinterpret an unsigned [8*k]-bit value as signed. *)
Definition to_signed (k : nat) (u : Z) : Z :=
  if u <? 2 ^ (8 * Z.of_nat k - 1) then u else u - 2 ^ (8 * Z.of_nat k).

(** Outcome of running a parser: a value and the unread bytes; an [error] return; a
    [log.Fatal] (message and process exit); or a run-time panic. *)
Inductive res (A : Type) : Type :=
| ROk (a : A) (rest : bytes)
| RErr
| RFatal
| RPanic.
Arguments ROk {A} a rest.
Arguments RErr {A}.
Arguments RFatal {A}.
Arguments RPanic {A}.

Definition P (A : Type) : Type := bytes -> res A.
Definition ret {A} (a : A) : P A := fun bs => ROk a bs.
Definition bind {A B} (p : P A) (k : A -> P B) : P B := fun bs =>
  match p bs with
  | ROk a r => k a r
  | RErr => RErr
  | RFatal => RFatal
  | RPanic => RPanic
  end.
Definition fatal {A} : P A := fun _ => RFatal.
Definition panic {A} : P A := fun _ => RPanic.
Definition perr {A} : P A := fun _ => RErr.

Declare Scope parser_scope.
Delimit Scope parser_scope with parser.
Notation "x <- p ;; k" := (bind p (fun x => k))
  (at level 61, p at next level, right associativity) : parser_scope.
Notation "' pat <- p ;; k" := (bind p (fun x => match x with pat => k end))
  (at level 61, pat pattern, p at next level, right associativity) : parser_scope.

(** [io.ReadFull] of [k] bytes: [Some] of the bytes, or [None] when fewer remain (the
    remaining ones are consumed).  A zero-length read always succeeds. *)
Definition read_full (k : nat) : P (option bytes) := fun bs =>
  if (k <=? length bs)%nat then ROk (Some (firstn k bs)) (skipn k bs)
  else ROk None [].

(** [binary.Read] of an unsigned little-endian integer of [k] bytes into a zero-initialised
    variable, the error being ignored: on a short read the variable stays 0. *)
Definition read_u (k : nat) : P Z :=
  bind (read_full k) (fun o => ret (match o with Some b => le_dec b | None => 0 end)).
(** The same, reporting whether the read failed. *)
Definition read_u_err (k : nat) : P (Z * bool) :=
  bind (read_full k) (fun o => ret (match o with Some b => (le_dec b, false) | None => (0, true) end)).

(** [binary.Read] of [k] raw bytes into a zeroed buffer, error ignored. *)
Definition read_raw (k : nat) : P bytes :=
  bind (read_full k) (fun o => ret (match o with Some b => b | None => repeat 0 k end)).

(** Run a parser [n] times, collecting the results in order. *)
Fixpoint repeatP {A} (n : nat) (p : P A) : P (list A) :=
  match n with
  | O => ret []
  | S n' => bind p (fun a => bind (repeatP n' p) (fun l => ret (a :: l)))
  end.

(** Writers: [None] is a run-time panic. *)
Definition W : Type := option bytes.
Definition wseq (a b : W) : W :=
  match a, b with Some x, Some y => Some (x ++ y) | _, _ => None end.
Notation "a +++ b" := (wseq a b) (at level 60, right associativity).
Definition wlist {A} (f : A -> W) (l : list A) : W :=
  fold_right (fun a w => f a +++ w) (Some []) l.
