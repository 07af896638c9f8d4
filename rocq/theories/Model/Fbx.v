(** FBX node trees and the binary parser: [fbx/fbx_node.go], [fbx/binary_parser.go].
    Floating point attributes are bit patterns. *)
From Coq Require Import String List ZArith Bool.
From Verif Require Import Model.Codec.
Import ListNotations.
Local Open Scope Z_scope.
Local Open Scope list_scope.

(** [Attribute.Value interface{}] by dynamic type (fbx_node.go 116-118).  [AInt] is Go's
    [int], which only [NewNode] calls in this package produce; [ANil] is a nil
    [*Attribute]. *)
Inductive attr : Type :=
| AI8 (v : Z) | AU8 (v : Z) | AI16 (v : Z) | AI32 (v : Z) | AI64 (v : Z) | AInt (v : Z)
| AF32 (b : Z) | AF64 (b : Z)
| AStr (s : bytes) | ARaw (s : bytes)
| AI8s (l : list Z) | AI16s (l : list Z) | AI32s (l : list Z) | AI64s (l : list Z)
| AF32s (l : list Z) | AF64s (l : list Z)
| ANil.

(** [Node] (fbx_node.go 12-16); the children are owned by one parent in every tree the
    parsers build. *)
Inductive node : Type := Node (name : bytes) (attrs : list attr) (kids : list node).

Definition node_name (n : node) := let 'Node nm _ _ := n in nm.
Definition node_attrs (n : node) := let 'Node _ a _ := n in a.
Definition node_kids (n : node) := let 'Node _ _ k := n in k.

(** The errors [binaryParser.err] can hold, as far as the code distinguishes them:
    [io.EOF] and all others.  [EFuel] is the model's own recursion bound. *)
Inductive ferr : Type := EEof | EOther | EFuel.

(** [positionReader] and [binaryParser.err] (binary_parser.go 13-16, 38-42): the bytes the
    underlying reader has not delivered, the [position] counter, and the sticky error. *)
Record rdst := mkR { r_rest : bytes; r_pos : Z; r_err : option ferr }.

Definition M (A : Type) : Type := rdst -> A * rdst.
Definition mret {A} (a : A) : M A := fun s => (a, s).
Definition mbind {A B} (p : M A) (k : A -> M B) : M B := fun s => let (a, s') := p s in k a s'.
Declare Scope fbx_scope.
Delimit Scope fbx_scope with fbx.
Notation "x <- p ;; k" := (mbind p (fun x => k))
  (at level 61, p at next level, right associativity) : fbx_scope.

(** [l[n:]] and [l[:n]] for a count that may be far larger than the list. *)
Fixpoint skipZ (n : Z) (l : bytes) : bytes :=
  match l with
  | [] => []
  | b :: r => if n <=? 0 then l else skipZ (n - 1) r
  end.
Fixpoint takeZ (n : Z) (l : bytes) : bytes :=
  match l with
  | [] => []
  | b :: r => if n <=? 0 then [] else b :: takeZ (n - 1) r
  end.

Definition blen (l : bytes) : Z := Z.of_nat (length l).

(** [p.read(v)] of [k] bytes into zeroed memory (binary_parser.go 18-22, 44-49):
    [binary.Read] is [io.ReadFull]: nothing at all when an error is pending, [io.EOF] if no
    byte was left, [io.ErrUnexpectedEOF] after a partial read, memory untouched on error. *)
Definition get (k : Z) : M bytes := fun s =>
  match r_err s with
  | Some _ => (repeat 0 (Z.to_nat k), s)
  | None =>
      if k <=? blen (r_rest s)
      then (takeZ k (r_rest s), mkR (skipZ k (r_rest s)) (r_pos s + k) None)
      else (repeat 0 (Z.to_nat k),
            mkR [] (r_pos s + blen (r_rest s))
                (Some match r_rest s with [] => EEof | _ => EOther end))
  end.

(** [readUint8] .. [readFloat64] (binary_parser.go 51-92). *)
Definition rd_u (k : nat) : M Z := (b <- get (Z.of_nat k) ;; mret (le_dec b))%fbx.
Definition rd_s (k : nat) : M Z := (b <- get (Z.of_nat k) ;; mret (to_signed k (le_dec b)))%fbx.
(** [readName] (binary_parser.go 100-102). *)
Definition rd_name : M bytes := (n <- rd_u 1 ;; get n)%fbx.

Definition set_err (e : ferr) : M unit := fun s => (tt, mkR (r_rest s) (r_pos s) (Some e)).

(** [n] elements of [w] bytes. *)
Fixpoint chunks (n : nat) (w : nat) (b : bytes) : list Z :=
  match n with
  | O => []
  | S n' => le_dec (firstn w b) :: chunks n' w (skipn w b)
  end.

(** What reading [want] bytes out of a zlib stream does (an external library): [NewReader]
    fails; or [binary.Read] fails (with [io.EOF] when the stream holds no data); or the bytes.  The first component says how many bytes
    were taken from the (limited) source, which [bufio] and the decompressor decide. *)
Inductive infl : Type := InfHeader | InfErr (eof : bool) | InfOk (b : bytes).

Section Parser.
(** [None]: the source is a plain [io.Reader]; [Some m]: it is an [io.Seeker] that accepts
    offsets up to [m] (operating systems reject absurd offsets). *)
Variable seek : option Z.
Variable inflate : bytes -> Z -> Z * infl.

(** [SkipTo] (binary_parser.go 24-36).  On a plain reader the skipped bytes go through
    [r.Read], which adds them to [position] a second time.  A failed [Seek] leaves the file
    offset alone; after it the model's [r_pos] and offset may differ, but every caller then
    stops (in [readPropArray], whose target is below 2^32 past the current position, the
    model does not follow a file system that small). *)
Definition skip_to (pos : Z) : M (option ferr) := fun s =>
  let off := pos - r_pos s in
  if off <? 0 then (Some EOther, s)
  else match seek with
       | Some m =>
           if pos <=? m then (None, mkR (skipZ off (r_rest s)) pos (r_err s))
           else (Some EOther, mkR (r_rest s) pos (r_err s))
       | None =>
           let n := Z.min off (blen (r_rest s)) in
           (if blen (r_rest s) <? off then Some EEof else None,
            mkR (skipZ off (r_rest s)) (pos + n) (r_err s))
       end.

(** Element width and constructor of an array type code (binary_parser.go 108-123). *)
Definition arr_kind (typ : Z) : option (nat * (list Z -> attr)) :=
  if typ =? 98 then Some (1%nat, fun l => AI8s (map (to_signed 1) l))
  else if typ =? 121 then Some (2%nat, fun l => AI16s (map (to_signed 2) l))
  else if typ =? 105 then Some (4%nat, fun l => AI32s (map (to_signed 4) l))
  else if typ =? 108 then Some (8%nat, fun l => AI64s (map (to_signed 8) l))
  else if typ =? 102 then Some (4%nat, AF32s)
  else if typ =? 100 then Some (8%nat, AF64s)
  else None.

(** The compressed branch of [readPropArray] (binary_parser.go 127-139): note that it reads
    from the source even when an error is pending, and that the error of [SkipTo] is
    dropped. *)
Definition rd_inflate (sz want : Z) : M bytes := fun s =>
  let next := r_pos s + sz in
  let lim := takeZ sz (r_rest s) in
  let (used, out) := inflate lim want in
  let k := Z.max 0 (Z.min used (blen lim)) in
  let s1 := mkR (skipZ k (r_rest s)) (r_pos s + k) (r_err s) in
  match out with
  | InfHeader => (repeat 0 (Z.to_nat want), mkR (r_rest s1) (r_pos s1) (Some EOther))
  | InfErr eof =>
      let e := if eof then EEof else EOther in
      let s2 := mkR (r_rest s1) (r_pos s1)
                    (match r_err s1 with None => Some e | Some e0 => Some e0 end) in
      (repeat 0 (Z.to_nat want), snd (skip_to next s2))
  | InfOk b => (b, snd (skip_to next s1))
  end.

(** [readPropArray] (binary_parser.go 104-141).  Allocation of the buffer is taken to
    succeed. *)
Definition rd_array (typ : Z) : M attr :=
  (count <- rd_u 4 ;;
   enc <- rd_u 4 ;;
   sz <- rd_u 4 ;;
   match arr_kind typ with
   | None => mret ANil
   | Some (w, mk) =>
       b <- (if enc =? 0 then get (count * Z.of_nat w)
             else rd_inflate sz (count * Z.of_nat w)) ;;
       mret (mk (chunks (Z.to_nat count) w b))
   end)%fbx.

(** [readProp] (binary_parser.go 143-182). *)
Definition rd_prop : M attr :=
  (typ <- rd_u 1 ;;
   if typ =? 66 then v <- rd_s 1 ;; mret (AI8 v)
   else if typ =? 67 then v <- rd_u 1 ;; mret (AU8 v)
   else if typ =? 89 then v <- rd_s 2 ;; mret (AI16 v)
   else if typ =? 73 then v <- rd_s 4 ;; mret (AI32 v)
   else if typ =? 76 then v <- rd_s 8 ;; mret (AI64 v)
   else if typ =? 70 then v <- rd_u 4 ;; mret (AF32 v)
   else if typ =? 68 then v <- rd_u 8 ;; mret (AF64 v)
   else if typ =? 83 then n <- rd_u 4 ;; b <- get n ;; mret (AStr b)
   else if typ =? 82 then n <- rd_u 4 ;; b <- get n ;; mret (ARaw b)
   else match arr_kind typ with
        | Some _ => rd_array typ
        | None => _ <- set_err EOther ;; mret ANil
        end)%fbx.

Definition no_error (s : rdst) : bool := match r_err s with None => true | _ => false end.
(** [p.err != nil && p.err != io.EOF]. *)
Definition bad_error (s : rdst) : bool :=
  match r_err s with None | Some EEof => false | _ => true end.

(** The property loop of [readNode] (binary_parser.go 210-216).  The fuel is spent one per
    property. *)
Fixpoint rd_props (fuel : nat) (nprop : Z) (s : rdst) : list attr * rdst :=
  match fuel with
  | O => ([], mkR (r_rest s) (r_pos s) (Some EFuel))
  | S f =>
      if (0 <? nprop) && no_error s
      then let (a, s1) := rd_prop s in
           let (l, s2) := rd_props f (nprop - 1) s1 in
           (a :: l, s2)
      else ([], s)
  end.

(** The node header (binary_parser.go 186-200): end offset, property count, property bytes,
    name.  The counts are [int64]s in both formats. *)
Definition rd_header (ver : Z) : M (Z * Z * Z * bytes) :=
  (h <- (if 7500 <=? ver
         then next <- rd_s 8 ;; nprop <- rd_s 8 ;; propsz <- rd_s 8 ;; mret (next, nprop, propsz)
         else next <- rd_u 4 ;; nprop <- rd_u 4 ;; propsz <- rd_u 4 ;; mret (next, nprop, propsz)) ;;
   name <- rd_name ;;
   mret (h, name))%fbx.

(** [uint64(nprop)*2 > uint64(propsz)] (binary_parser.go 202). *)
Definition u64 (z : Z) : Z := z mod 2 ^ 64.
Definition invalid (nprop propsz : Z) : bool := u64 propsz <? u64 (u64 nprop * 2).

Definition cons_opt {A} (o : option A) (l : list A) : list A :=
  match o with Some a => a :: l | None => l end.

(** [readNode] and its child loop (binary_parser.go 184-235).  In the "invalid node" branch
    [p.err] is overwritten by the outcome of [SkipTo]. *)
Fixpoint rd_node (fuel : nat) (ver : Z) (s : rdst) {struct fuel} : option node * rdst :=
  match fuel with
  | O => (None, mkR (r_rest s) (r_pos s) (Some EFuel))
  | S f =>
      let '((next, nprop, propsz, name), s1) := rd_header ver s in
      if invalid nprop propsz then
        let (e, s2) := skip_to next s1 in
        (None, mkR (r_rest s2) (r_pos s2) e)
      else if next =? 0 then (None, s1)
      else
        let (attrs, s2) := rd_props (S (length (r_rest s1)) + 1) nprop s1 in
        if bad_error s2 then (None, s2)
        else
          let (kids, s3) := rd_kids f ver next s2 in
          let s4 := match r_err s3 with
                    | None => let (e, s') := skip_to next s3 in mkR (r_rest s') (r_pos s') e
                    | Some _ => s3
                    end in
          if bad_error s4 then (None, s4) else (Some (Node name attrs kids), s4)
  end
with rd_kids (fuel : nat) (ver : Z) (next : Z) (s : rdst) {struct fuel} : list node * rdst :=
  match fuel with
  | O => ([], mkR (r_rest s) (r_pos s) (Some EFuel))
  | S f =>
      if (r_pos s <? next) && no_error s
      then let (c, s1) := rd_node f ver s in
           let (l, s2) := rd_kids f ver next s1 in
           (cons_opt c l, s2)
      else ([], s)
  end.

(** The top-level loop of [Parse] (binary_parser.go 251-256). *)
Fixpoint rd_top (fuel : nat) (ver : Z) (s : rdst) : list node * rdst :=
  match fuel with
  | O => ([], mkR (r_rest s) (r_pos s) (Some EFuel))
  | S f =>
      if no_error s
      then let (c, s1) := rd_node f ver s in
           let (l, s2) := rd_top f ver s1 in
           (cons_opt c l, s2)
      else ([], s)
  end.

(** The outcome of [Parse]: an error, a tree, or "starts with a semicolon, so the text
    parser takes over" (fbx/text_parser.go, modelled separately). *)
Inductive fres : Type := FErr | FFuel | FTree (root : node) | FText.

(** "Kaydara FBX Binary  \x00" and "_FBX_ROOT". *)
Definition magic : bytes :=
  [75; 97; 121; 100; 97; 114; 97; 32; 70; 66; 88; 32; 66; 105; 110; 97; 114; 121; 32; 32; 0].
Definition root_name : bytes := [95; 70; 66; 88; 95; 82; 79; 79; 84].

Fixpoint beq (a b : bytes) : bool :=
  match a, b with
  | [], [] => true
  | x :: a', y :: b' => (x =? y) && beq a' b'
  | _, _ => false
  end.

(** [Parse] (binary_parser.go 237-261). *)
Definition parse_fbx (data : bytes) : fres :=
  let (m, s1) := get 21 (mkR data 0 None) in
  if negb (beq m magic)
  then match m with 59 :: _ => FText | _ => FErr end
  else
    let (_, s2) := rd_u 2 s1 in
    let (ver, s3) := rd_u 4 s2 in
    let (kids, s4) := rd_top (length data + 4) ver s3 in
    match r_err s4 with
    | None | Some EEof => FTree (Node root_name [] kids)
    | Some EFuel => FFuel
    | Some EOther => FErr
    end.

End Parser.
