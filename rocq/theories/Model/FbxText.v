(** FBX text: [Node.Dump] and [Write] (fbx/fbx_node.go, fbx/fbx.go) and the text parser
    (fbx/text_parser.go).  Floating point values are bit patterns; how they are formatted
    and parsed is a parameter. *)
From Coq Require Import List ZArith Bool.
From Verif Require Import Model.Codec Model.Fbx.
Import ListNotations.
Local Open Scope Z_scope.
Local Open Scope list_scope.

(** *** Decimal numbers *)

(** The decimal digits of a natural number, most significant first; [fuel] bounds their
    number. *)
Fixpoint digits (fuel : nat) (n : Z) : bytes :=
  match fuel with
  | O => []
  | S f => if n <? 10 then [48 + n] else digits f (n / 10) ++ [48 + n mod 10]
  end.

(** [fmt.Sprint] of an integer of any width (fbx_node.go 272, 285, 290). *)
Definition show (z : Z) : bytes :=
  if z <? 0 then 45 :: digits (S (Z.to_nat (Z.log2 (- z)))) (- z)
  else digits (S (Z.to_nat (Z.log2 z))) z.

Definition is_digit (c : Z) : bool := (48 <=? c) && (c <=? 57).
Fixpoint digits_val (acc : Z) (s : bytes) : option Z :=
  match s with
  | [] => Some acc
  | c :: r => if is_digit c then digits_val (10 * acc + (c - 48)) r else None
  end.

(** [strconv.ParseInt(s, 10, bits)] (text_parser.go 118, 187).  A leading plus sign, which
    the tokenizer never produces, is not covered.  [None] is any error; the value that Go
    returns beside an error is not used here. *)
Definition parse_int (bits : Z) (s : bytes) : option Z :=
  let in_range v := if (- 2 ^ (bits - 1) <=? v) && (v <? 2 ^ (bits - 1)) then Some v else None in
  match s with
  | [] => None
  | c :: d =>
      if c =? 45
      then match d with
           | [] => None
           | _ => match digits_val 0 d with Some v => in_range (- v) | None => None end
           end
      else match digits_val 0 s with Some v => in_range v | None => None end
  end.

(** *** The tokenizer *)

(** [tokenType] (text_parser.go 10-22). *)
Inductive ttype : Type := TIdent | TNumber | TString | TOpen | TClose | TComma | TColon | TStar | TEol.

(** [textParser] (text_parser.go 24-29): pushed-back bytes, unread input and sticky error.
    The line number, used in messages only, is left out. *)
Record tst := mkT { t_buf : bytes; t_in : bytes; t_err : option ferr }.
Definition t_ok (s : tst) : bool := match t_err s with None => true | Some _ => false end.
(** [errorf] (text_parser.go 31-36): the first error stays. *)
Definition t_fail (e : ferr) (s : tst) : tst :=
  mkT (t_buf s) (t_in s) (match t_err s with None => Some e | x => x end).

(** [read] (text_parser.go 38-49): the pushed-back bytes first, then the reader unless an
    error is pending; 0 if there is nothing. *)
Definition t_read (s : tst) : Z * tst :=
  match t_buf s with
  | c :: b => (c, mkT b (t_in s) (t_err s))
  | [] =>
      match t_err s with
      | Some _ => (0, s)
      | None => match t_in s with
                | c :: r => (c, mkT [] r None)
                | [] => (0, mkT [] [] (Some EEof))
                end
      end
  end.
(** [p.buf = append(p.buf, c)] unless an error is pending (text_parser.go 79-81, 100-102):
    the byte goes behind the bytes that are still in [buf]. *)
Definition unread (c : Z) (s : tst) : tst :=
  if t_ok s then mkT (t_buf s ++ [c]) (t_in s) (t_err s) else s.

(** The loops [for f(c) && p.err == nil { buf = append(buf, c); c = p.read() }]
    (text_parser.go 58-60, 75-78, 90-93, 96-99): the bytes taken, the byte that ended the
    loop, and the state. *)
Fixpoint take_while (fuel : nat) (f : Z -> bool) (c : Z) (s : tst) : bytes * Z * tst :=
  match fuel with
  | O => ([], c, t_fail EFuel s)
  | S n =>
      if f c && t_ok s
      then let (c', s') := t_read s in
           let '(l, e, s2) := take_while n f c' s' in (c :: l, e, s2)
      else ([], c, s)
  end.
Definition room (s : tst) : nat := S (S (length (t_buf s) + length (t_in s))).

Definition num_start (c : Z) : bool := is_digit c || (c =? 46) || (c =? 45).
Definition num_char (c : Z) : bool := is_digit c || (c =? 46) || (c =? 101) || (c =? 45).
Definition id_start (c : Z) : bool := (65 <=? c) && (c <=? 122).
Definition id_char (c : Z) : bool := id_start c || is_digit c || (c =? 45).

(** [getToken] (text_parser.go 52-107).  The text of a punctuation token is the byte
    itself; a newline or comment has an empty text. *)
Fixpoint token (fuel : nat) (s : tst) : ttype * bytes * tst :=
  match fuel with
  | O => (TEol, [], t_fail EFuel s)
  | S n =>
      if negb (t_ok s) then (TEol, [], s) else
      let (c, s1) := t_read s in
      if c =? 59 then
        let '(_, _, s2) := take_while (room s1) (fun c => negb (c =? 10)) c s1 in (TEol, [], s2)
      else if c =? 123 then (TOpen, [c], s1)
      else if c =? 125 then (TClose, [c], s1)
      else if c =? 44 then (TComma, [c], s1)
      else if c =? 58 then (TColon, [c], s1)
      else if c =? 42 then (TStar, [c], s1)
      else if num_start c then
        let (c2, s2) := t_read s1 in
        let '(l, e, s3) := take_while (room s2) num_char c2 s2 in (TNumber, c :: l, unread e s3)
      else if c =? 10 then (TEol, [], s1)
      else if c =? 34 then
        let (c2, s2) := t_read s1 in
        let '(l, _, s3) := take_while (room s2) (fun c => negb (c =? 34)) c2 s2 in (TString, l, s3)
      else if id_start c then
        let '(l, e, s2) := take_while (room s1) id_char c s1 in (TIdent, l, unread e s2)
      else token n s1
  end.
Definition get_token (s : tst) : ttype * bytes * tst := token (room s) s.

Definition ttype_eqb (a b : ttype) : bool :=
  match a, b with
  | TIdent, TIdent | TNumber, TNumber | TString, TString | TOpen, TOpen | TClose, TClose
  | TComma, TComma | TColon, TColon | TStar, TStar | TEol, TEol => true
  | _, _ => false
  end.
(** [Skip] (text_parser.go 108-114). *)
Definition t_skip (t : ttype) (s : tst) : tst :=
  let '(t', _, s1) := get_token s in
  if negb (ttype_eqb t' t) then t_fail EOther s1 else s1.

Section Text.
(** [strconv.ParseFloat(s, 64)]: the value and whether the error is nil. *)
Variable parse_float : bytes -> Z * bool.
(** The conversion [int32(v)] of a float64. *)
Variable to_i32 : Z -> Z.
(** [fmt.Sprint] of a float32 and of a float64. *)
Variable fmt32 fmt64 : Z -> bytes.

Definition has_point (s : bytes) : bool := existsb (Z.eqb 46) s.

(** [for p.err == nil { if _, s := p.getToken(); s == ":" { break } }] (text_parser.go 123-127). *)
Fixpoint seek_colon (fuel : nat) (s : tst) : tst :=
  match fuel with
  | O => t_fail EFuel s
  | S n => if t_ok s
           then let '(_, x, s1) := get_token s in if beq x [58] then s1 else seek_colon n s1
           else s
  end.

(** The value loop of [parseArrayProp] (text_parser.go 130-145).  [i] is never advanced, so
    the loop only depends on whether the declared size is positive. *)
Fixpoint array_vals (fuel : nat) (s : tst) : list Z * bool * tst :=
  match fuel with
  | O => ([], false, t_fail EFuel s)
  | S n =>
      if t_ok s
      then let '(t, x, s1) := get_token s in
           match t with
           | TEol | TComma => array_vals n s1
           | TClose => ([], false, s1)
           | TNumber => let '(l, p, s2) := array_vals n s1 in
                        (fst (parse_float x) :: l, has_point x || p, s2)
           | _ => ([], false, t_fail EOther s1)
           end
      else ([], false, s)
  end.

(** [parseArrayProp] (text_parser.go 116-157).  A failed size is 0 or clamped by [ParseInt];
    since the error is pending nothing else is read, so 0 stands for it. *)
Definition parse_array (s : tst) : attr * tst :=
  let '(_, x, s1) := get_token s in
  let (size, s2) := match parse_int 32 x with Some v => (v, s1) | None => (0, t_fail EOther s1) end in
  let s3 := t_skip TOpen s2 in
  let s4 := seek_colon (room s3) s3 in
  let '(l, p, s5) := if 0 <? size then array_vals (room s4) s4 else ([], false, s4) in
  let s6 := if Z.of_nat (length l) =? size then s5 else t_fail EOther s5 in
  (if p then AF64s l else AI32s (map to_i32 l), s6).

(** [parseNodeList] (text_parser.go 159-210); [attr_loop] is the loop over the attributes
    of one node: the attributes, the children and the state. *)
Fixpoint node_list (fuel : nat) (s : tst) : list node * tst :=
  match fuel with
  | O => ([], t_fail EFuel s)
  | S n =>
      if negb (t_ok s) then ([], s) else
      let '(t, x, s1) := get_token s in
      match t with
      | TEol => node_list n s1
      | TClose => ([], s1)
      | TIdent =>
          let '(a, k, s2) := attr_loop n TColon (t_skip TColon s1) in
          let s3 := match t_err s2 with
                    | Some EEof => mkT (t_buf s2) (t_in s2) (Some EOther)
                    | _ => s2 end in
          let (l, s4) := node_list n s3 in
          (Node x a k :: l, s4)
      | _ => ([], t_fail EOther s1)
      end
  end
with attr_loop (fuel : nat) (prev : ttype) (s : tst) : list attr * list node * tst :=
  match fuel with
  | O => ([], [], t_fail EFuel s)
  | S n =>
      if negb (t_ok s) then ([], [], s) else
      let '(t, x, s1) := get_token s in
      if ttype_eqb t TEol && negb (ttype_eqb prev TComma) then ([], [], s1) else
      match t with
      | TOpen => let (k, s2) := node_list n s1 in ([], k, s2)
      | TNumber =>
          let '(v, s2) :=
            if has_point x
            then let (f, ok) := parse_float x in (AF64 f, if ok then s1 else t_fail EOther s1)
            else match parse_int 64 x with
                 | Some v => (AI64 v, s1)
                 | None => (AI64 0, t_fail EOther s1)
                 end in
          let '(a, k, s3) := attr_loop n t s2 in (v :: a, k, s3)
      | TString => let '(a, k, s3) := attr_loop n t s1 in (AStr x :: a, k, s3)
      | TStar =>
          let (v, s2) := parse_array s1 in
          let '(a, k, s3) := attr_loop n t s2 in (v :: a, k, s3)
      | _ => attr_loop n t s1
      end
  end.

(** [Parse] of the text parser (text_parser.go 212-223), started by the binary parser with
    the first 21 bytes in [buf] (binary_parser.go 240-244). *)
Definition parse_text (data : bytes) : fres :=
  let s0 := mkT (firstn 21 data) (skipn 21 data) None in
  let (l, s) := node_list (S (S (2 * length data))) s0 in
  match t_err s with
  | Some EFuel => FFuel
  | Some EOther => FErr
  | _ => FTree (Node root_name [] l)
  end.

(** [Parse] as a whole (binary_parser.go 237-261). *)
Definition parse_any (seek : option Z) (inflate : bytes -> Z -> Z * infl) (data : bytes) : fres :=
  match parse_fbx seek inflate data with
  | FText => parse_text data
  | r => r
  end.

(** *** The writer *)

(** [fmt.Sprintf] with [q] verb (fbx_node.go 268) on printable text: the quote, the backslash
    and control characters are escaped; bytes from 128 up are taken to belong to printable
    UTF-8 text, which Go leaves alone. *)
Definition hexd (n : Z) : Z := if n <? 10 then 48 + n else 87 + n.
Definition escape (c : Z) : bytes :=
  if c =? 34 then [92; 34]
  else if c =? 92 then [92; 92]
  else if c =? 7 then [92; 97] else if c =? 8 then [92; 98]
  else if c =? 12 then [92; 102] else if c =? 10 then [92; 110]
  else if c =? 13 then [92; 114] else if c =? 9 then [92; 116]
  else if c =? 11 then [92; 118]
  else if (c <? 32) || (c =? 127) then [92; 120; hexd (c / 16); hexd (c mod 16)]
  else [c].
Definition go_quote (s : bytes) : bytes := [34] ++ flat_map escape s ++ [34].

(** [strings.SplitN(v, NUL SOH, 2)] (fbx_node.go 264). *)
Fixpoint split01 (s : bytes) : option (bytes * bytes) :=
  match s with
  | [] => None
  | c :: r =>
      match c, r with
      | 0, 1 :: r' => Some ([], r')
      | _, _ => match split01 r with Some (a, b) => Some (c :: a, b) | None => None end
      end
  end.

(** [fmt.Sprint] of a slice: the elements between brackets, separated by spaces. *)
Fixpoint spaced (l : list bytes) : bytes :=
  match l with [] => [] | [x] => x | x :: r => x ++ [32] ++ spaced r end.
Definition slice (l : list bytes) : bytes := [91] ++ spaced l ++ [93].

(** [Attribute.String] (fbx_node.go 261-274).  A nil attribute, which would crash, is only
    produced by a failing parser, whose tree is discarded; it has an empty text here. *)
Definition attr_text (a : attr) : bytes :=
  match a with
  | AStr s => go_quote (match split01 s with Some (x, y) => y ++ [58; 58] ++ x | None => s end)
  | ARaw s => [34] ++ slice (map show s) ++ [34]
  | AI8 v | AU8 v | AI16 v | AI32 v | AI64 v | AInt v => show v
  | AF32 b => fmt32 b
  | AF64 b => fmt64 b
  | AI8s l | AI16s l | AI32s l | AI64s l => slice (map show l)
  | AF32s l => slice (map fmt32 l)
  | AF64s l => slice (map fmt64 l)
  | ANil => []
  end.

(** [Attribute.Len] (fbx_node.go 147-153). *)
Definition attr_len (a : attr) : Z :=
  match a with
  | ARaw l | AI8s l | AI16s l | AI32s l | AI64s l | AF32s l | AF64s l => Z.of_nat (length l)
  | _ => 0
  end.

Definition indent (d : nat) : bytes := repeat 32 (2 * d).
(** [arrayReplacer] (fbx_node.go 279). *)
Definition replace1 (d : nat) (c : Z) : bytes :=
  if c =? 91 then [123; 10; 32; 32; 32; 32; 32; 32; 97; 58]
  else if c =? 93 then [10] ++ indent d ++ [125]
  else if c =? 32 then [44; 32]
  else [c].

(** The attributes of one node (fbx_node.go 280-294). *)
Fixpoint dump_attrs (d : nat) (full : bool) (first : bool) (l : list attr) : bytes :=
  match l with
  | [] => []
  | a :: r =>
      (if negb full && (16 <? attr_len a)
       then [32; 42] ++ show (attr_len a) ++ [32; 123; 32; 83; 75; 73; 80; 80; 69; 68; 32; 125]
       else (if first then [32] else [44; 32]) ++
            (if 0 <? attr_len a
             then [42] ++ show (attr_len a) ++ [32] ++ flat_map (replace1 d) (attr_text a)
             else attr_text a))
      ++ dump_attrs d full false r
  end.

(** [Dump] (fbx_node.go 277-304). *)
Fixpoint dump (full : bool) (d : nat) (n : node) {struct n} : bytes :=
  let 'Node nm at' ks := n in
  indent d ++ nm ++ [58] ++ dump_attrs d full true at' ++
  match ks, at' with
  | [], _ :: _ => [10]
  | _, _ => [32; 123; 10] ++ flat_map (dump full (S d)) ks ++ indent d ++ [125; 10]
  end.

End Text.

(** The three comment lines and the empty line [Write] starts with (fbx.go 40-43). *)
Definition header1 : bytes :=
  [59; 32; 70; 66; 88; 32; 55; 46; 53; 46; 48; 32; 112; 114; 111; 106; 101; 99; 116; 32; 102; 105; 108; 101; 10].
Definition header2 : bytes :=
  [59; 32; 71; 101; 110; 101; 114; 97; 116; 111; 114; 58; 32; 104; 116; 116; 112; 115; 58; 47; 47; 103; 105; 116;
   104; 117; 98; 46; 99; 111; 109; 47; 98; 105; 110; 122; 117; 109; 101; 47; 109; 111; 100; 101; 108; 99; 111;
   110; 118; 10].
Definition header3 : bytes := [59; 32] ++ repeat 45 47 ++ [10].
Definition file_id : bytes := [70; 105; 108; 101; 73; 100].

(** [Write] (fbx.go 39-50). *)
Definition write_text (fmt32 fmt64 : Z -> bytes) (root : node) : bytes :=
  header1 ++ header2 ++ header3 ++ [10] ++
  flat_map (dump fmt32 fmt64 true 0) (filter (fun n => negb (beq (node_name n) file_id)) (node_kids root)).
