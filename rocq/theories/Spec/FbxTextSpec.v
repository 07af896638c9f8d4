(** What FBX text says about the nodes it was written from: the attribute values a reader
    gets back, stated without the tokenizer or the writer. *)
From Coq Require Import List ZArith Bool.
From Verif Require Import Model.Codec Model.Fbx.
Import ListNotations.
Local Open Scope Z_scope.
Local Open Scope list_scope.

Definition digit_char (c : Z) : Prop := 48 <= c <= 57.
Definition letter (c : Z) : Prop := 65 <= c <= 90 \/ 97 <= c <= 122 \/ c = 95.

(** Node names: a letter or underscore, then letters, digits, underscores and hyphens. *)
Definition ident (nm : bytes) : Prop :=
  exists c r, nm = c :: r /\ letter c /\ Forall (fun c => letter c \/ digit_char c \/ c = 45) r.

(** Characters of a string that need no escaping. *)
Definition plain (c : Z) : Prop := 32 <= c <= 255 /\ c <> 34 /\ c <> 92 /\ c <> 127.

(** The text of a number without an exponent or with a negative one. *)
Definition number (s : bytes) : Prop :=
  exists c r, s = c :: r /\ (digit_char c \/ c = 45) /\
    Forall (fun c => digit_char c \/ c = 46 \/ c = 45 \/ c = 101) r.
Definition pointed (s : bytes) : Prop := In 46 s.

(** Decimal notation. *)
Definition horner (s : bytes) : Z := fold_left (fun a c => 10 * a + (c - 48)) s 0.
Definition decimal (s : bytes) (v : Z) : Prop :=
  s <> [] /\
  ((Forall digit_char s /\ v = horner s) \/
   (exists d, s = 45 :: d /\ d <> [] /\ Forall digit_char d /\ v = - horner d)).

Definition int32 (v : Z) : Prop := - 2 ^ 31 <= v < 2 ^ 31.
Definition int64 (v : Z) : Prop := - 2 ^ 63 <= v < 2 ^ 63.

(** A count of elements the array notation can hold. *)
Definition counted {A} (l : list A) : Prop := l <> [] /\ Z.of_nat (length l) < 2 ^ 31.

Section Reading.
Variable parse_float : bytes -> Z * bool.
Variable to_i32 : Z -> Z.
Variable fmt32 fmt64 : Z -> bytes.

(** [ParseFloat] followed by [int32] is exact on decimal notations of 32-bit integers. *)
Definition int_floats : Prop :=
  forall s v, decimal s v -> int32 v -> to_i32 (fst (parse_float s)) = v.

(** [reads_as a b]: attribute [a] is written as text that means attribute [b]. *)
Inductive reads_as : attr -> attr -> Prop :=
| ra_i8 v : int64 v -> reads_as (AI8 v) (AI64 v)
| ra_u8 v : int64 v -> reads_as (AU8 v) (AI64 v)
| ra_i16 v : int64 v -> reads_as (AI16 v) (AI64 v)
| ra_i32 v : int64 v -> reads_as (AI32 v) (AI64 v)
| ra_i64 v : int64 v -> reads_as (AI64 v) (AI64 v)
| ra_int v : int64 v -> reads_as (AInt v) (AI64 v)
| ra_f64 b x : number (fmt64 b) -> pointed (fmt64 b) -> parse_float (fmt64 b) = (x, true) ->
    reads_as (AF64 b) (AF64 x)
| ra_f32 b x : number (fmt32 b) -> pointed (fmt32 b) -> parse_float (fmt32 b) = (x, true) ->
    reads_as (AF32 b) (AF64 x)
| ra_f64_int b v : decimal (fmt64 b) v -> int64 v -> reads_as (AF64 b) (AI64 v)
| ra_f32_int b v : decimal (fmt32 b) v -> int64 v -> reads_as (AF32 b) (AI64 v)
| ra_str s : Forall plain s -> reads_as (AStr s) (AStr s)
| ra_class a b : Forall plain a -> Forall plain b ->
    reads_as (AStr (a ++ [0; 1] ++ b)) (AStr (b ++ [58; 58] ++ a))
| ra_raw_empty : reads_as (ARaw []) (AStr [91; 93])
| ra_i8s l : counted l -> Forall int32 l -> reads_as (AI8s l) (AI32s l)
| ra_i16s l : counted l -> Forall int32 l -> reads_as (AI16s l) (AI32s l)
| ra_i32s l : counted l -> Forall int32 l -> reads_as (AI32s l) (AI32s l)
| ra_i64s l : counted l -> Forall int32 l -> reads_as (AI64s l) (AI32s l)
| ra_f64s l xs : counted l -> Forall (fun b => number (fmt64 b)) l -> Exists (fun b => pointed (fmt64 b)) l ->
    Forall2 (fun b x => fst (parse_float (fmt64 b)) = x) l xs -> reads_as (AF64s l) (AF64s xs)
| ra_f32s l xs : counted l -> Forall (fun b => number (fmt32 b)) l -> Exists (fun b => pointed (fmt32 b)) l ->
    Forall2 (fun b x => fst (parse_float (fmt32 b)) = x) l xs -> reads_as (AF32s l) (AF64s xs)
| ra_f64s_int l vs : counted l -> Forall2 (fun b v => decimal (fmt64 b) v) l vs -> Forall int32 vs ->
    reads_as (AF64s l) (AI32s vs)
| ra_f32s_int l vs : counted l -> Forall2 (fun b v => decimal (fmt32 b) v) l vs -> Forall int32 vs ->
    reads_as (AF32s l) (AI32s vs).

(** Arrays without elements leave nothing behind. *)
Definition empty_array (a : attr) : Prop :=
  a = AI8s [] \/ a = AI16s [] \/ a = AI32s [] \/ a = AI64s [] \/ a = AF32s [] \/ a = AF64s [].

Inductive attrs_as : list attr -> list attr -> Prop :=
| aa_nil : attrs_as [] []
| aa_cons a b l l' : reads_as a b -> attrs_as l l' -> attrs_as (a :: l) (b :: l')
| aa_drop a l l' : empty_array a -> attrs_as l l' -> attrs_as (a :: l) l'.

Inductive tree_as : node -> node -> Prop :=
| ta_node nm a a' k k' : ident nm -> attrs_as a a' -> trees_as k k' -> tree_as (Node nm a k) (Node nm a' k')
with trees_as : list node -> list node -> Prop :=
| tas_nil : trees_as [] []
| tas_cons t t' l l' : tree_as t t' -> trees_as l l' -> trees_as (t :: l) (t' :: l').

(** Attributes and trees that text represents exactly. *)
Definition exact_attr (a : attr) : Prop :=
  match a with
  | AI64 v => int64 v
  | AF64 b => number (fmt64 b) /\ pointed (fmt64 b) /\ parse_float (fmt64 b) = (b, true)
  | AStr s => Forall plain s
  | AI32s l => counted l /\ Forall int32 l
  | AF64s l => counted l /\ Exists (fun b => pointed (fmt64 b)) l /\
               Forall (fun b => number (fmt64 b) /\ fst (parse_float (fmt64 b)) = b) l
  | _ => False
  end.
Inductive exact_tree : node -> Prop :=
| et_node nm a k : ident nm -> Forall exact_attr a -> Forall exact_tree k -> exact_tree (Node nm a k).

End Reading.

(** The top-level nodes that are saved: all but the node named FileId. *)
Definition saved (kids : list node) : list node :=
  filter (fun n => if list_eq_dec Z.eq_dec (node_name n) [70; 105; 108; 101; 73; 100] then false else true) kids.
