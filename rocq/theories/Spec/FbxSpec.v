(** The byte layout of binary FBX files: node records with absolute end offsets, in the
    32-bit and (version 7500 and later) 64-bit form. *)
From Coq Require Import List ZArith Bool.
From Verif.Model Require Import Codec Fbx.
Import ListNotations.
Local Open Scope Z_scope.

(** [v] as [k] bytes, least significant first; negative numbers in two's complement. *)
Definition le (k : nat) (v : Z) : bytes := map (fun i => v / 256 ^ Z.of_nat i mod 256) (seq 0 k).
Definition fits_u (k : nat) (v : Z) : Prop := 0 <= v < 256 ^ Z.of_nat k.
Definition fits_s (k : nat) (v : Z) : Prop := - (256 ^ Z.of_nat k) <= 2 * v < 256 ^ Z.of_nat k.
Definition len (b : bytes) : Z := Z.of_nat (length b).

(** Array attributes: type letter, bytes per element, elements, element range. *)
Definition array_of (a : attr) : option (Z * nat * list Z * (Z -> Prop)) :=
  match a with
  | AI8s l => Some (98, 1%nat, l, fits_s 1)
  | AI16s l => Some (121, 2%nat, l, fits_s 2)
  | AI32s l => Some (105, 4%nat, l, fits_s 4)
  | AI64s l => Some (108, 8%nat, l, fits_s 8)
  | AF32s l => Some (102, 4%nat, l, fits_u 4)
  | AF64s l => Some (100, 8%nat, l, fits_u 8)
  | _ => None
  end.

Section Layout.
(** [packed payload raw]: the zlib stream [payload] holds exactly the bytes [raw]. *)
Variable packed : bytes -> bytes -> Prop.

Inductive attr_at : attr -> bytes -> Prop :=
| at_B v : fits_s 1 v -> attr_at (AI8 v) (66 :: le 1 v)
| at_C v : fits_u 1 v -> attr_at (AU8 v) (67 :: le 1 v)
| at_Y v : fits_s 2 v -> attr_at (AI16 v) (89 :: le 2 v)
| at_I v : fits_s 4 v -> attr_at (AI32 v) (73 :: le 4 v)
| at_L v : fits_s 8 v -> attr_at (AI64 v) (76 :: le 8 v)
| at_F v : fits_u 4 v -> attr_at (AF32 v) (70 :: le 4 v)
| at_D v : fits_u 8 v -> attr_at (AF64 v) (68 :: le 8 v)
| at_S s : fits_u 4 (len s) -> attr_at (AStr s) (83 :: le 4 (len s) ++ s)
| at_R s : fits_u 4 (len s) -> attr_at (ARaw s) (82 :: le 4 (len s) ++ s)
| at_raw a typ w l inr : array_of a = Some (typ, w, l, inr) ->
    fits_u 4 (Z.of_nat (length l)) -> Forall inr l -> fits_u 4 (len (flat_map (le w) l)) ->
    attr_at a (typ :: le 4 (Z.of_nat (length l)) ++ le 4 0 ++ le 4 (len (flat_map (le w) l)) ++ flat_map (le w) l)
| at_zip a typ w l inr payload : array_of a = Some (typ, w, l, inr) ->
    fits_u 4 (Z.of_nat (length l)) -> Forall inr l -> fits_u 4 (len payload) ->
    packed payload (flat_map (le w) l) ->
    attr_at a (typ :: le 4 (Z.of_nat (length l)) ++ le 4 1 ++ le 4 (len payload) ++ payload).

(** [wide]: the 64-bit form.  Width of a header number and the null record ending a list of
    children. *)
Definition num_w (wide : bool) : nat := if wide then 8%nat else 4%nat.
Definition null_record (wide : bool) : bytes := repeat 0 (3 * num_w wide + 1).
(** End offsets are 32-bit unsigned or 64-bit signed. *)
Definition offset_ok (wide : bool) (z : Z) : Prop := if wide then 0 <= z < 2 ^ 63 else 0 <= z < 2 ^ 32.

Inductive attrs_at : list attr -> bytes -> Prop :=
| ats_nil : attrs_at [] []
| ats_cons a l b bl : attr_at a b -> attrs_at l bl -> attrs_at (a :: l) (b ++ bl).

(** [node_at wide base n bytes]: [bytes] is a record for [n] starting at file offset
    [base].  The null record may follow the children or be left out. *)
Inductive node_at (wide : bool) : Z -> node -> bytes -> Prop :=
| na_node base name attrs kids ab kb term fin :
    len name < 256 -> attrs_at attrs ab ->
    nodes_at wide (base + Z.of_nat (3 * num_w wide + 1) + len name + len ab) kids kb ->
    (term = [] \/ term = null_record wide) ->
    fin = base + Z.of_nat (3 * num_w wide + 1) + len name + len ab + len kb + len term ->
    offset_ok wide fin ->
    node_at wide base (Node name attrs kids)
      (le (num_w wide) fin ++ le (num_w wide) (Z.of_nat (length attrs)) ++ le (num_w wide) (len ab) ++
       le 1 (len name) ++ name ++ ab ++ kb ++ term)
with nodes_at (wide : bool) : Z -> list node -> bytes -> Prop :=
| nas_nil base : nodes_at wide base [] []
| nas_cons base n l b bl : node_at wide base n b -> nodes_at wide (base + len b) l bl ->
    nodes_at wide base (n :: l) (b ++ bl).

(** A whole file up to (and possibly including) the null record after the last node; [res]
    are the two bytes before the version. *)
Definition file_head (res : bytes) (ver : Z) : bytes :=
  [75; 97; 121; 100; 97; 114; 97; 32; 70; 66; 88; 32; 66; 105; 110; 97; 114; 121; 32; 32; 0] ++ res ++ le 4 ver.
Inductive file_at : Z -> list node -> bytes -> Prop :=
| fa_file ver kids res kb term :
    length res = 2%nat -> fits_u 4 ver ->
    nodes_at (7500 <=? ver) 27 kids kb ->
    (term = [] \/ term = null_record (7500 <=? ver)) ->
    file_at ver kids (file_head res ver ++ kb ++ term).
End Layout.

(** A zlib stream from which the library delivers exactly [raw].  On a plain reader
    ([seek = None]) it must moreover have consumed the whole stream when it returns. *)
Definition unpacks (seek : option Z) (inflate : bytes -> Z -> Z * infl) (payload raw : bytes) : Prop :=
  exists used, inflate payload (len raw) = (used, InfOk raw) /\
  match seek with
  | Some _ => True
  | None => used = len payload
  end.

(** Attributes the binary format can hold. *)
Definition attr_ok (a : attr) : Prop :=
  match a with
  | AI8 v => fits_s 1 v | AU8 v => fits_u 1 v | AI16 v => fits_s 2 v | AI32 v => fits_s 4 v
  | AI64 v => fits_s 8 v | AF32 v => fits_u 4 v | AF64 v => fits_u 8 v
  | AStr s | ARaw s => fits_u 4 (len s)
  | AInt _ | ANil => False
  | _ => match array_of a with
         | Some (_, w, l, range) => Forall range l /\ fits_u 4 (Z.of_nat (length l)) /\ fits_u 4 (len (flat_map (le w) l))
         | None => False
         end
  end.
Fixpoint tree_ok (n : node) : Prop :=
  let 'Node name attrs kids := n in
  len name < 256 /\ Forall attr_ok attrs /\
  (fix go (l : list node) : Prop := match l with [] => True | k :: r => tree_ok k /\ go r end) kids.

(** The tree a file stands for: the parser wraps the top-level nodes in a node called
    _FBX_ROOT. *)
Definition tree_of (kids : list node) : node :=
  Node [95; 70; 66; 88; 95; 82; 79; 79; 84] [] kids.

(** The footer that follows the last null record (as Blender and the FBX SDK write it): an
    identification, zero padding to a multiple of 16 bytes, the version again, 120 zero
    bytes and a closing identification. *)
Definition footer (pad : nat) (ver : Z) : bytes :=
  [250; 188; 171; 9; 208; 200; 212; 102; 177; 118; 251; 131; 28; 247; 38; 126] ++
  repeat 0 (4 + pad) ++ le 4 ver ++ repeat 0 120 ++
  [248; 90; 140; 106; 222; 245; 217; 126; 236; 233; 12; 227; 117; 143; 41; 11].
