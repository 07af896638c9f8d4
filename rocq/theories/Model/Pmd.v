(** PMD models: [mmd/pmd_parser.go].

    The document type is that of PMX ([Model/Pmx.v]); floats are 32-bit patterns, texts byte
    lists.  Allocation failure for absurd element counts is not modelled. *)
From Coq Require Import List ZArith Bool Decimal DecimalNat.
From Verif.Model Require Import Num Vec Codec Pmx Vmd.
Import ListNotations.
Local Open Scope Z_scope.

(** [fmt.Sprintf] of a natural number in decimal *)
Fixpoint uint_bytes (d : uint) : bytes :=
  match d with
  | Nil => []
  | D0 r => 48 :: uint_bytes r | D1 r => 49 :: uint_bytes r | D2 r => 50 :: uint_bytes r
  | D3 r => 51 :: uint_bytes r | D4 r => 52 :: uint_bytes r | D5 r => 53 :: uint_bytes r
  | D6 r => 54 :: uint_bytes r | D7 r => 55 :: uint_bytes r | D8 r => 56 :: uint_bytes r
  | D9 r => 57 :: uint_bytes r
  end.
Definition dec (n : nat) : bytes := uint_bytes (Nat.to_uint n).
(** mmd/pmd_parser.go:59: "mat%d" of [i+1] *)
Definition mat_name (i : nat) : bytes := [109; 97; 116] ++ dec (S i).

(** "Pmd" *)
Definition pmd_magic : bytes := [80; 109; 100].
(** [strings.SplitN(s, "*", 2)] *)
Fixpoint split_star (s : bytes) : list bytes :=
  match s with
  | [] => [[]]
  | c :: r => if c =? 42 then [[]; r]
              else match split_star r with [] => [[c]] | x :: l => (c :: x) :: l end
  end.

Section Parser.
(** Shift-JIS decoding; [float32(b)/100], [1-w], [float32(b)] and [w < 1] on bit patterns. *)
Variable sjis : bytes -> bytes.
Variable fdiv100 : Z -> Z.
Variable fsub1 : Z -> Z.
Variable fofu8 : Z -> Z.
Variable flt1 : Z -> bool.
Local Open Scope parser_scope.

(** mmd/pmd_parser.go:24-29: as in the VMD parser *)
Definition pstring (len : nat) : P bytes := b <- read_raw len ;; ret (sjis (cut0 b)).
(** mmd/base_parser.go:60-77 with a constant size *)
Definition readS (k : nat) : P Z := v <- read_u k ;; ret (to_signed k v).

(** mmd/pmd_parser.go:45-56 *)
Definition pmd_vertex : P vertex :=
  p <- readVec3 ;; n <- readVec3 ;; uv <- read_raw 8 ;;
  b0 <- readS 2 ;; b1 <- readS 2 ;; w <- readUint8 ;; e <- readUint8 ;;
  ret (mkVertex p n (vec2_of uv) [] (fofu8 e) [b0; b1] [fdiv100 w; fsub1 (fdiv100 w)]).

(** mmd/pmd_parser.go:58-82: the material and the textures it appends; [nt] is the number of
    textures so far.  [MaterialFlagDoubleSided] is 1 (mmd/mmd.go:79-81). *)
Definition pmd_material (i nt : nat) : P (material * list bytes) :=
  c <- readVec4 ;; sy <- read_u 4 ;; sp <- readVec3 ;; ac <- readVec3 ;;
  toon <- readUint8 ;; e <- readUint8 ;; cnt <- readInt ;; t <- pstring 20 ;;
  let tex := split_star t in
  let has := match tex with (_ :: _) :: _ => true | _ => false end in
  ret (mkMaterial (mat_name i) [] c sp sy ac (if flt1 (qw c) then 1 else 0) (mkV4 0 0 0 0) (fofu8 e)
         (if has then Z.of_nat nt else -1) 0 0 0 toon [] cnt,
       if has then tex else []).
(** mmd/pmd_parser.go:146-150 *)
Fixpoint pmd_materials (n i : nat) (texs : list bytes) : P (list material * list bytes) :=
  match n with
  | O => ret ([], texs)
  | S n' => '(m, t) <- pmd_material i (length texs) ;;
            '(ms, texs') <- pmd_materials n' (S i) (texs ++ t) ;; ret (m :: ms, texs')
  end.

(** mmd/pmd_parser.go:84-97 *)
Definition pmd_bone : P bone :=
  name <- pstring 20 ;; parent <- readS 2 ;; tail <- readS 2 ;; _ <- readUint8 ;; _ <- read_u 2 ;;
  pos <- readVec3 ;;
  ret (mkBone name [] pos parent 0 0 (if tail =? 0 then -1 else tail) vec3_0 0 0 vec3_0 0 0 0 []).

(** mmd/pmd_parser.go:163-169 on the bone *)
Definition set_ik (b : bone) (target loop : Z) (links : list Z) : bone :=
  mkBone (b_name b) (b_name_en b) (b_pos b) (b_parent b) (b_layer b) (b_flags b) (b_tail_id b) (b_tail_pos b)
    (b_inherit_id b) (b_inherit_w b) (b_fixed_axis b) target loop (ik_limit b)
    (ik_links b ++ map (fun t => mkLink t false vec3_0 vec3_0) links).
Fixpoint upd {A} (l : list A) (i : nat) (f : A -> A) : list A :=
  match l, i with
  | [], _ => []
  | a :: r, O => f a :: r
  | a :: r, S i' => a :: upd r i' f
  end.
(** mmd/pmd_parser.go:161-171: [model.Bones[k]] panics when out of range *)
Definition pmd_ik (bones : list bone) : P (list bone) :=
  k <- read_u 2 ;;
  if (Z.to_nat k <? length bones)%nat then
    t <- readS 2 ;; ln <- readUint8 ;; loop <- read_u 2 ;; _ <- readFloat ;;
    links <- repeatP (Z.to_nat ln) (readS 2) ;;
    ret (upd bones (Z.to_nat k) (fun b => set_ik b t loop links))
  else panic.
Fixpoint pmd_iks (n : nat) (bones : list bone) : P (list bone) :=
  match n with
  | O => ret bones
  | S n' => b' <- pmd_ik bones ;; pmd_iks n' b'
  end.

(** mmd/pmd_parser.go:99-111; [MorphType] stays 0 *)
Definition pmd_morph : P morph :=
  name <- pstring 20 ;; n <- readInt ;; panel <- read_u 1 ;;
  vs <- repeatP (Z.to_nat n) (t <- readS 4 ;; o <- readVec3 ;; ret (mkMV t o)) ;;
  ret (mkMorph name [] panel 0 [] vs [] []).
(** mmd/pmd_parser.go:180-182: [None] is an index out of range *)
Definition base_target (base : list morph_vertex) (v : morph_vertex) : option morph_vertex :=
  if (0 <=? mv_target v) then
    match nth_error base (Z.to_nat (mv_target v)) with
    | Some b => Some (mkMV (mv_target b) (mv_offset v))
    | None => None
    end
  else None.
Fixpoint base_targets (base l : list morph_vertex) : option (list morph_vertex) :=
  match l with
  | [] => Some []
  | v :: r => match base_target base v, base_targets base r with Some v', Some r' => Some (v' :: r') | _, _ => None end
  end.
Fixpoint pmd_morphs (n : nat) (base : list morph_vertex) : P (list morph) :=
  match n with
  | O => ret []
  | S n' =>
      m <- pmd_morph ;;
      match base_targets base (mo_vertex m) with
      | None => panic
      | Some vs => l <- pmd_morphs n' base ;;
          ret (mkMorph (mo_name m) (mo_name_en m) (mo_panel m) (mo_type m) [] vs [] [] :: l)
      end
  end.

(** mmd/pmd_parser.go:31-43 and 114-187, the format having been read by [Parse]
    (mmd/pmx_parser.go:407-418) *)
Definition parse_pmd : P document :=
  ver <- read_u 4 ;;
  name <- pstring 20 ;; comment <- pstring 256 ;;
  vn <- readInt ;; vs <- repeatP (Z.to_nat vn) pmd_vertex ;;
  fn <- readInt ;;
  fs <- repeatP (Z.to_nat (fn / 3)) (a <- read_u 2 ;; b <- read_u 2 ;; c <- read_u 2 ;; ret (mkFace a b c)) ;;
  mn <- readInt ;; '(ms, ts) <- pmd_materials (Z.to_nat mn) 0 [] ;;
  bn <- read_u 2 ;; bs <- repeatP (Z.to_nat bn) pmd_bone ;;
  kn <- read_u 2 ;; bs' <- pmd_iks (Z.to_nat kn) bs ;;
  pn <- read_u 2 ;;
  ps <- (if 0 <? pn then base <- pmd_morph ;; pmd_morphs (Z.to_nat (pn - 1)) (mo_vertex base) else ret []) ;;
  ret (mkDoc (mkHeader pmd_magic ver []) name [] comment [] vs fs ts ms bs' ps [] []).
(** mmd/pmx_parser.go:407-423: both formats ([utf16] is the text decoder of the PMX side).
    [r.Read] is taken to return all the bytes asked for that there are. *)
Definition parse_mmd (utf16 : bytes -> bytes) (bs : bytes) : res document :=
  if bytes_eqb (firstn 3 bs) pmd_magic then parse_pmd (skipn 3 bs) else parse utf16 fsub1 bs.
End Parser.
