(** The PMX model format: [mmd/mmd.go], [mmd/base_parser.go], [mmd/pmx_parser.go],
    [mmd/pmx_writer.go].

    A [float32] is its 32-bit pattern (a [Z] below 2^32); a Go string is its byte list;
    a Go [int] is an unbounded [Z] (the code runs on 64-bit ints; every conversion to a
    narrower type is written out through [le_enc]/[to_signed]).
    Nil and empty slices are identified. *)
From Coq Require Import List ZArith Bool.
From Verif.Model Require Import Num Vec Codec.
Import ListNotations.
Open Scope Z_scope.

(** mmd/mmd.go:38-42 *)
Record header := mkHeader { h_format : bytes; h_version : Z; h_info : bytes }.

(** mmd/mmd.go:44-54 *)
Record vertex := mkVertex {
  v_pos : vec3 Z; v_normal : vec3 Z; v_uv : vec2 Z; v_ext : list (vec4 Z);
  v_edge : Z; v_bones : list Z; v_weights : list Z }.

(** mmd/mmd.go:56-58 *)
Record face := mkFace { f_0 : Z; f_1 : Z; f_2 : Z }.

(** mmd/mmd.go:60-77 *)
Record material := mkMaterial {
  m_name : bytes; m_name_en : bytes; m_color : vec4 Z; m_specular : vec3 Z;
  m_specularity : Z; m_acolor : vec3 Z; m_flags : Z; m_edge_color : vec4 Z;
  m_edge_scale : Z; m_texture : Z; m_env : Z; m_env_mode : Z; m_toon_type : Z;
  m_toon : Z; m_memo : bytes; m_count : Z }.

(** mmd/mmd.go:84-89 *)
Record link := mkLink { l_target : Z; l_has_limit : bool; l_max : vec3 Z; l_min : vec3 Z }.

(** mmd/mmd.go:91-112 (the IK sub-struct is flattened) *)
Record bone := mkBone {
  b_name : bytes; b_name_en : bytes; b_pos : vec3 Z; b_parent : Z; b_layer : Z;
  b_flags : Z; b_tail_id : Z; b_tail_pos : vec3 Z; b_inherit_id : Z; b_inherit_w : Z;
  b_fixed_axis : vec3 Z;
  ik_target : Z; ik_loop : Z; ik_limit : Z; ik_links : list link }.

(** mmd/mmd.go:133-177 *)
Record morph_group := mkMG { mg_target : Z; mg_weight : Z }.
Record morph_vertex := mkMV { mv_target : Z; mv_offset : vec3 Z }.
Record morph_uv := mkMU { mu_target : Z; mu_value : vec4 Z }.
Record morph_material := mkMM {
  mm_target : Z; mm_flags : Z; mm_diffuse : vec4 Z; mm_specular : vec3 Z;
  mm_specularity : Z; mm_ambient : vec3 Z; mm_edge_color : vec4 Z; mm_edge_size : Z;
  mm_tex : vec4 Z; mm_envt : vec4 Z; mm_toont : vec4 Z }.
Record morph := mkMorph {
  mo_name : bytes; mo_name_en : bytes; mo_panel : Z; mo_type : Z;
  mo_group : list morph_group; mo_vertex : list morph_vertex;
  mo_uv : list morph_uv; mo_material : list morph_material }.

(** mmd/mmd.go:179-199 *)
Record rigid_body := mkRB {
  r_name : bytes; r_name_en : bytes; r_bone : Z; r_group : Z; r_group_target : Z;
  r_shape : Z; r_size : vec3 Z; r_position : vec3 Z; r_rotation : vec3 Z;
  r_mass : Z; r_ldamp : Z; r_adamp : Z; r_restitution : Z; r_friction : Z; r_mode : Z }.

(** mmd/mmd.go:201-219 *)
Record joint := mkJoint {
  j_name : bytes; j_name_en : bytes; j_type : Z; j_body1 : Z; j_body2 : Z;
  j_position : vec3 Z; j_rotation : vec3 Z;
  j_pmin : vec3 Z; j_pmax : vec3 Z; j_rmin : vec3 Z; j_rmax : vec3 Z;
  j_lspring : vec3 Z; j_aspring : vec3 Z }.

(** mmd/mmd.go:14-28 *)
Record document := mkDoc {
  d_header : header; d_name : bytes; d_name_en : bytes; d_comment : bytes;
  d_comment_en : bytes; d_vertexes : list vertex; d_faces : list face;
  d_textures : list bytes; d_materials : list material; d_bones : list bone;
  d_morphs : list morph; d_bodies : list rigid_body; d_joints : list joint }.

(** mmd/mmd.go:221-230 *)
Definition AttrStringEncoding := 0%nat.
Definition AttrExtUV := 1%nat.
Definition AttrVertIndexSz := 2%nat.
Definition AttrTexIndexSz := 3%nat.
Definition AttrMatIndexSz := 4%nat.
Definition AttrBoneIndexSz := 5%nat.
Definition AttrMorphIndexSz := 6%nat.
Definition AttrRBIndexSz := 7%nat.

(** "PMX " *)
Definition pmx_magic : bytes := [80; 77; 88; 32].

(** mmd/mmd.go:30-36: the header of [NewDocument]; version 2.0 is 0x40000000. *)
Definition new_header : header := mkHeader pmx_magic 1073741824 [1; 0; 2; 1; 1; 2; 1; 1].
Definition new_document : document :=
  mkDoc new_header [] [] [] [] [] [] [] [] [] [] [] [].

Definition vec3_0 : vec3 Z := mkV3 0 0 0.
Definition f32_one : Z := 1065353216. (* 0x3f800000 = float32(1) *)

(** Flag tests [b.Flags&k != 0]. *)
Definition has_flag (flags : Z) (bit : Z) : bool := Z.testbit flags bit.

(** ** Reader *)
Section Reader.
(** [utf16.Decode] followed by the conversion to string (mmd/pmx_parser.go:39): an arbitrary
    function of the raw bytes.  [fsub1 w] is the float32 value [1 - w] (line 85, 102). *)
Variable utf16 : bytes -> bytes.
Variable fsub1 : Z -> Z.

Open Scope parser_scope.

(** mmd/base_parser.go:17-39: readUint8 / readInt / readFloat (errors are not looked at by
    the PMX parser). *)
Definition readUint8 : P Z := read_u 1.
Definition readInt : P Z := read_u 4.
Definition readFloat : P Z := read_u 4.
(** Structs of float32 fields are read as one block; a short read leaves all zero. *)
Definition vec3_of (b : bytes) : vec3 Z :=
  mkV3 (le_dec (firstn 4 b)) (le_dec (firstn 4 (skipn 4 b))) (le_dec (firstn 4 (skipn 8 b))).
Definition vec4_of (b : bytes) : vec4 Z :=
  mkV4 (le_dec (firstn 4 b)) (le_dec (firstn 4 (skipn 4 b)))
       (le_dec (firstn 4 (skipn 8 b))) (le_dec (firstn 4 (skipn 12 b))).
Definition vec2_of (b : bytes) : vec2 Z :=
  mkV2 (le_dec (firstn 4 b)) (le_dec (firstn 4 (skipn 4 b))).
Definition readVec3 : P (vec3 Z) := b <- read_raw 12 ;; ret (vec3_of b).
Definition readVec4 : P (vec4 Z) := b <- read_raw 16 ;; ret (vec4_of b).
(** The reads of mmd/pmx_parser.go:65-77, with [log.Fatal] on a short read. *)
Definition readFatal (k : nat) : P bytes :=
  o <- read_full k ;; match o with Some b => ret b | None => fatal end.

(** mmd/base_parser.go:41-58 and 60-77 *)
Definition readVUInt (sz : Z) : P Z :=
  if sz =? 1 then read_u 1 else if sz =? 2 then read_u 2 else if sz =? 4 then read_u 4 else ret 0.
Definition readVInt (sz : Z) : P Z :=
  if sz =? 1 then v <- read_u 1 ;; ret (to_signed 1 v)
  else if sz =? 2 then v <- read_u 2 ;; ret (to_signed 2 v)
  else if sz =? 4 then v <- read_u 4 ;; ret (to_signed 4 v)
  else ret 0.

Variable h : header.

(** [p.header.Info[attrTyp]]; out of range panics. *)
Definition info (k : nat) : P Z :=
  match nth_error (h_info h) k with Some v => ret v | None => panic end.

(** mmd/pmx_parser.go:25-31 *)
Definition readIndex (attr : nat) : P Z := sz <- info attr ;; readVInt sz.
Definition readUIndex (attr : nat) : P Z := sz <- info attr ;; readVUInt sz.

(** mmd/pmx_parser.go:33-44 *)
Definition readText : P bytes :=
  len <- readInt ;;
  enc <- info AttrStringEncoding ;;
  if enc =? 0 then
    b <- read_raw (Z.to_nat (2 * (len / 2))) ;; ret (utf16 b)
  else read_raw (Z.to_nat len).

Definition chunk16 (n : nat) (b : bytes) : list (vec4 Z) :=
  map (fun i => vec4_of (skipn (16 * i) b)) (seq 0 n).

(** mmd/pmx_parser.go:78-108: weight type, bones and weights *)
Definition readWeights : P (list Z * list Z) :=
  ty <- readUint8 ;;
  if ty =? 0 then
    b0 <- readIndex AttrBoneIndexSz ;; ret ([b0], [f32_one])
  else if ty =? 1 then
    b0 <- readIndex AttrBoneIndexSz ;; b1 <- readIndex AttrBoneIndexSz ;;
    w <- readFloat ;; ret ([b0; b1], [w; fsub1 w])
  else if ty =? 2 then
    b0 <- readIndex AttrBoneIndexSz ;; b1 <- readIndex AttrBoneIndexSz ;;
    b2 <- readIndex AttrBoneIndexSz ;; b3 <- readIndex AttrBoneIndexSz ;;
    w0 <- readFloat ;; w1 <- readFloat ;; w2 <- readFloat ;; w3 <- readFloat ;;
    ret ([b0; b1; b2; b3], [w0; w1; w2; w3])
  else if ty =? 3 then
    b0 <- readIndex AttrBoneIndexSz ;; b1 <- readIndex AttrBoneIndexSz ;;
    w <- readFloat ;;
    b <- read_raw 36 ;;
    ret ([b0; b1], w :: fsub1 w :: map (fun i => le_dec (firstn 4 (skipn (4 * i) b))) (seq 0 9))
  else fatal.

(** mmd/pmx_parser.go:63-111 *)
Definition readVertex : P vertex :=
  p <- readFatal 12 ;;
  n <- readFatal 12 ;;
  uv <- readFatal 8 ;;
  k <- info AttrExtUV ;;
  e <- readFatal (16 * Z.to_nat k) ;;
  '(bs, ws) <- readWeights ;;
  edge <- readFloat ;;
  ret (mkVertex (vec3_of p) (vec3_of n) (vec2_of uv) (chunk16 (Z.to_nat k) e) edge bs ws).

(** mmd/pmx_parser.go:113-119 *)
Definition readFace : P face :=
  a <- readUIndex AttrVertIndexSz ;; b <- readUIndex AttrVertIndexSz ;;
  c <- readUIndex AttrVertIndexSz ;; ret (mkFace a b c).

(** mmd/pmx_parser.go:121-144 *)
Definition readMaterial : P material :=
  name <- readText ;; name_en <- readText ;;
  color <- readVec4 ;; spec <- readVec3 ;; specularity <- read_u 4 ;; ac <- readVec3 ;;
  flags <- read_u 1 ;; ec <- readVec4 ;; es <- read_u 4 ;;
  tex <- readIndex AttrTexIndexSz ;; env <- readIndex AttrTexIndexSz ;;
  env_mode <- read_u 1 ;; toon_type <- read_u 1 ;;
  toon <- (if toon_type =? 0 then readIndex AttrTexIndexSz else readUint8) ;;
  memo <- readText ;; count <- readInt ;;
  ret (mkMaterial name name_en color spec specularity ac flags ec es tex env env_mode
         toon_type toon memo count).

(** mmd/pmx_parser.go:193-202 *)
Definition readLink : P link :=
  t <- readIndex AttrBoneIndexSz ;; lim <- readUint8 ;;
  if negb (lim =? 0) then
    mn <- readVec3 ;; mx <- readVec3 ;; ret (mkLink t true mx mn)
  else ret (mkLink t false vec3_0 vec3_0).

(** mmd/pmx_parser.go:146-206; the unsupported-flags warning (156-158) has no effect *)
Definition readBone : P bone :=
  name <- readText ;; name_en <- readText ;;
  pos <- readVec3 ;;
  parent <- readIndex AttrBoneIndexSz ;;
  layer <- readInt ;;
  flags <- read_u 2 ;;
  '(tail, tpos) <- (if has_flag flags 0 then t <- readIndex AttrBoneIndexSz ;; ret (t, vec3_0)
                    else v <- readVec3 ;; ret (-1, v)) ;;
  '(ip, iw) <- (if has_flag flags 8 || has_flag flags 9 then
                  i <- readIndex AttrBoneIndexSz ;; w <- readFloat ;; ret (i, w)
                else ret (0, 0)) ;;
  axis <- (if has_flag flags 10 then readVec3 else ret vec3_0) ;;
  _ <- (if has_flag flags 11 then (_ <- readVec3 ;; readVec3) else ret vec3_0) ;;
  _ <- (if has_flag flags 13 then readIndex AttrBoneIndexSz else ret 0) ;;
  if has_flag flags 5 then
    t <- readIndex AttrBoneIndexSz ;; loop <- readInt ;; lim <- readFloat ;;
    n <- readInt ;;
    links <- repeatP (Z.to_nat n) readLink ;;
    ret (mkBone name name_en pos parent layer flags tail tpos ip iw axis t loop lim links)
  else
    ret (mkBone name name_en pos parent layer flags tail tpos ip iw axis 0 0 0 []).

(** mmd/pmx_parser.go:218-259 by morph type; the list of a type is collected *)
Definition readMG : P morph_group :=
  t <- readIndex AttrMorphIndexSz ;; w <- readFloat ;; ret (mkMG t w).
Definition readMV : P morph_vertex :=
  t <- readUIndex AttrVertIndexSz ;; o <- readVec3 ;; ret (mkMV t o).
Definition readMB : P unit :=
  _ <- readIndex AttrBoneIndexSz ;; _ <- readVec3 ;; _ <- readVec4 ;; ret tt.
Definition readMU : P morph_uv :=
  t <- readUIndex AttrVertIndexSz ;; o <- readVec4 ;; ret (mkMU t o).
Definition readMM : P morph_material :=
  t <- readIndex AttrMatIndexSz ;; fl <- read_u 1 ;; d <- readVec4 ;; s <- readVec3 ;;
  sp <- read_u 4 ;; a <- readVec3 ;; ec <- readVec4 ;; es <- read_u 4 ;;
  tx <- readVec4 ;; ev <- readVec4 ;; tn <- readVec4 ;;
  ret (mkMM t fl d s sp a ec es tx ev tn).

(** mmd/pmx_parser.go:208-263.  Types 0, 1, 3, 8 are stored, type 2 is skipped, any other
    type is fatal (but only when there is at least one element). *)
Definition readMorph : P morph :=
  name <- readText ;; name_en <- readText ;; panel <- read_u 1 ;; ty <- read_u 1 ;;
  n <- readInt ;;
  let k := Z.to_nat n in
  if ty =? 0 then l <- repeatP k readMG ;; ret (mkMorph name name_en panel ty l [] [] [])
  else if ty =? 1 then l <- repeatP k readMV ;; ret (mkMorph name name_en panel ty [] l [] [])
  else if ty =? 2 then _ <- repeatP k readMB ;; ret (mkMorph name name_en panel ty [] [] [] [])
  else if ty =? 3 then l <- repeatP k readMU ;; ret (mkMorph name name_en panel ty [] [] l [])
  else if ty =? 8 then l <- repeatP k readMM ;; ret (mkMorph name name_en panel ty [] [] [] l)
  else if n =? 0 then ret (mkMorph name name_en panel ty [] [] [] [])
  else fatal.

(** mmd/pmx_parser.go:265-290: display groups are read and thrown away *)
Definition readDisplayGroup : P unit :=
  _ <- readText ;; _ <- readText ;; _ <- readUint8 ;; n <- readInt ;;
  _ <- repeatP (Z.to_nat n)
        (t <- readUint8 ;;
         if t =? 0 then readIndex AttrBoneIndexSz else readIndex AttrMorphIndexSz) ;;
  ret tt.

(** mmd/pmx_parser.go:292-314 *)
Definition readRigidBody : P rigid_body :=
  name <- readText ;; name_en <- readText ;; bone <- readIndex AttrBoneIndexSz ;;
  group <- readVInt 1 ;; target <- readVInt 2 ;; shape <- read_u 1 ;;
  size <- readVec3 ;; pos <- readVec3 ;; rot <- readVec3 ;;
  mass <- read_u 4 ;; ld <- read_u 4 ;; ad <- read_u 4 ;; re <- read_u 4 ;; fr <- read_u 4 ;;
  mode <- read_u 1 ;;
  ret (mkRB name name_en bone group target shape size pos rot mass ld ad re fr mode).

(** mmd/pmx_parser.go:316-336 *)
Definition readJoint : P joint :=
  name <- readText ;; name_en <- readText ;; ty <- readUint8 ;;
  b1 <- readIndex AttrRBIndexSz ;; b2 <- readIndex AttrRBIndexSz ;;
  pos <- readVec3 ;; rot <- readVec3 ;;
  pmin <- readVec3 ;; pmax <- readVec3 ;; rmin <- readVec3 ;; rmax <- readVec3 ;;
  ls <- readVec3 ;; as_ <- readVec3 ;;
  ret (mkJoint name name_en ty b1 b2 pos rot pmin pmax rmin rmax ls as_).

(** mmd/pmx_parser.go:346-403: everything after the header *)
Definition readBody_ : P document :=
  name <- readText ;; name_en <- readText ;; comment <- readText ;; comment_en <- readText ;;
  vn <- readInt ;; vs <- repeatP (Z.to_nat vn) readVertex ;;
  fn <- readInt ;; fs <- repeatP (Z.to_nat (fn / 3)) readFace ;;
  tn <- readInt ;; ts <- repeatP (Z.to_nat tn) readText ;;
  mn <- readInt ;; ms <- repeatP (Z.to_nat mn) readMaterial ;;
  bn <- readInt ;; bs <- repeatP (Z.to_nat bn) readBone ;;
  pn <- readInt ;; ps <- repeatP (Z.to_nat pn) readMorph ;;
  gn <- readInt ;; _ <- repeatP (Z.to_nat gn) readDisplayGroup ;;
  rn <- readInt ;; rs <- repeatP (Z.to_nat rn) readRigidBody ;;
  jn <- readInt ;; js <- repeatP (Z.to_nat jn) readJoint ;;
  ret (mkDoc h name name_en comment comment_en vs fs ts ms bs ps rs js).
End Reader.

Open Scope parser_scope.

Definition bytes_eqb (a b : bytes) : bool :=
  if list_eq_dec Z.eq_dec a b then true else false.

(** mmd/pmx_parser.go:46-61 (with the format already read by [Parse], 407-423) *)
Definition readHeader (fmt : bytes) : P header :=
  if negb (bytes_eqb fmt pmx_magic) then perr
  else ver <- read_u 4 ;; n <- readUint8 ;; inf <- read_raw (Z.to_nat n) ;;
       ret (mkHeader fmt ver inf).

(** mmd/pmx_parser.go:339-404 *)
Definition parse_pmx (utf16 : bytes -> bytes) (fsub1 : Z -> Z) (fmt : bytes) : P document :=
  h <- readHeader fmt ;; readBody_ utf16 fsub1 h.

(** mmd/pmx_parser.go:407-423, for input that is not a PMD file.  An empty input is an
    error; a short first read leaves zero bytes in [format]. *)
Definition parse (utf16 : bytes -> bytes) (fsub1 : Z -> Z) (bs : bytes) : res document :=
  match bs with
  | [] => RErr
  | _ => let fmt := firstn 4 (firstn 4 bs ++ [0; 0; 0; 0]) in
         parse_pmx utf16 fsub1 fmt (skipn 4 bs)
  end.

(** ** Writer *)
Definition wbytes (b : bytes) : W := Some b.
(** mmd/pmx_writer.go:17-32 *)
Definition writeUint8 (v : Z) : W := Some (le_enc 1 v).
Definition writeInt (v : Z) : W := Some (le_enc 4 v).
Definition writeFloat (v : Z) : W := Some (le_enc 4 v).
Definition writeVec2 (v : vec2 Z) : W := Some (le_enc 4 (v2x v) ++ le_enc 4 (v2y v)).
Definition writeVec3 (v : vec3 Z) : W :=
  Some (le_enc 4 (vx v) ++ le_enc 4 (vy v) ++ le_enc 4 (vz v)).
Definition writeVec4 (v : vec4 Z) : W :=
  Some (le_enc 4 (qx v) ++ le_enc 4 (qy v) ++ le_enc 4 (qz v) ++ le_enc 4 (qw v)).
(** mmd/pmx_writer.go:53-70 (and 34-51: same bytes) *)
Definition writeVInt (sz : Z) (v : Z) : W :=
  if sz =? 1 then Some (le_enc 1 v) else if sz =? 2 then Some (le_enc 2 v)
  else if sz =? 4 then Some (le_enc 4 v) else Some [].
(** mmd/pmx_writer.go:140-143 *)
Definition writeText (s : bytes) : W := writeInt (Z.of_nat (length s)) +++ wbytes s.

Section Writer.
Variable h : header.
(** mmd/pmx_writer.go:145-147 *)
Definition writeIndex (attr : nat) (v : Z) : W :=
  match nth_error (h_info h) attr with Some sz => writeVInt sz v | None => None end.

(** mmd/pmx_writer.go:172-194: the vertex after padding, and the weight type *)
Definition pad_vertex (v : vertex) : vertex :=
  let add := mkVertex (v_pos v) (v_normal v) (v_uv v) (v_ext v) (v_edge v)
               (v_bones v ++ [-1]) (v_weights v ++ [0]) in
  match length (v_weights v) with
  | 0%nat => add
  | 3%nat => add
  | _ => v
  end.
Definition weight_type (v : vertex) : Z :=
  match length (v_weights v) with
  | 2%nat => 1 | 3%nat => 2 | 4%nat => 2 | 11%nat => 3 | _ => 0
  end.

(** mmd/pmx_writer.go:166-215 *)
Definition writeVertex (v0 : vertex) : W :=
  let ty := weight_type v0 in
  let v := pad_vertex v0 in
  writeVec3 (v_pos v) +++ writeVec3 (v_normal v) +++ writeVec2 (v_uv v) +++
  wlist writeVec4 (v_ext v) +++
  writeUint8 ty +++
  wlist (writeIndex AttrBoneIndexSz) (v_bones v) +++
  (if ty =? 0 then Some []
   else if ty =? 1 then
     match v_weights v with w :: _ => writeFloat w | [] => None end
   else if ty =? 3 then
     match v_weights v with w :: _ :: r => writeFloat w +++ wlist writeFloat r | _ => None end
   else wlist writeFloat (v_weights v)) +++
  writeFloat (v_edge v).

(** mmd/pmx_writer.go:217-221 *)
Definition writeFace (f : face) : W :=
  writeIndex AttrVertIndexSz (f_0 f) +++ writeIndex AttrVertIndexSz (f_1 f) +++
  writeIndex AttrVertIndexSz (f_2 f).

(** mmd/pmx_writer.go:223-247 *)
Definition writeMaterial (m : material) : W :=
  writeText (m_name m) +++ writeText (m_name_en m) +++
  writeVec4 (m_color m) +++ writeVec3 (m_specular m) +++ writeFloat (m_specularity m) +++
  writeVec3 (m_acolor m) +++ writeUint8 (m_flags m) +++ writeVec4 (m_edge_color m) +++
  writeFloat (m_edge_scale m) +++
  writeIndex AttrTexIndexSz (m_texture m) +++ writeIndex AttrTexIndexSz (m_env m) +++
  writeUint8 (m_env_mode m) +++ writeUint8 (m_toon_type m) +++
  (if m_toon_type m =? 0 then writeIndex AttrTexIndexSz (m_toon m) else writeUint8 (m_toon m)) +++
  writeText (m_memo m) +++ writeInt (m_count m).

(** mmd/pmx_writer.go:295-304 *)
Definition writeLink (l : link) : W :=
  writeIndex AttrBoneIndexSz (l_target l) +++
  (if l_has_limit l then writeUint8 1 +++ writeVec3 (l_min l) +++ writeVec3 (l_max l)
   else writeUint8 0).

(** mmd/pmx_writer.go:249-306 *)
Definition writeBone (b : bone) : W :=
  writeText (b_name b) +++ writeText (b_name_en b) +++ writeVec3 (b_pos b) +++
  writeIndex AttrBoneIndexSz (b_parent b) +++ writeInt (b_layer b) +++
  Some (le_enc 2 (b_flags b)) +++
  (if has_flag (b_flags b) 0 then writeIndex AttrBoneIndexSz (b_tail_id b)
   else writeVec3 (b_tail_pos b)) +++
  (if has_flag (b_flags b) 8 || has_flag (b_flags b) 9 then
     writeIndex AttrBoneIndexSz (b_inherit_id b) +++ writeFloat (b_inherit_w b)
   else Some []) +++
  (if has_flag (b_flags b) 10 then writeVec3 (b_fixed_axis b) else Some []) +++
  (if has_flag (b_flags b) 11 then writeVec3 vec3_0 +++ writeVec3 vec3_0 else Some []) +++
  (if has_flag (b_flags b) 13 then writeIndex AttrBoneIndexSz (-1) else Some []) +++
  (if has_flag (b_flags b) 5 then
     writeIndex AttrBoneIndexSz (ik_target b) +++ writeInt (ik_loop b) +++
     writeFloat (ik_limit b) +++ writeInt (Z.of_nat (length (ik_links b))) +++
     wlist writeLink (ik_links b)
   else Some []).

(** mmd/pmx_writer.go:317-341 *)
Definition writeMG (m : morph_group) : W :=
  writeIndex AttrMorphIndexSz (mg_target m) +++ writeFloat (mg_weight m).
Definition writeMV (m : morph_vertex) : W :=
  writeIndex AttrVertIndexSz (mv_target m) +++ writeVec3 (mv_offset m).
Definition writeMU (m : morph_uv) : W :=
  writeIndex AttrVertIndexSz (mu_target m) +++ writeVec4 (mu_value m).
Definition writeMM (m : morph_material) : W :=
  writeIndex AttrMatIndexSz (mm_target m) +++ writeUint8 (mm_flags m) +++
  writeVec4 (mm_diffuse m) +++ writeVec3 (mm_specular m) +++ writeFloat (mm_specularity m) +++
  writeVec3 (mm_ambient m) +++ writeVec4 (mm_edge_color m) +++ writeFloat (mm_edge_size m) +++
  writeVec4 (mm_tex m) +++ writeVec4 (mm_envt m) +++ writeVec4 (mm_toont m).
(** mmd/pmx_writer.go:308-342 *)
Definition writeMorph (m : morph) : W :=
  writeText (mo_name m) +++ writeText (mo_name_en m) +++ writeUint8 (mo_panel m) +++
  writeUint8 (mo_type m) +++
  writeInt (Z.of_nat (length (mo_group m) + length (mo_vertex m) + length (mo_uv m)
                      + length (mo_material m))) +++
  wlist writeMG (mo_group m) +++ wlist writeMV (mo_vertex m) +++ wlist writeMU (mo_uv m) +++
  wlist writeMM (mo_material m).

(** mmd/pmx_writer.go:344-364 *)
Definition writeBody (b : rigid_body) : W :=
  writeText (r_name b) +++ writeText (r_name_en b) +++
  writeIndex AttrBoneIndexSz (r_bone b) +++ writeVInt 1 (r_group b) +++
  writeVInt 2 (r_group_target b) +++ writeUint8 (r_shape b) +++
  writeVec3 (r_size b) +++ writeVec3 (r_position b) +++ writeVec3 (r_rotation b) +++
  writeFloat (r_mass b) +++ writeFloat (r_ldamp b) +++ writeFloat (r_adamp b) +++
  writeFloat (r_restitution b) +++ writeFloat (r_friction b) +++ writeUint8 (r_mode b).

(** mmd/pmx_writer.go:366-385; note [AttrBoneIndexSz] for the body indices *)
Definition writeJoint (j : joint) : W :=
  writeText (j_name j) +++ writeText (j_name_en j) +++ writeUint8 (j_type j) +++
  writeIndex AttrBoneIndexSz (j_body1 j) +++ writeIndex AttrBoneIndexSz (j_body2 j) +++
  writeVec3 (j_position j) +++ writeVec3 (j_rotation j) +++
  writeVec3 (j_pmin j) +++ writeVec3 (j_pmax j) +++ writeVec3 (j_rmin j) +++
  writeVec3 (j_rmax j) +++ writeVec3 (j_lspring j) +++ writeVec3 (j_aspring j).

Definition wcount {A} (f : A -> W) (l : list A) : W :=
  writeInt (Z.of_nat (length l)) +++ wlist f l.

(** mmd/pmx_writer.go:81-137, after the header *)
Definition writeRest (d : document) : W :=
  writeText (d_name d) +++ writeText (d_name_en d) +++ writeText (d_comment d) +++
  writeText (d_comment_en d) +++
  wcount writeVertex (d_vertexes d) +++
  (writeInt (Z.of_nat (length (d_faces d)) * 3) +++ wlist writeFace (d_faces d)) +++
  wcount writeText (d_textures d) +++
  wcount writeMaterial (d_materials d) +++
  wcount writeBone (d_bones d) +++
  wcount writeMorph (d_morphs d) +++
  writeInt 0 +++
  wcount writeBody (d_bodies d) +++
  wcount writeJoint (d_joints d) +++
  writeInt 0.
End Writer.

(** mmd/pmx_writer.go:153-164: the header as mutated and written.  An empty [Info] panics at
    [h.Info[AttrStringEncoding] = 1]. *)
Definition fix_header (h : header) : option header :=
  match h_info h with
  | [] => None
  | _ :: r => Some (mkHeader pmx_magic (h_version h) (1 :: r))
  end.
Definition writeHeader (h : header) : W :=
  wbytes (h_format h) +++ Some (le_enc 4 (h_version h)) +++
  writeUint8 (Z.of_nat (length (h_info h))) +++ wbytes (h_info h).

(** mmd/pmx_writer.go:78-138, 388-390 *)
Definition write_pmx (d : document) : W :=
  match fix_header (d_header d) with
  | None => None
  | Some h => writeHeader h +++ writeRest h d
  end.
