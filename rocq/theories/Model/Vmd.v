(** VMD motions: [mmd/vmd_parser.go].

    A [float32] is its 32-bit pattern, a Go string its byte list; a Go map is a list of
    entries. *)
From Coq Require Import List ZArith Bool.
From Verif.Model Require Import Num Vec Codec Pmx.
Import ListNotations.
Local Open Scope Z_scope.

(** mmd/vmd_parser.go:27-39; cameras and lights are never read *)
Record bone_sample := mkBS {
  bs_target : bytes; bs_frame : Z; bs_pos : vec3 Z; bs_rot : vec4 Z; bs_params : bytes }.
Record morph_sample := mkMS { ms_target : bytes; ms_frame : Z; ms_value : Z }.
(** mmd/vmd_parser.go:19-25 *)
Record animation := mkAnim { an_name : bytes; an_bone : list bone_sample; an_morph : list morph_sample }.

(** ** Channels *)

(** mmd/vmd_parser.go:57-70; [Keyframes] is never filled *)
Record bone_channel := mkBC {
  bc_target : bytes; bc_frames : list Z; bc_rots : list (vec4 Z); bc_poss : list (vec3 Z) }.
Record morph_channel := mkMC { mc_target : bytes; mc_frames : list Z; mc_weights : list Z }.
(** [uint32(s.Frame)] *)
Definition u32 (z : Z) : Z := z mod 2 ^ 32.
(** mmd/vmd_parser.go:76-85: the channel of the sample's target is found or added *)
Fixpoint add_bone (r : list bone_channel) (s : bone_sample) : list bone_channel :=
  match r with
  | [] => [mkBC (bs_target s) [u32 (bs_frame s)] [bs_rot s] [bs_pos s]]
  | c :: r' =>
      if bytes_eqb (bc_target c) (bs_target s)
      then mkBC (bc_target c) (bc_frames c ++ [u32 (bs_frame s)]) (bc_rots c ++ [bs_rot s]) (bc_poss c ++ [bs_pos s]) :: r'
      else c :: add_bone r' s
  end.
(** mmd/vmd_parser.go:72-87 after [sort.Slice]: [sorted] is [a.Bone] once sorted *)
Definition bone_channels (sorted : list bone_sample) : list bone_channel := fold_left add_bone sorted [].
(** mmd/vmd_parser.go:92-101 *)
Fixpoint add_morph (r : list morph_channel) (s : morph_sample) : list morph_channel :=
  match r with
  | [] => [mkMC (ms_target s) [u32 (ms_frame s)] [ms_value s]]
  | c :: r' =>
      if bytes_eqb (mc_target c) (ms_target s)
      then mkMC (mc_target c) (mc_frames c ++ [u32 (ms_frame s)]) (mc_weights c ++ [ms_value s]) :: r'
      else c :: add_morph r' s
  end.
(** mmd/vmd_parser.go:89-103 *)
Definition morph_channels (sorted : list morph_sample) : list morph_channel := fold_left add_morph sorted [].

(** ** Parser *)

(** [bytes.SplitN(b, []byte{0}, 2)[0]] *)
Fixpoint cut0 (b : bytes) : bytes :=
  match b with
  | [] => []
  | c :: r => if c =? 0 then [] else c :: cut0 r
  end.
(** "Vocaloid Motion Data 0002" *)
Definition vmd_magic : bytes :=
  [86; 111; 99; 97; 108; 111; 105; 100; 32; 77; 111; 116; 105; 111; 110; 32; 68; 97; 116; 97; 32; 48; 48; 48; 50].

Section Parser.
(** Decoding of Shift-JIS ([transform.Bytes] with its errors ignored) *)
Variable sjis : bytes -> bytes.
Local Open Scope parser_scope.

(** mmd/vmd_parser.go:145-150 (the error of [p.read] is dropped) *)
Definition readString (len : nat) : P bytes := b <- read_raw len ;; ret (sjis (cut0 b)).
(** mmd/vmd_parser.go:126-131 *)
Definition readBoneSample : P bone_sample :=
  t <- readString 15 ;; f <- readInt ;; p <- readVec3 ;; r <- readVec4 ;; pr <- read_raw 64 ;;
  ret (mkBS t f p r pr).
(** mmd/vmd_parser.go:137-141; also whether [p.err] was set by the frame number *)
Definition readMorphSample : P (morph_sample * bool) :=
  t <- readString 15 ;; '(f, e) <- read_u_err 4 ;; v <- read_u 4 ;; ret (mkMS t f v, e).
(** The last [p.err] of a loop; [e] is the one before it. *)
Definition last_err {A} (e : bool) (l : list (A * bool)) : bool := fold_left (fun _ x => snd x) l e.
(** mmd/vmd_parser.go:111-143: the animation and whether an error is returned with it.  Every
    [readInt] overwrites [p.err], the other reads leave it alone. *)
Definition parse_vmd : P (animation * bool) :=
  fmt <- readString 30 ;;
  if negb (bytes_eqb fmt vmd_magic) then perr else
  name <- readString 20 ;;
  nb <- readInt ;;
  bones <- repeatP (Z.to_nat nb) readBoneSample ;;
  '(nm, e) <- read_u_err 4 ;;
  morphs <- repeatP (Z.to_nat nm) readMorphSample ;;
  ret (mkAnim name bones (map fst morphs), last_err e morphs).
End Parser.
