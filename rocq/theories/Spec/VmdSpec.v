(** The layout of VMD files, and what it means to group samples into channels. *)
From Coq Require Import List ZArith Bool Permutation Sorted.
From Verif.Model Require Import Num Vec Codec Vmd.
From Verif.Spec Require Import PmxSpec.
Import ListNotations.
Local Open Scope Z_scope.

(** A text field of [k] bytes: the text, a NUL if there is room, then anything. *)
Definition field (k : nat) (text junk : bytes) : bytes := firstn k (text ++ 0 :: junk).
Definition field_ok (k : nat) (text junk : bytes) : Prop :=
  ~ In 0 text /\ (length text <= k <= length text + 1 + length junk)%nat.

Definition le32 (v : Z) : bytes := [v mod 256; v / 256 mod 256; v / 65536 mod 256; v / 16777216 mod 256].
(** One bone key: 111 bytes. *)
Record wire_bone := mkWB { wb_text : bytes; wb_junk : bytes; wb_frame : Z; wb_pos : vec3 Z; wb_rot : vec4 Z; wb_params : bytes }.
Definition wb_bytes (b : wire_bone) : bytes :=
  field 15 (wb_text b) (wb_junk b) ++ le32 (wb_frame b) ++
  le32 (vx (wb_pos b)) ++ le32 (vy (wb_pos b)) ++ le32 (vz (wb_pos b)) ++
  le32 (qx (wb_rot b)) ++ le32 (qy (wb_rot b)) ++ le32 (qz (wb_rot b)) ++ le32 (qw (wb_rot b)) ++ wb_params b.
Definition wb_ok (b : wire_bone) : Prop :=
  field_ok 15 (wb_text b) (wb_junk b) /\ u_ok 4 (wb_frame b) = true /\ vec3_ok (wb_pos b) = true /\
  vec4_ok (wb_rot b) = true /\ length (wb_params b) = 64%nat.
(** One morph key: 23 bytes. *)
Record wire_morph := mkWM { wm_text : bytes; wm_junk : bytes; wm_frame : Z; wm_value : Z }.
Definition wm_bytes (m : wire_morph) : bytes :=
  field 15 (wm_text m) (wm_junk m) ++ le32 (wm_frame m) ++ le32 (wm_value m).
Definition wm_ok (m : wire_morph) : Prop :=
  field_ok 15 (wm_text m) (wm_junk m) /\ u_ok 4 (wm_frame m) = true /\ u_ok 4 (wm_value m) = true.
Record wire := mkWire {
  w_magic : bytes; w_mjunk : bytes; w_name : bytes; w_njunk : bytes; w_bones : list wire_bone; w_morphs : list wire_morph }.
Definition vmd_bytes (w : wire) : bytes :=
  field 30 (w_magic w) (w_mjunk w) ++ field 20 (w_name w) (w_njunk w) ++
  le32 (Z.of_nat (length (w_bones w))) ++ flat_map wb_bytes (w_bones w) ++
  le32 (Z.of_nat (length (w_morphs w))) ++ flat_map wm_bytes (w_morphs w).
Definition wire_ok (w : wire) : Prop :=
  field_ok 30 (w_magic w) (w_mjunk w) /\ field_ok 20 (w_name w) (w_njunk w) /\
  len_ok (w_bones w) = true /\ len_ok (w_morphs w) = true /\ Forall wb_ok (w_bones w) /\ Forall wm_ok (w_morphs w).

(** What is read, given the Shift-JIS decoder. *)
Section R.
Variable sjis : bytes -> bytes.
Definition read_bone (b : wire_bone) : bone_sample := mkBS (sjis (wb_text b)) (wb_frame b) (wb_pos b) (wb_rot b) (wb_params b).
Definition read_morph (m : wire_morph) : morph_sample := mkMS (sjis (wm_text m)) (wm_frame m) (wm_value m).
Definition read_wire (w : wire) : animation :=
  mkAnim (sjis (w_name w)) (map read_bone (w_bones w)) (map read_morph (w_morphs w)).
End R.

(** [l'] is [l] sorted by frame number, equal frames in any order. *)
Definition sorted_by {A} (frame : A -> Z) (l l' : list A) : Prop :=
  Permutation l l' /\ StronglySorted (fun a b => frame a <= frame b) l'.
Definition frame32 (f : Z) : Prop := 0 <= f < 2 ^ 32.
(** [r] is a grouping of [l]: one channel for each target that occurs; the channel of a target
    has all its samples (as a multiset) in time order. *)
Record grouping {S C V} (target : S -> bytes) (value : S -> Z * V) (key : C -> bytes) (frames : C -> list Z)
    (content : C -> list (Z * V)) (l : list S) (r : list C) : Prop := {
  g_once : NoDup (map key r);
  g_all : forall t, In t (map key r) <-> In t (map target l);
  g_content : forall c, In c r ->
    Permutation (content c) (map value (filter (fun s => if list_eq_dec Z.eq_dec (target s) (key c) then true else false) l));
  g_frames : forall c, In c r -> map fst (content c) = frames c;
  g_order : forall c, In c r -> StronglySorted Z.le (frames c) }.

(** The caller of [Parse] is told that something is wrong. *)
Definition reported {A} (r : res (A * bool)) : Prop := match r with ROk (_, e) _ => e = true | RErr => True | _ => False end.
