(** The layout of PMD files and the model they describe. *)
From Coq Require Import List ZArith Bool.
From Verif.Model Require Import Num Vec Codec Pmx Pmd.
From Verif.Spec Require Import PmxSpec VmdSpec.
Import ListNotations.
Local Open Scope Z_scope.

Definition le8 (v : Z) : bytes := [v mod 256].
Definition le16 (v : Z) : bytes := [v mod 256; v / 256 mod 256].
Definition v2b (v : vec2 Z) : bytes := le32 (v2x v) ++ le32 (v2y v).
Definition v3b (v : vec3 Z) : bytes := le32 (vx v) ++ le32 (vy v) ++ le32 (vz v).
Definition v4b (v : vec4 Z) : bytes := le32 (qx v) ++ le32 (qy v) ++ le32 (qz v) ++ le32 (qw v).

(** 38 bytes *)
Record pvertex := mkPV { pv_pos : vec3 Z; pv_normal : vec3 Z; pv_uv : vec2 Z; pv_b0 : Z; pv_b1 : Z; pv_w : Z; pv_edge : Z }.
Definition pv_bytes (v : pvertex) : bytes :=
  v3b (pv_pos v) ++ v3b (pv_normal v) ++ v2b (pv_uv v) ++ le16 (pv_b0 v) ++ le16 (pv_b1 v) ++ le8 (pv_w v) ++ le8 (pv_edge v).
Definition pv_ok (v : pvertex) : Prop :=
  vec3_ok (pv_pos v) = true /\ vec3_ok (pv_normal v) = true /\ vec2_ok (pv_uv v) = true /\
  s_ok 2 (pv_b0 v) = true /\ s_ok 2 (pv_b1 v) = true /\ u_ok 1 (pv_w v) = true /\ u_ok 1 (pv_edge v) = true.
(** 6 bytes *)
Definition pf_bytes (f : face) : bytes := le16 (f_0 f) ++ le16 (f_1 f) ++ le16 (f_2 f).
Definition pf_ok (f : face) : Prop := u_ok 2 (f_0 f) = true /\ u_ok 2 (f_1 f) = true /\ u_ok 2 (f_2 f) = true.
(** 70 bytes *)
Record pmaterial := mkPM {
  pm_color : vec4 Z; pm_specularity : Z; pm_specular : vec3 Z; pm_ambient : vec3 Z; pm_toon : Z; pm_edge : Z; pm_count : Z;
  pm_tex : bytes; pm_junk : bytes }.
Definition pm_bytes (m : pmaterial) : bytes :=
  v4b (pm_color m) ++ le32 (pm_specularity m) ++ v3b (pm_specular m) ++ v3b (pm_ambient m) ++
  le8 (pm_toon m) ++ le8 (pm_edge m) ++ le32 (pm_count m) ++ field 20 (pm_tex m) (pm_junk m).
Definition pm_ok (m : pmaterial) : Prop :=
  vec4_ok (pm_color m) = true /\ u_ok 4 (pm_specularity m) = true /\ vec3_ok (pm_specular m) = true /\ vec3_ok (pm_ambient m) = true /\
  u_ok 1 (pm_toon m) = true /\ u_ok 1 (pm_edge m) = true /\ u_ok 4 (pm_count m) = true /\ field_ok 20 (pm_tex m) (pm_junk m).
(** 39 bytes *)
Record pbone := mkPB { pb_name : bytes; pb_junk : bytes; pb_parent : Z; pb_tail : Z; pb_type : Z; pb_ikp : Z; pb_pos : vec3 Z }.
Definition pb_bytes (b : pbone) : bytes :=
  field 20 (pb_name b) (pb_junk b) ++ le16 (pb_parent b) ++ le16 (pb_tail b) ++ le8 (pb_type b) ++ le16 (pb_ikp b) ++ v3b (pb_pos b).
Definition pb_ok (b : pbone) : Prop :=
  field_ok 20 (pb_name b) (pb_junk b) /\ s_ok 2 (pb_parent b) = true /\ s_ok 2 (pb_tail b) = true /\
  u_ok 1 (pb_type b) = true /\ u_ok 2 (pb_ikp b) = true /\ vec3_ok (pb_pos b) = true.
(** 11 bytes and two for each link *)
Record pik := mkPK { pk_bone : nat; pk_target : Z; pk_loop : Z; pk_limit : Z; pk_links : list Z }.
Definition pk_bytes (k : pik) : bytes :=
  le16 (Z.of_nat (pk_bone k)) ++ le16 (pk_target k) ++ le8 (Z.of_nat (length (pk_links k))) ++ le16 (pk_loop k) ++ le32 (pk_limit k) ++
  flat_map le16 (pk_links k).
Definition pk_ok (k : pik) : Prop :=
  u_ok 2 (Z.of_nat (pk_bone k)) = true /\ s_ok 2 (pk_target k) = true /\ u_ok 2 (pk_loop k) = true /\ u_ok 4 (pk_limit k) = true /\
  (length (pk_links k) < 256)%nat /\ Forall (fun l => s_ok 2 l = true) (pk_links k).
(** 25 bytes and sixteen for each vertex; the vertices of the base morph are vertex indices,
    those of the others are positions in the base morph *)
Record pmorph := mkPO { po_name : bytes; po_junk : bytes; po_panel : Z; po_vs : list (Z * vec3 Z) }.
Definition pvb (v : Z * vec3 Z) : bytes := le32 (fst v) ++ v3b (snd v).
Definition po_bytes (m : pmorph) : bytes :=
  field 20 (po_name m) (po_junk m) ++ le32 (Z.of_nat (length (po_vs m))) ++ le8 (po_panel m) ++ flat_map pvb (po_vs m).
Definition po_ok (m : pmorph) : Prop :=
  field_ok 20 (po_name m) (po_junk m) /\ len_ok (po_vs m) = true /\ u_ok 1 (po_panel m) = true /\
  Forall (fun v => s_ok 4 (fst v) = true /\ vec3_ok (snd v) = true) (po_vs m).
Definition po_in (base : pmorph) (m : pmorph) : Prop :=
  Forall (fun v => 0 <= fst v < Z.of_nat (length (po_vs base))) (po_vs m).

Record pmd := mkPmd {
  p_version : Z; p_name : bytes; p_njunk : bytes; p_comment : bytes; p_cjunk : bytes;
  p_vertices : list pvertex; p_faces : list face; p_materials : list pmaterial;
  p_bones : list pbone; p_iks : list pik; p_morphs : option (pmorph * list pmorph) }.
Definition pmd_head (w : pmd) : bytes :=
  pmd_magic ++ le32 (p_version w) ++ field 20 (p_name w) (p_njunk w) ++ field 256 (p_comment w) (p_cjunk w).
Definition pmd_bytes (w : pmd) : bytes :=
  pmd_head w ++
  le32 (Z.of_nat (length (p_vertices w))) ++ flat_map pv_bytes (p_vertices w) ++
  le32 (3 * Z.of_nat (length (p_faces w))) ++ flat_map pf_bytes (p_faces w) ++
  le32 (Z.of_nat (length (p_materials w))) ++ flat_map pm_bytes (p_materials w) ++
  le16 (Z.of_nat (length (p_bones w))) ++ flat_map pb_bytes (p_bones w) ++
  le16 (Z.of_nat (length (p_iks w))) ++ flat_map pk_bytes (p_iks w) ++
  match p_morphs w with
  | None => le16 0
  | Some (base, ms) => le16 (1 + Z.of_nat (length ms)) ++ po_bytes base ++ flat_map po_bytes ms
  end.
(** Everything fits its field. *)
Definition pmd_fits (w : pmd) : Prop :=
  u_ok 4 (p_version w) = true /\ field_ok 20 (p_name w) (p_njunk w) /\ field_ok 256 (p_comment w) (p_cjunk w) /\
  len_ok (p_vertices w) = true /\ Forall pv_ok (p_vertices w) /\
  u_ok 4 (3 * Z.of_nat (length (p_faces w))) = true /\ Forall pf_ok (p_faces w) /\
  len_ok (p_materials w) = true /\ Forall pm_ok (p_materials w) /\
  u_ok 2 (Z.of_nat (length (p_bones w))) = true /\ Forall pb_ok (p_bones w) /\
  u_ok 2 (Z.of_nat (length (p_iks w))) = true /\ Forall pk_ok (p_iks w) /\
  match p_morphs w with
  | None => True
  | Some (base, ms) => u_ok 2 (1 + Z.of_nat (length ms)) = true /\ po_ok base /\ Forall po_ok ms
  end.
(** The bones of the IK entries and the positions in the base morph exist. *)
Definition pmd_indexed (w : pmd) : Prop :=
  Forall (fun k => pk_bone k < length (p_bones w))%nat (p_iks w) /\
  match p_morphs w with None => True | Some (base, ms) => Forall (po_in base) ms end.

(** ** The model described *)
Section R.
Variable sjis : bytes -> bytes.
Variable fdiv100 : Z -> Z.
Variable fsub1 : Z -> Z.
Variable fofu8 : Z -> Z.
Variable flt1 : Z -> bool.
(** The second weight is what remains of 1. *)
Definition r_vertex (v : pvertex) : vertex :=
  mkVertex (pv_pos v) (pv_normal v) (pv_uv v) [] (fofu8 (pv_edge v)) [pv_b0 v; pv_b1 v]
    [fdiv100 (pv_w v); fsub1 (fdiv100 (pv_w v))].
(** The texture field holds no texture, one, or one and a sphere map after a star. *)
Inductive textures_of : bytes -> list bytes -> Prop :=
| tex_none s : match s with [] => True | c :: _ => c = 42 end -> textures_of s []
| tex_one s : s <> [] -> ~ In 42 s -> textures_of s [s]
| tex_two a b : a <> [] -> ~ In 42 a -> textures_of (a ++ 42 :: b) [a; b].
(** Materials and the texture table: the textures of all materials in order; a material refers
    to the first of its own. *)
Inductive r_materials : nat -> nat -> list pmaterial -> list material -> list bytes -> Prop :=
| rm_nil i n : r_materials i n [] [] []
| rm_cons i n m l t ms ts : textures_of (sjis (pm_tex m)) t -> r_materials (S i) (n + length t) l ms ts ->
    r_materials i n (m :: l)
      (mkMaterial (mat_name i) [] (pm_color m) (pm_specular m) (pm_specularity m) (pm_ambient m)
         (if flt1 (qw (pm_color m)) then 1 else 0) (mkV4 0 0 0 0) (fofu8 (pm_edge m))
         (match t with [] => -1 | _ => Z.of_nat n end) 0 0 0 (pm_toon m) [] (pm_count m) :: ms)
      (t ++ ts).
(** A tail index 0 means no tail.  All IK entries of a bone contribute their links; the last
    one gives target and loop count. *)
Definition iks_of (ks : list pik) (i : nat) : list pik := filter (fun k => Nat.eqb (pk_bone k) i) ks.
Definition r_bone (ks : list pik) (i : nat) (b : pbone) : bone :=
  let mine := iks_of ks i in
  mkBone (sjis (pb_name b)) [] (pb_pos b) (pb_parent b) 0 0 (if pb_tail b =? 0 then -1 else pb_tail b) vec3_0 0 0 vec3_0
    (last (map pk_target mine) 0) (last (map pk_loop mine) 0) 0
    (map (fun t => mkLink t false vec3_0 vec3_0) (flat_map pk_links mine)).
(** A morph vertex moves the vertex that the base morph has at its position. *)
Definition r_morph (base m : pmorph) : morph :=
  mkMorph (sjis (po_name m)) [] (po_panel m) 0 []
    (map (fun v => mkMV (fst (nth (Z.to_nat (fst v)) (po_vs base) (0, vec3_0))) (snd v)) (po_vs m)) [] [].
Definition r_pmd (w : pmd) (d : document) : Prop :=
  d_header d = mkHeader pmd_magic (p_version w) [] /\ d_name d = sjis (p_name w) /\ d_comment d = sjis (p_comment w) /\
  d_name_en d = [] /\ d_comment_en d = [] /\
  d_vertexes d = map r_vertex (p_vertices w) /\ d_faces d = p_faces w /\
  r_materials 0 0 (p_materials w) (d_materials d) (d_textures d) /\
  (length (d_bones d) = length (p_bones w) /\
   forall i b, nth_error (p_bones w) i = Some b -> nth_error (d_bones d) i = Some (r_bone (p_iks w) i b)) /\
  d_morphs d = match p_morphs w with None => [] | Some (base, ms) => map (r_morph base) ms end /\
  d_bodies d = [] /\ d_joints d = [].
End R.
