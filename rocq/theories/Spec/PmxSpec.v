(** What it means for a PMX document to fit the format: every number is in the range of its
    field, every index in the range of the width the header gives for its kind, skinning in
    one of PMX's four shapes, and fields that the format does not store are at their default.
    Boolean, so that concrete documents can be checked by computation. *)
From Coq Require Import List ZArith Bool.
From Verif.Model Require Import Num Vec Codec Pmx.
Import ListNotations.
Open Scope Z_scope.

Definition u_ok (k : nat) (v : Z) : bool := (0 <=? v) && (v <? 256 ^ Z.of_nat k).
Definition s_ok (k : nat) (v : Z) : bool :=
  (- 2 ^ (8 * Z.of_nat k - 1) <=? v) && (v <? 2 ^ (8 * Z.of_nat k - 1)).
Definition byte_ok : Z -> bool := u_ok 1.
Definition len_ok {A} (l : list A) : bool := u_ok 4 (Z.of_nat (length l)).
Definition str_ok (s : bytes) : bool := forallb byte_ok s && len_ok s.

Definition vec2_ok (v : vec2 Z) : bool := u_ok 4 (v2x v) && u_ok 4 (v2y v).
Definition vec3_ok (v : vec3 Z) : bool := u_ok 4 (vx v) && u_ok 4 (vy v) && u_ok 4 (vz v).
Definition vec4_ok (v : vec4 Z) : bool :=
  u_ok 4 (qx v) && u_ok 4 (qy v) && u_ok 4 (qz v) && u_ok 4 (qw v).

(** Signed and unsigned index ranges for a width of 1, 2 or 4 bytes.  With any other width
    nothing is stored and only index 0 can be represented. *)
Definition idx_ok (sz v : Z) : bool :=
  if sz =? 1 then s_ok 1 v else if sz =? 2 then s_ok 2 v else if sz =? 4 then s_ok 4 v
  else v =? 0.
Definition uidx_ok (sz v : Z) : bool :=
  if sz =? 1 then u_ok 1 v else if sz =? 2 then u_ok 2 v else if sz =? 4 then u_ok 4 v
  else v =? 0.

Definition is_zero3 (v : vec3 Z) : bool := (vx v =? 0) && (vy v =? 0) && (vz v =? 0).
Definition is_nil {A} (l : list A) : bool := match l with [] => true | _ => false end.
Definition implb2 (a b : bool) : bool := if a then b else true.

Section Spec.
Variable fsub1 : Z -> Z.
Variable h : header.
Definition wd (k : nat) : Z := nth k (h_info h) 0.

Definition header_ok : bool :=
  u_ok 4 (h_version h) && forallb byte_ok (h_info h) &&
  (8 <=? length (h_info h))%nat && (length (h_info h) <=? 255)%nat.

Definition bidx_ok : Z -> bool := idx_ok (wd AttrBoneIndexSz).

(** The four shapes of PMX skinning: BDEF1, BDEF2, BDEF4, SDEF. *)
Definition weights_ok (bs ws : list Z) : bool :=
  forallb bidx_ok bs &&
  match bs, ws with
  | [_], [w] => w =? f32_one
  | [_; _], [w; w'] => u_ok 4 w && (w' =? fsub1 w)
  | [_; _; _; _], [_; _; _; _] => forallb (u_ok 4) ws
  | [_; _], w :: w' :: r =>
      u_ok 4 w && (w' =? fsub1 w) && (length r =? 9)%nat && forallb (u_ok 4) r
  | _, _ => false
  end.

Definition vertex_ok (v : vertex) : bool :=
  vec3_ok (v_pos v) && vec3_ok (v_normal v) && vec2_ok (v_uv v) &&
  forallb vec4_ok (v_ext v) && (length (v_ext v) =? Z.to_nat (wd AttrExtUV))%nat &&
  u_ok 4 (v_edge v) && weights_ok (v_bones v) (v_weights v).

Definition face_ok (f : face) : bool :=
  let ok := uidx_ok (wd AttrVertIndexSz) in ok (f_0 f) && ok (f_1 f) && ok (f_2 f).

Definition material_ok (m : material) : bool :=
  let tex := idx_ok (wd AttrTexIndexSz) in
  str_ok (m_name m) && str_ok (m_name_en m) && vec4_ok (m_color m) && vec3_ok (m_specular m) &&
  u_ok 4 (m_specularity m) && vec3_ok (m_acolor m) && byte_ok (m_flags m) &&
  vec4_ok (m_edge_color m) && u_ok 4 (m_edge_scale m) && tex (m_texture m) && tex (m_env m) &&
  byte_ok (m_env_mode m) && byte_ok (m_toon_type m) &&
  (if m_toon_type m =? 0 then tex (m_toon m) else byte_ok (m_toon m)) &&
  str_ok (m_memo m) && u_ok 4 (m_count m).

Definition link_ok (l : link) : bool :=
  bidx_ok (l_target l) &&
  (if l_has_limit l then vec3_ok (l_min l) && vec3_ok (l_max l)
   else is_zero3 (l_min l) && is_zero3 (l_max l)).

Definition bone_ok (b : bone) : bool :=
  let f := has_flag (b_flags b) in
  str_ok (b_name b) && str_ok (b_name_en b) && vec3_ok (b_pos b) && bidx_ok (b_parent b) &&
  u_ok 4 (b_layer b) && u_ok 2 (b_flags b) &&
  (if f 0 then bidx_ok (b_tail_id b) && is_zero3 (b_tail_pos b)
   else (b_tail_id b =? -1) && vec3_ok (b_tail_pos b)) &&
  (if f 8 || f 9 then bidx_ok (b_inherit_id b) && u_ok 4 (b_inherit_w b)
   else (b_inherit_id b =? 0) && (b_inherit_w b =? 0)) &&
  (if f 10 then vec3_ok (b_fixed_axis b) else is_zero3 (b_fixed_axis b)) &&
  (if f 5 then
     bidx_ok (ik_target b) && u_ok 4 (ik_loop b) && u_ok 4 (ik_limit b) &&
     len_ok (ik_links b) && forallb link_ok (ik_links b)
   else (ik_target b =? 0) && (ik_loop b =? 0) && (ik_limit b =? 0) && is_nil (ik_links b)).

Definition mg_ok (m : morph_group) : bool :=
  idx_ok (wd AttrMorphIndexSz) (mg_target m) && u_ok 4 (mg_weight m).
Definition mv_ok (m : morph_vertex) : bool :=
  uidx_ok (wd AttrVertIndexSz) (mv_target m) && vec3_ok (mv_offset m).
Definition mu_ok (m : morph_uv) : bool :=
  uidx_ok (wd AttrVertIndexSz) (mu_target m) && vec4_ok (mu_value m).
Definition mm_ok (m : morph_material) : bool :=
  idx_ok (wd AttrMatIndexSz) (mm_target m) && byte_ok (mm_flags m) && vec4_ok (mm_diffuse m) &&
  vec3_ok (mm_specular m) && u_ok 4 (mm_specularity m) && vec3_ok (mm_ambient m) &&
  vec4_ok (mm_edge_color m) && u_ok 4 (mm_edge_size m) && vec4_ok (mm_tex m) &&
  vec4_ok (mm_envt m) && vec4_ok (mm_toont m).

(** Only the list belonging to the morph's type may be filled. *)
Definition morph_ok (m : morph) : bool :=
  str_ok (mo_name m) && str_ok (mo_name_en m) && byte_ok (mo_panel m) && byte_ok (mo_type m) &&
  len_ok (mo_group m) && len_ok (mo_vertex m) && len_ok (mo_uv m) && len_ok (mo_material m) &&
  forallb mg_ok (mo_group m) && forallb mv_ok (mo_vertex m) && forallb mu_ok (mo_uv m) &&
  forallb mm_ok (mo_material m) &&
  ((mo_type m =? 0) || is_nil (mo_group m)) && ((mo_type m =? 1) || is_nil (mo_vertex m)) &&
  ((mo_type m =? 3) || is_nil (mo_uv m)) && ((mo_type m =? 8) || is_nil (mo_material m)).

Definition body_ok (b : rigid_body) : bool :=
  str_ok (r_name b) && str_ok (r_name_en b) && bidx_ok (r_bone b) && s_ok 1 (r_group b) &&
  s_ok 2 (r_group_target b) && byte_ok (r_shape b) && vec3_ok (r_size b) &&
  vec3_ok (r_position b) && vec3_ok (r_rotation b) && u_ok 4 (r_mass b) && u_ok 4 (r_ldamp b) &&
  u_ok 4 (r_adamp b) && u_ok 4 (r_restitution b) && u_ok 4 (r_friction b) && byte_ok (r_mode b).

Definition joint_ok (j : joint) : bool :=
  let rb := idx_ok (wd AttrRBIndexSz) in
  str_ok (j_name j) && str_ok (j_name_en j) && byte_ok (j_type j) && rb (j_body1 j) &&
  rb (j_body2 j) && vec3_ok (j_position j) && vec3_ok (j_rotation j) && vec3_ok (j_pmin j) &&
  vec3_ok (j_pmax j) && vec3_ok (j_rmin j) && vec3_ok (j_rmax j) && vec3_ok (j_lspring j) &&
  vec3_ok (j_aspring j).
End Spec.

(** A document that fits its own header. *)
Definition doc_ok (fsub1 : Z -> Z) (d : document) : bool :=
  let h := d_header d in
  header_ok h &&
  str_ok (d_name d) && str_ok (d_name_en d) && str_ok (d_comment d) && str_ok (d_comment_en d) &&
  len_ok (d_vertexes d) && forallb (vertex_ok fsub1 h) (d_vertexes d) &&
  u_ok 4 (3 * Z.of_nat (length (d_faces d))) && forallb (face_ok h) (d_faces d) &&
  len_ok (d_textures d) && forallb str_ok (d_textures d) &&
  len_ok (d_materials d) && forallb (material_ok h) (d_materials d) &&
  len_ok (d_bones d) && forallb (bone_ok h) (d_bones d) &&
  len_ok (d_morphs d) && forallb (morph_ok h) (d_morphs d) &&
  len_ok (d_bodies d) && forallb (body_ok h) (d_bodies d) &&
  len_ok (d_joints d) && forallb (joint_ok h) (d_joints d).

(** The same document with "PMX " as format tag and UTF-8 as text encoding, the only ones
    the writer produces. *)
Definition as_written (d : document) : document :=
  let h := d_header d in
  mkDoc (mkHeader pmx_magic (h_version h) (1 :: tl (h_info h)))
    (d_name d) (d_name_en d) (d_comment d) (d_comment_en d) (d_vertexes d) (d_faces d)
    (d_textures d) (d_materials d) (d_bones d) (d_morphs d) (d_bodies d) (d_joints d).

(** Joints are stored with the bone index width but read with the rigid body width. *)
Definition joint_widths_agree (d : document) : Prop :=
  d_joints d = [] \/ wd (d_header d) AttrBoneIndexSz = wd (d_header d) AttrRBIndexSz.

(** The skinning a vertex has after one save and load. *)
Definition skin_after_save (fsub1 : Z -> Z) (bs ws : list Z) : list Z * list Z :=
  match ws with
  | [] => (bs ++ [-1], [f32_one])
  | [_] => (bs, [f32_one])
  | [w; _] => (bs, [w; fsub1 w])
  | [_; _; _] => (bs ++ [-1], ws ++ [0])
  | _ => (bs, ws)
  end.

(** The bytes [w] (a panic if [None]) are read by [p] as the value [a], whatever follows. *)
Definition reads_back {A} (p : P A) (w : W) (a : A) : Prop :=
  exists bs, w = Some bs /\ forall rest, p (bs ++ rest) = ROk a rest.
