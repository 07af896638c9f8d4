(** Round trip of the PMX codec (C19-C23). *)
From Coq Require Import List ZArith Bool Lia ZifyBool ZifyNat.
From Verif.Model Require Import Num Vec Codec Pmx.
From Verif.Spec Require Import PmxSpec.
From Verif.Proofs Require Import CodecLemmas.
Import ListNotations.
Open Scope Z_scope.
Ltac Zify.zify_post_hook ::= Z.div_mod_to_equations.

Lemma u_ok_iff k v : u_ok k v = true <-> 0 <= v < 256 ^ Z.of_nat k.
Proof. unfold u_ok. rewrite andb_true_iff, Z.leb_le, Z.ltb_lt. tauto. Qed.
Lemma s_ok_iff k v : s_ok k v = true <->
  - 2 ^ (8 * Z.of_nat k - 1) <= v < 2 ^ (8 * Z.of_nat k - 1).
Proof. unfold s_ok. rewrite andb_true_iff, Z.leb_le, Z.ltb_lt. tauto. Qed.

Ltac ands :=
  repeat match goal with
  | H : (_ && _)%bool = true |- _ => apply andb_true_iff in H; destruct H
  | H : _ /\ _ |- _ => destruct H
  end.

Opaque le_enc.

Lemma codes_u k v : u_ok k v = true -> codes (read_u k) (Some (le_enc k v)) v.
Proof. intros H. apply codes_read_u. apply u_ok_iff; exact H. Qed.

Lemma codes_s k v : (0 < k)%nat -> s_ok k v = true ->
  codes (bind (read_u k) (fun u => ret (to_signed k u))) (Some (le_enc k v)) v.
Proof.
  intros Hk H. unfold read_u.
  assert (codes (bind (read_full k) (fun o => ret (match o with Some b => le_dec b | None => 0 end)))
            (Some (le_enc k v)) (le_dec (le_enc k v))) as C.
  { eapply codes_map; [apply codes_read_full; apply le_enc_length|reflexivity]. }
  eapply codes_map; [exact C|]. apply to_signed_enc; [exact Hk|]. apply s_ok_iff; exact H.
Qed.

Lemma codes_uint8 v : byte_ok v = true -> codes readUint8 (writeUint8 v) v.
Proof. apply codes_u. Qed.
Lemma codes_uint8' v : byte_ok v = true -> codes (read_u 1) (writeUint8 v) v.
Proof. apply codes_u. Qed.
Lemma codes_int v : u_ok 4 v = true -> codes readInt (writeInt v) v.
Proof. apply codes_u. Qed.
Lemma codes_float v : u_ok 4 v = true -> codes readFloat (writeFloat v) v.
Proof. apply codes_u. Qed.
Lemma codes_float' v : u_ok 4 v = true -> codes (read_u 4) (writeFloat v) v.
Proof. apply codes_u. Qed.
Lemma codes_len {A} (l : list A) : len_ok l = true ->
  codes readInt (writeInt (Z.of_nat (length l))) (Z.of_nat (length l)).
Proof. apply codes_int. Qed.

Lemma le_enc_4 v : exists a b c d, le_enc 4 v = [a; b; c; d] /\ (u_ok 4 v = true -> le_dec [a; b; c; d] = v).
Proof.
  pose proof (le_enc_length 4 v) as L.
  destruct (le_enc 4 v) as [|a [|b [|c [|d [|]]]]] eqn:E; try discriminate L.
  exists a, b, c, d. split; [reflexivity|]. intros H. rewrite <- E. apply le_dec_enc_id, u_ok_iff, H.
Qed.

Ltac enc4 v :=
  let a := fresh in let b := fresh in let c := fresh in let d := fresh in
  let E := fresh in let D := fresh in
  destruct (le_enc_4 v) as [a [b [c [d [E D]]]]]; rewrite E.

Lemma vec3_of_enc v : vec3_ok v = true ->
  vec3_of (le_enc 4 (vx v) ++ le_enc 4 (vy v) ++ le_enc 4 (vz v)) = v.
Proof.
  unfold vec3_ok. intros H; ands. destruct v as [x y z]; cbn [vx vy vz] in *.
  enc4 x; enc4 y; enc4 z. unfold vec3_of. cbn [app firstn skipn]. f_equal; auto.
Qed.
Lemma vec2_of_enc v : vec2_ok v = true ->
  vec2_of (le_enc 4 (v2x v) ++ le_enc 4 (v2y v)) = v.
Proof.
  unfold vec2_ok. intros H; ands. destruct v as [x y]; cbn [v2x v2y] in *.
  enc4 x; enc4 y. unfold vec2_of. cbn [app firstn skipn]. f_equal; auto.
Qed.
Lemma vec4_of_enc v r : vec4_ok v = true ->
  vec4_of ((le_enc 4 (qx v) ++ le_enc 4 (qy v) ++ le_enc 4 (qz v) ++ le_enc 4 (qw v)) ++ r) = v.
Proof.
  unfold vec4_ok. intros H; ands. destruct v as [x y z w]; cbn [qx qy qz qw] in *.
  enc4 x; enc4 y; enc4 z; enc4 w. unfold vec4_of. cbn [app firstn skipn]. f_equal; auto.
Qed.

Lemma codes_vec3 v : vec3_ok v = true -> codes readVec3 (writeVec3 v) v.
Proof.
  intros H. unfold readVec3, writeVec3. eapply codes_map.
  - apply codes_read_raw. rewrite !app_length, !le_enc_length. reflexivity.
  - apply vec3_of_enc; exact H.
Qed.
Lemma codes_vec4 v : vec4_ok v = true -> codes readVec4 (writeVec4 v) v.
Proof.
  intros H. unfold readVec4, writeVec4. eapply codes_map.
  - apply codes_read_raw. rewrite !app_length, !le_enc_length. reflexivity.
  - rewrite <- (app_nil_r (le_enc 4 (qx v) ++ _)). apply vec4_of_enc; exact H.
Qed.
Lemma codes_fatal_raw k b : length b = k -> codes (readFatal k) (Some b) b.
Proof.
  intros H. unfold readFatal. apply codes_wseq_nil.
  eapply codes_bind; [apply codes_read_full; exact H|]. apply codes_ret.
Qed.

Lemma codes_vint sz v : idx_ok sz v = true -> codes (readVInt sz) (writeVInt sz v) v.
Proof.
  unfold idx_ok, readVInt, writeVInt. intros H.
  destruct (sz =? 1); [apply codes_s; [lia|exact H]|].
  destruct (sz =? 2); [apply codes_s; [lia|exact H]|].
  destruct (sz =? 4); [apply codes_s; [lia|exact H]|].
  apply Z.eqb_eq in H; subst. apply codes_ret.
Qed.
Lemma codes_vuint sz v : uidx_ok sz v = true -> codes (readVUInt sz) (writeVInt sz v) v.
Proof.
  unfold uidx_ok, readVUInt, writeVInt. intros H.
  destruct (sz =? 1); [apply codes_u; exact H|].
  destruct (sz =? 2); [apply codes_u; exact H|].
  destruct (sz =? 4); [apply codes_u; exact H|].
  apply Z.eqb_eq in H; subst. apply codes_ret.
Qed.

Lemma is_zero3_eq v : is_zero3 v = true -> v = vec3_0.
Proof.
  unfold is_zero3. intros H; ands. destruct v as [x y z]; cbn in *.
  unfold vec3_0; f_equal; lia.
Qed.

Section WithHeader.
Variable utf16 : bytes -> bytes.
Variable fsub1 : Z -> Z.
Variable h : header.
Hypothesis Hlen : (8 <= length (h_info h))%nat.
Hypothesis Hutf8 : nth_error (h_info h) 0 = Some 1.

Lemma info_wd k : (k < 8)%nat -> nth_error (h_info h) k = Some (wd h k).
Proof. intros Hk. unfold wd. apply nth_error_nth'. lia. Qed.

Lemma codes_index k v : (k < 8)%nat -> idx_ok (wd h k) v = true ->
  codes (readIndex h k) (writeIndex h k v) v.
Proof.
  intros Hk H. unfold readIndex, writeIndex, info. rewrite (info_wd k Hk).
  eapply codes_skip; [reflexivity|]. apply codes_vint; exact H.
Qed.
Lemma codes_uindex k v : (k < 8)%nat -> uidx_ok (wd h k) v = true ->
  codes (readUIndex h k) (writeIndex h k v) v.
Proof.
  intros Hk H. unfold readUIndex, writeIndex, info. rewrite (info_wd k Hk).
  eapply codes_skip; [reflexivity|]. apply codes_vuint; exact H.
Qed.
Lemma codes_bidx v : bidx_ok h v = true ->
  codes (readIndex h AttrBoneIndexSz) (writeIndex h AttrBoneIndexSz v) v.
Proof. apply codes_index. unfold AttrBoneIndexSz; lia. Qed.

Lemma codes_text s : str_ok s = true -> codes (readText utf16 h) (writeText s) s.
Proof.
  unfold str_ok. intros H; ands. unfold readText, writeText.
  eapply codes_bind; [apply codes_len; assumption|].
  unfold info. unfold AttrStringEncoding. rewrite Hutf8.
  eapply codes_skip; [reflexivity|]. change (1 =? 0) with false.
  apply codes_read_raw. rewrite Nat2Z.id. reflexivity.
Qed.

Ltac cs :=
  first
  [ solve [apply codes_text; assumption]
  | solve [apply codes_vec3; assumption]
  | solve [apply codes_vec4; assumption]
  | solve [apply codes_uint8; assumption]
  | solve [apply codes_uint8'; assumption]
  | solve [apply codes_int; assumption]
  | solve [apply codes_float; assumption]
  | solve [apply codes_float'; assumption]
  | solve [apply codes_u; assumption]
  | solve [apply codes_bidx; assumption]
  | solve [apply codes_index; [unfold AttrTexIndexSz, AttrMatIndexSz, AttrMorphIndexSz, AttrRBIndexSz; lia|assumption]]
  | solve [apply codes_uindex; [unfold AttrVertIndexSz; lia|assumption]]
  | solve [apply codes_vint; assumption]
  | assumption ].
Ltac cstep := first [ eapply codes_map; [cs|] | eapply codes_bind; [cs|] ].

Lemma codes_face f : face_ok h f = true -> codes (readFace h) (writeFace h f) f.
Proof.
  unfold face_ok, readFace, writeFace. intros H; ands.
  repeat cstep. destruct f; reflexivity.
Qed.

Lemma codes_material m : material_ok h m = true ->
  codes (readMaterial utf16 h) (writeMaterial h m) m.
Proof.
  unfold material_ok, readMaterial, writeMaterial. intros H; ands.
  do 13 cstep.
  eapply codes_bind.
  { instantiate (1 := m_toon m). destruct (m_toon_type m =? 0); cs. }
  repeat cstep. destruct m; reflexivity.
Qed.

Lemma codes_link l : link_ok h l = true -> codes (readLink h) (writeLink h l) l.
Proof.
  unfold link_ok, readLink, writeLink. intros H; ands.
  cstep. destruct l as [t lim mx mn]; cbn [l_has_limit l_target l_min l_max] in *.
  destruct lim; ands.
  - eapply codes_bind; [apply codes_uint8; reflexivity|]. change (negb (1 =? 0)) with true. cbv iota.
    repeat cstep. reflexivity.
  - apply codes_wseq_nil. eapply codes_bind; [apply codes_uint8; reflexivity|].
    change (negb (0 =? 0)) with false. cbv iota.
    rewrite (is_zero3_eq mx), (is_zero3_eq mn) by assumption. apply codes_ret.
Qed.

Lemma Forall_forallb {A} (f : A -> bool) (Q : A -> Prop) l :
  (forall a, f a = true -> Q a) -> forallb f l = true -> Forall Q l.
Proof.
  intros HQ H. apply Forall_forall. intros x Hx. apply HQ.
  rewrite forallb_forall in H. auto.
Qed.

(** Optional parts: an [if] in reader and writer under the same condition. *)
Lemma codes_opt {A} (c : bool) (p q : P A) w w' a :
  (c = true -> codes p w a) -> (c = false -> codes q w' a) ->
  codes (if c then p else q) (if c then w else w') a.
Proof. destruct c; auto. Qed.

Lemma codes_bone b : bone_ok h b = true -> codes (readBone utf16 h) (writeBone h b) b.
Proof.
  unfold bone_ok, readBone, writeBone. intros H; ands.
  do 6 cstep.
  eapply codes_bind.
  { instantiate (1 := (b_tail_id b, b_tail_pos b)).
    destruct (has_flag (b_flags b) 0); ands.
    - eapply codes_map; [cs|]. rewrite (is_zero3_eq (b_tail_pos b)) by assumption. reflexivity.
    - eapply codes_map; [cs|]. f_equal. lia. }
  eapply codes_bind.
  { instantiate (1 := (b_inherit_id b, b_inherit_w b)).
    destruct (has_flag (b_flags b) 8 || has_flag (b_flags b) 9); ands.
    - repeat cstep. reflexivity.
    - replace (b_inherit_id b) with 0 by lia. replace (b_inherit_w b) with 0 by lia. apply codes_ret. }
  eapply codes_bind.
  { instantiate (1 := b_fixed_axis b). destruct (has_flag (b_flags b) 10); [cs|].
    rewrite (is_zero3_eq (b_fixed_axis b)) by assumption. apply codes_ret. }
  eapply codes_bind.
  { instantiate (1 := vec3_0). destruct (has_flag (b_flags b) 11); [|apply codes_ret].
    eapply codes_bind; apply codes_vec3; reflexivity. }
  assert (exists x, codes (if has_flag (b_flags b) 13 then readIndex h AttrBoneIndexSz else ret 0)
    (if has_flag (b_flags b) 13 then writeIndex h AttrBoneIndexSz (-1) else Some []) x) as [x Hx].
  { destruct (has_flag (b_flags b) 13); [|eexists; apply codes_ret].
    unfold readIndex, writeIndex, info.
    rewrite (info_wd AttrBoneIndexSz) by (unfold AttrBoneIndexSz; lia).
    destruct (idx_ok (wd h AttrBoneIndexSz) (-1)) eqn:E.
    - exists (-1). eapply codes_skip; [reflexivity|]. apply codes_vint; exact E.
    - exists 0. eapply codes_skip; [reflexivity|].
      unfold idx_ok, readVInt, writeVInt in *.
      destruct (wd h AttrBoneIndexSz =? 1); [discriminate E|].
      destruct (wd h AttrBoneIndexSz =? 2); [discriminate E|].
      destruct (wd h AttrBoneIndexSz =? 4); [discriminate E|].
      apply codes_ret. }
  eapply codes_bind; [exact Hx|]. cbv beta iota.
  destruct (has_flag (b_flags b) 5); ands.
  - do 3 cstep. eapply codes_bind; [apply codes_len; assumption|].
    eapply codes_map.
    + apply codes_repeat_id; [apply Nat2Z.id|].
      eapply Forall_forallb; [|eassumption]. apply codes_link.
    + destruct b; reflexivity.
  - destruct b; cbn in *. destruct ik_links; [|discriminate].
    repeat match goal with E : (_ =? 0) = true |- _ => apply Z.eqb_eq in E; subst end.
    apply codes_ret.
Qed.

Lemma codes_mg m : mg_ok h m = true -> codes (readMG h) (writeMG h m) m.
Proof. unfold mg_ok, readMG, writeMG. intros H; ands. repeat cstep. destruct m; reflexivity. Qed.
Lemma codes_mv m : mv_ok h m = true -> codes (readMV h) (writeMV h m) m.
Proof. unfold mv_ok, readMV, writeMV. intros H; ands. repeat cstep. destruct m; reflexivity. Qed.
Lemma codes_mu m : mu_ok h m = true -> codes (readMU h) (writeMU h m) m.
Proof. unfold mu_ok, readMU, writeMU. intros H; ands. repeat cstep. destruct m; reflexivity. Qed.
Lemma codes_mm m : mm_ok h m = true -> codes (readMM h) (writeMM h m) m.
Proof. unfold mm_ok, readMM, writeMM. intros H; ands. repeat cstep. destruct m; reflexivity. Qed.

Lemma wseq_nil_r a : a +++ Some [] = a.
Proof. destruct a; cbn; rewrite ?app_nil_r; reflexivity. Qed.
Lemma wseq_nil_l a : Some [] +++ a = a.
Proof. destruct a; reflexivity. Qed.

Lemma codes_morph m : morph_ok h m = true -> codes (readMorph utf16 h) (writeMorph h m) m.
Proof.
  unfold morph_ok, readMorph, writeMorph. intros H; ands.
  destruct m as [name name_en panel ty g v u ma]; cbn [mo_name mo_name_en mo_panel mo_type mo_group mo_vertex mo_uv mo_material] in *.
  do 4 cstep.
  assert (Hnil : forall A (l : list A) b, (b || is_nil l)%bool = true -> b = false -> l = []).
  { intros A l b E ->. destruct l; [reflexivity|discriminate]. }
  repeat match goal with
  | E : ((ty =? ?k) || is_nil ?l)%bool = true |- _ =>
      destruct (ty =? k) eqn:?; [clear E | apply Hnil in E; [subst l|reflexivity]]
  end;
  try (exfalso; lia);
  cbn [length Nat.add wlist fold_right]; rewrite ?wseq_nil_r, ?wseq_nil_l, ?Nat.add_0_r.
  - eapply codes_bind; [apply codes_len; assumption|]. cbv zeta. rewrite Nat2Z.id.
    replace (ty =? 2) with false by lia.
    eapply codes_map; [|reflexivity]. apply codes_repeat_id; [reflexivity|].
    eapply Forall_forallb; [|eassumption]. apply codes_mm.
  - eapply codes_bind; [apply codes_len; assumption|]. cbv zeta. rewrite Nat2Z.id.
    replace (ty =? 2) with false by lia.
    eapply codes_map; [|reflexivity]. apply codes_repeat_id; [reflexivity|].
    eapply Forall_forallb; [|eassumption]. apply codes_mu.
  - eapply codes_bind; [apply codes_len; assumption|]. cbv zeta. rewrite Nat2Z.id.
    eapply codes_map; [|reflexivity]. apply codes_repeat_id; [reflexivity|].
    eapply Forall_forallb; [|eassumption]. apply codes_mv.
  - eapply codes_bind; [apply codes_len; assumption|]. cbv zeta. rewrite Nat2Z.id.
    eapply codes_map; [|reflexivity]. apply codes_repeat_id; [reflexivity|].
    eapply Forall_forallb; [|eassumption]. apply codes_mg.
  - apply codes_wseq_nil. eapply codes_bind; [apply codes_int; reflexivity|]. cbv zeta.
    destruct (ty =? 2); apply codes_ret.
Qed.

Lemma codes_body b : body_ok h b = true -> codes (readRigidBody utf16 h) (writeBody h b) b.
Proof.
  unfold body_ok, readRigidBody, writeBody. intros H; ands.
  repeat cstep. destruct b; reflexivity.
Qed.

Lemma codes_joint j : wd h AttrBoneIndexSz = wd h AttrRBIndexSz ->
  joint_ok h j = true -> codes (readJoint utf16 h) (writeJoint h j) j.
Proof.
  unfold joint_ok, readJoint, writeJoint. intros Hw H; ands.
  do 3 cstep.
  assert (forall v, writeIndex h AttrBoneIndexSz v = writeIndex h AttrRBIndexSz v) as E.
  { intros v. unfold writeIndex.
    rewrite (info_wd AttrBoneIndexSz), (info_wd AttrRBIndexSz), Hw
      by (unfold AttrBoneIndexSz, AttrRBIndexSz; lia). reflexivity. }
  rewrite !E. repeat cstep. destruct j; reflexivity.
Qed.

Lemma wlist_vec4 l : wlist writeVec4 l =
  Some (flat_map (fun v => le_enc 4 (qx v) ++ le_enc 4 (qy v) ++ le_enc 4 (qz v) ++ le_enc 4 (qw v)) l).
Proof.
  induction l as [|v l IH]; cbn [wlist fold_right flat_map]; [reflexivity|].
  unfold wlist in IH. rewrite IH. reflexivity.
Qed.

Lemma chunk16_enc l : forallb vec4_ok l = true ->
  chunk16 (length l)
    (flat_map (fun v => le_enc 4 (qx v) ++ le_enc 4 (qy v) ++ le_enc 4 (qz v) ++ le_enc 4 (qw v)) l) = l.
Proof.
  induction l as [|v l IH]; cbn [forallb flat_map length]; intros H; [reflexivity|]. ands.
  unfold chunk16 in *. cbn [seq map]. f_equal.
  - change (16 * 0)%nat with 0%nat. cbn [skipn]. apply vec4_of_enc; assumption.
  - rewrite <- seq_shift, map_map. rewrite <- (IH H0) at 2. apply map_ext. intros i.
    f_equal. replace (16 * S i)%nat with (16 + 16 * i)%nat by lia.
    enc4 (qx v); enc4 (qy v); enc4 (qz v); enc4 (qw v). reflexivity.
Qed.

Lemma flat16_length l : length
  (flat_map (fun v : vec4 Z => le_enc 4 (qx v) ++ le_enc 4 (qy v) ++ le_enc 4 (qz v) ++ le_enc 4 (qw v)) l)
  = (16 * length l)%nat.
Proof.
  induction l as [|v l IH]; [reflexivity|]. cbn [flat_map length].
  rewrite app_length, IH, !app_length, !le_enc_length. lia.
Qed.

Definition weight_bytes (ty : Z) (ws : list Z) : W :=
  if ty =? 0 then Some []
   else if ty =? 1 then match ws with w :: _ => writeFloat w | [] => None end
   else if ty =? 3 then
     match ws with w :: _ :: r => writeFloat w +++ wlist writeFloat r | _ => None end
   else wlist writeFloat ws.

Lemma codes_bind_assoc {A B} (p : P A) (k : A -> P B) w1 w2 w3 a b :
  codes p (w1 +++ w2) a -> codes (k a) w3 b -> codes (bind p k) (w1 +++ w2 +++ w3) b.
Proof. intros H1 H2. rewrite <- wseq_assoc. eapply codes_bind; eassumption. Qed.

Lemma codes_map_map {A B C} (p : P A) (f : A -> B) (g : B -> C) w b :
  codes (bind p (fun x => ret (f x))) w b -> codes (bind p (fun x => ret (g (f x)))) w (g b).
Proof.
  intros [bs [-> H]]. exists bs. split; [reflexivity|]. intros rest. specialize (H rest).
  unfold bind, ret in *. destruct (p (bs ++ rest)); try discriminate.
  inversion H; subst. reflexivity.
Qed.

Lemma raw9 l : length l = 9%nat -> forallb (u_ok 4) l = true ->
  codes (bind (read_raw 36) (fun b => ret
    (map (fun i => le_dec (firstn 4 (skipn (4 * i) b))) (seq 0 9)))) (wlist writeFloat l) l.
Proof.
  intros L H.
  do 9 (destruct l as [|? l]; [discriminate L|]). destruct l; [|discriminate L].
  cbn [forallb] in H; ands.
  cbn [wlist fold_right writeFloat wseq].
  eapply codes_map.
  - apply codes_read_raw. rewrite !app_length, !le_enc_length. reflexivity.
  - repeat match goal with E : u_ok 4 ?x = true |- _ =>
      let Q := fresh "Q" in let D := fresh "D" in
      destruct (le_enc_4 x) as [? [? [? [? [Q D]]]]]; rewrite Q; specialize (D E); clear E Q
    end.
    cbn [seq map Nat.mul Nat.add app firstn skipn].
    subst; reflexivity.
Qed.

Lemma codes_weights bs ws :
  weights_ok fsub1 h bs ws = true ->
  let ty := weight_type (mkVertex vec3_0 vec3_0 (mkV2 0 0) [] 0 bs ws) in
  codes (readWeights fsub1 h)
    (writeUint8 ty +++ wlist (writeIndex h AttrBoneIndexSz) bs +++ weight_bytes ty ws) (bs, ws).
Proof.
  intros H ty. subst ty. unfold weights_ok in H. unfold weight_type; cbn [v_weights].
  ands. unfold readWeights.
  destruct bs as [|b0 [|b1 [|b2 [|b3 [|]]]]]; try discriminate;
  destruct ws as [|w0 [|w1 [|w2 [|w3 ws]]]]; try discriminate; cbn [length];
  cbn [forallb] in *; ands.
  - apply Z.eqb_eq in H0. subst w0.
    cbn [wlist fold_right].
    eapply codes_bind; [apply codes_uint8; reflexivity|]. change (0 =? 0) with true. cbv iota.
    unfold weight_bytes. change (0 =? 0) with true. cbv iota. rewrite !wseq_nil_r.
    eapply codes_map; [cs|reflexivity].
  - eapply codes_bind; [apply codes_uint8; reflexivity|]. change (1 =? 0) with false. change (1 =? 1) with true. cbv iota.
    unfold weight_bytes. change (1 =? 0) with false. change (1 =? 1) with true. cbv iota.
    cbn [wlist fold_right]. rewrite wseq_nil_r, !wseq_assoc.
    repeat cstep. replace w1 with (fsub1 w0) by lia. reflexivity.
  - exfalso; cbn in *; lia.
  - destruct ws as [|w4 [|w5 [|w6 [|w7 [|w8 [|w9 [|w10 [|]]]]]]]]; cbn [length] in *; try (exfalso; lia).
    eapply codes_bind; [apply codes_uint8; reflexivity|].
    change (3 =? 0) with false. change (3 =? 1) with false. change (3 =? 2) with false.
    change (3 =? 3) with true. cbv iota.
    unfold weight_bytes. change (3 =? 0) with false. change (3 =? 1) with false.
    change (3 =? 3) with true. cbv iota.
    cbn [wlist fold_right]. rewrite ?wseq_nil_r, !wseq_assoc.
    do 3 cstep.
    assert (codes (bind (read_raw 36) (fun b => ret
      (map (fun i => le_dec (firstn 4 (skipn (4 * i) b))) (seq 0 9))))
      (wlist writeFloat [w2; w3; w4; w5; w6; w7; w8; w9; w10]) [w2; w3; w4; w5; w6; w7; w8; w9; w10]) as C.
    { apply raw9; [reflexivity|]. cbn [forallb] in *; ands. rewrite ?andb_true_iff. repeat split; assumption. }
    cbn [wlist fold_right] in C. rewrite ?wseq_nil_r in C.
    replace w1 with (fsub1 w0) by lia.
    exact (codes_map_map (read_raw 36) _ (fun l => ([b0; b1], w0 :: fsub1 w0 :: l)) _ _ C).
  - destruct ws as [|]; cbn [length] in *; [|discriminate].
    eapply codes_bind; [apply codes_uint8; reflexivity|].
    change (2 =? 0) with false. change (2 =? 1) with false. change (2 =? 2) with true. cbv iota.
    unfold weight_bytes. change (2 =? 0) with false. change (2 =? 1) with false.
    change (2 =? 3) with false. cbv iota.
    cbn [wlist fold_right]. rewrite ?wseq_nil_r, !wseq_assoc.
    cbn [forallb] in *; ands.
    repeat cstep. reflexivity.
Qed.

Lemma pad_id v : weights_ok fsub1 h (v_bones v) (v_weights v) = true -> pad_vertex v = v.
Proof.
  unfold weights_ok, pad_vertex. intros H; ands.
  destruct (v_weights v) as [|w0 [|w1 [|w2 [|w3 ws]]]]; try reflexivity;
  destruct (v_bones v) as [|b0 [|b1 [|b2 [|b3 [|]]]]]; try discriminate.
  ands. cbn in *. lia.
Qed.

Lemma codes_vertex v : vertex_ok fsub1 h v = true ->
  codes (readVertex fsub1 h) (writeVertex h v) v.
Proof.
  unfold vertex_ok, writeVertex, readVertex. intros H; ands. cbv zeta.
  rewrite (pad_id v) by assumption.
  unfold writeVec3 at 1 2. unfold writeVec2.
  eapply codes_bind; [apply codes_fatal_raw; rewrite !app_length, !le_enc_length; reflexivity|].
  eapply codes_bind; [apply codes_fatal_raw; rewrite !app_length, !le_enc_length; reflexivity|].
  eapply codes_bind; [apply codes_fatal_raw; rewrite !app_length, !le_enc_length; reflexivity|].
  eapply codes_skip.
  { unfold info. rewrite (info_wd AttrExtUV) by (unfold AttrExtUV; lia). reflexivity. }
  rewrite wlist_vec4.
  eapply codes_bind.
  { apply codes_fatal_raw. rewrite flat16_length. f_equal. apply Nat.eqb_eq; eassumption. }
  pose proof (codes_weights (v_bones v) (v_weights v) H0) as CW. cbv zeta in CW.
  change (weight_type (mkVertex vec3_0 vec3_0 (mkV2 0 0) [] 0 (v_bones v) (v_weights v)))
    with (weight_type v) in CW.
  match goal with |- codes _ (writeUint8 ?t +++ ?a +++ ?b +++ ?c) _ =>
    change b with (weight_bytes t (v_weights v));
    replace (writeUint8 t +++ a +++ weight_bytes t (v_weights v) +++ c)
      with ((writeUint8 t +++ a +++ weight_bytes t (v_weights v)) +++ c) by (rewrite !wseq_assoc; reflexivity)
  end.
  eapply codes_bind; [exact CW|]. cbv beta iota.
  eapply codes_map; [cs|].
  rewrite !vec3_of_enc, vec2_of_enc by assumption.
  replace (Z.to_nat (wd h AttrExtUV)) with (length (v_ext v)) by (apply Nat.eqb_eq; assumption).
  rewrite chunk16_enc by assumption. destruct v; reflexivity.
Qed.

End WithHeader.

(** ** Result ranges of the readers *)
Lemma e_u k : ensures (read_u k) (fun v => u_ok k v = true).
Proof. eapply ensures_weaken; [apply ensures_read_u|]. intros; apply u_ok_iff; assumption. Qed.
Lemma e_s k : (0 < k)%nat -> ensures (bind (read_u k) (fun u => ret (to_signed k u))) (fun v => s_ok k v = true).
Proof.
  intros Hk. eapply ensures_bind; [apply ensures_read_u|]. intros a Ha. apply ensures_ret.
  apply s_ok_iff. apply to_signed_bound; assumption.
Qed.
Lemma e_vint sz : ensures (readVInt sz) (fun v => idx_ok sz v = true).
Proof.
  unfold readVInt, idx_ok.
  destruct (sz =? 1); [apply e_s; lia|]. destruct (sz =? 2); [apply e_s; lia|].
  destruct (sz =? 4); [apply e_s; lia|]. apply ensures_ret; reflexivity.
Qed.
Lemma e_vuint sz : ensures (readVUInt sz) (fun v => uidx_ok sz v = true).
Proof.
  unfold readVUInt, uidx_ok.
  destruct (sz =? 1); [apply e_u|]. destruct (sz =? 2); [apply e_u|].
  destruct (sz =? 4); [apply e_u|]. apply ensures_ret; reflexivity.
Qed.

Arguments has_flag : simpl never.
Arguments u_ok : simpl never.

Lemma len_ok_n {A} (l : list A) n : u_ok 4 n = true -> length l = Z.to_nat n -> len_ok l = true.
Proof.
  intros H E. unfold len_ok. rewrite E. apply u_ok_iff in H. rewrite Z2Nat.id by lia.
  apply u_ok_iff; exact H.
Qed.
Lemma forallb_Forall {A} (f : A -> bool) l : Forall (fun a => f a = true) l -> forallb f l = true.
Proof. intros H. apply forallb_forall. rewrite Forall_forall in H. exact H. Qed.

Lemma bytes_forallb b : Forall byte b -> forallb byte_ok b = true.
Proof.
  intros H. apply forallb_forall. intros x Hx. rewrite Forall_forall in H.
  apply u_ok_iff. specialize (H x Hx). unfold byte in H. cbn; lia.
Qed.
Lemma e_raw_len n : u_ok 4 n = true -> ensures (read_raw (Z.to_nat n)) (fun s => str_ok s = true).
Proof.
  intros Hn. eapply ensures_weaken; [apply ensures_read_raw|]. intros s [Hs L].
  unfold str_ok, len_ok. rewrite L, (bytes_forallb s Hs). apply u_ok_iff in Hn.
  rewrite Z2Nat.id by lia. apply u_ok_iff; exact Hn.
Qed.

Section Ensures.
Variable utf16 : bytes -> bytes.
Variable fsub1 : Z -> Z.
Variable h : header.
(** Either the file is UTF-8, or decoded UTF-16 texts fit the length field. *)
Hypothesis Hutf16 : wd h AttrStringEncoding <> 0 \/ forall b, str_ok (utf16 b) = true.

Lemma e_info k : ensures (info h k) (fun v => v = wd h k).
Proof.
  unfold info, wd. destruct (nth_error (h_info h) k) eqn:E; [|apply ensures_panic].
  apply ensures_ret. symmetry. apply nth_error_nth; exact E.
Qed.
Lemma e_index k : ensures (readIndex h k) (fun v => idx_ok (wd h k) v = true).
Proof. unfold readIndex. eapply ensures_bind; [apply e_info|]. intros a ->. apply e_vint. Qed.
Lemma e_uindex k : ensures (readUIndex h k) (fun v => uidx_ok (wd h k) v = true).
Proof. unfold readUIndex. eapply ensures_bind; [apply e_info|]. intros a ->. apply e_vuint. Qed.

Lemma e_text : ensures (readText utf16 h) (fun s => str_ok s = true).
Proof.
  unfold readText. eapply ensures_bind; [apply e_u|]. intros n Hn.
  eapply ensures_bind; [apply e_info|]. intros a ->.
  destruct (Z.eqb_spec (wd h AttrStringEncoding) 0) as [E|E]; [|apply e_raw_len; exact Hn].
  destruct Hutf16 as [N|H16]; [contradiction|].
  eapply ensures_bind; [apply ensures_read_raw|]. intros b _. apply ensures_ret. apply H16.
Qed.
Lemma dec4_ok b : Forall byte b -> u_ok 4 (le_dec (firstn 4 b)) = true.
Proof.
  intros H. apply u_ok_iff.
  pose proof (le_dec_bound (firstn 4 b) (Forall_firstn' _ _ _ H)) as B.
  pose proof (firstn_le_length 4 b) as L.
  assert (256 ^ Z.of_nat (length (firstn 4 b)) <= 256 ^ Z.of_nat 4)
    by (apply Z.pow_le_mono_r; lia). lia.
Qed.
Lemma vec3_of_ok b : Forall byte b -> vec3_ok (vec3_of b) = true.
Proof.
  intros H. unfold vec3_ok, vec3_of; cbn [vx vy vz].
  rewrite !dec4_ok; auto using Forall_skipn'.
Qed.
Lemma vec2_of_ok b : Forall byte b -> vec2_ok (vec2_of b) = true.
Proof.
  intros H. unfold vec2_ok, vec2_of; cbn [v2x v2y].
  rewrite !dec4_ok; auto using Forall_skipn'.
Qed.
Lemma vec4_of_ok b : Forall byte b -> vec4_ok (vec4_of b) = true.
Proof.
  intros H. unfold vec4_ok, vec4_of; cbn [qx qy qz qw].
  rewrite !dec4_ok; auto using Forall_skipn'.
Qed.
Lemma e_vec3 : ensures readVec3 (fun v => vec3_ok v = true).
Proof.
  unfold readVec3. eapply ensures_bind; [apply ensures_read_raw|]. intros b [Hb _].
  apply ensures_ret, vec3_of_ok, Hb.
Qed.
Lemma e_vec4 : ensures readVec4 (fun v => vec4_ok v = true).
Proof.
  unfold readVec4. eapply ensures_bind; [apply ensures_read_raw|]. intros b [Hb _].
  apply ensures_ret, vec4_of_ok, Hb.
Qed.
Lemma e_fatal k : ensures (readFatal k) (fun b => Forall byte b /\ length b = k).
Proof.
  unfold readFatal. eapply ensures_bind; [apply ensures_read_full|].
  intros [b|] H; [apply ensures_ret; exact H|apply ensures_fatal].
Qed.

Ltac es :=
  first
  [ apply e_text | apply e_vec3 | apply e_vec4 | apply e_index | apply e_uindex
  | apply e_vint | apply e_u | apply e_fatal | apply e_info ].
Ltac estep :=
  match goal with
  | |- ensures (bind _ _) _ =>
      eapply ensures_bind; [ solve [es] | let a := fresh "a" in let H := fresh "E" in intros a H; cbv beta in H ]
  | |- ensures (ret _) _ => apply ensures_ret
  end.
Ltac fin := rewrite ?andb_true_iff; repeat split; try assumption; try reflexivity.

Lemma e_face : ensures (readFace h) (fun f => face_ok h f = true).
Proof. unfold readFace. repeat estep. unfold face_ok; cbn [f_0 f_1 f_2]. fin. Qed.

Lemma e_material : ensures (readMaterial utf16 h) (fun m => material_ok h m = true).
Proof.
  unfold readMaterial. do 13 estep.
  eapply ensures_bind with (Q := fun t => (if a11 =? 0 then idx_ok (wd h AttrTexIndexSz) t else byte_ok t) = true).
  { destruct (a11 =? 0); [apply e_index|apply e_u]. }
  intros t Ht. repeat estep. unfold material_ok; cbn. fin.
Qed.

Lemma e_link : ensures (readLink h) (fun l => link_ok h l = true).
Proof.
  unfold readLink. do 2 estep. destruct (negb (a0 =? 0)); repeat estep; unfold link_ok, bidx_ok; cbn; fin.
Qed.

Lemma e_bone : ensures (readBone utf16 h) (fun b => bone_ok h b = true).
Proof.
  unfold readBone. do 6 estep.
  eapply ensures_bind with (Q := fun '(t, p) =>
    (if has_flag a4 0 then bidx_ok h t && is_zero3 p else (t =? -1) && vec3_ok p) = true).
  { destruct (has_flag a4 0); repeat estep; unfold bidx_ok; fin. }
  intros [t p] Htp.
  eapply ensures_bind with (Q := fun '(i, w) =>
    (if has_flag a4 8 || has_flag a4 9 then bidx_ok h i && u_ok 4 w else (i =? 0) && (w =? 0)) = true).
  { destruct (has_flag a4 8 || has_flag a4 9); repeat estep; unfold bidx_ok; fin. }
  intros [i w] Hiw.
  eapply ensures_bind with (Q := fun ax => (if has_flag a4 10 then vec3_ok ax else is_zero3 ax) = true).
  { destruct (has_flag a4 10); [apply e_vec3|apply ensures_ret; reflexivity]. }
  intros ax Hax.
  eapply ensures_bind with (Q := fun _ => True).
  { destruct (has_flag a4 11); [|apply ensures_ret; exact I]. estep.
    eapply ensures_weaken; [apply e_vec3|auto]. }
  intros _ _.
  eapply ensures_bind with (Q := fun _ => True).
  { destruct (has_flag a4 13); [|apply ensures_ret; exact I].
    eapply ensures_weaken; [apply e_index|auto]. }
  intros _ _.
  destruct (has_flag a4 5) eqn:F5.
  - do 4 estep. eapply ensures_bind; [apply ensures_repeat, e_link|]. intros ls [Hls Lls].
    apply ensures_ret. unfold bone_ok; cbn. rewrite F5. fin.
    + eapply len_ok_n; eassumption.
    + apply forallb_Forall; exact Hls.
  - apply ensures_ret. unfold bone_ok; cbn. rewrite F5. fin.
Qed.

Lemma e_mg : ensures (readMG h) (fun m => mg_ok h m = true).
Proof. unfold readMG. repeat estep. unfold mg_ok; cbn. fin. Qed.
Lemma e_mv : ensures (readMV h) (fun m => mv_ok h m = true).
Proof. unfold readMV. repeat estep. unfold mv_ok; cbn. fin. Qed.
Lemma e_mu : ensures (readMU h) (fun m => mu_ok h m = true).
Proof. unfold readMU. repeat estep. unfold mu_ok; cbn. fin. Qed.
Lemma e_mm : ensures (readMM h) (fun m => mm_ok h m = true).
Proof. unfold readMM. repeat estep. unfold mm_ok; cbn. fin. Qed.
Lemma e_mb : ensures (readMB h) (fun _ => True).
Proof. unfold readMB. repeat estep. exact I. Qed.

Lemma e_morph : ensures (readMorph utf16 h) (fun m => morph_ok h m = true).
Proof.
  unfold readMorph. do 5 estep. cbv zeta.
  destruct (a2 =? 0) eqn:T0.
  { eapply ensures_bind; [apply ensures_repeat, e_mg|]. intros l [Hl L]. apply ensures_ret.
    unfold morph_ok; cbn. rewrite T0, (len_ok_n l a3 E3 L), (forallb_Forall _ _ Hl). cbn.
    rewrite ?orb_true_r. fin. }
  destruct (a2 =? 1) eqn:T1.
  { eapply ensures_bind; [apply ensures_repeat, e_mv|]. intros l [Hl L]. apply ensures_ret.
    unfold morph_ok; cbn. rewrite T1, (len_ok_n l a3 E3 L), (forallb_Forall _ _ Hl). cbn.
    rewrite ?orb_true_r. fin. }
  destruct (a2 =? 2) eqn:T2.
  { eapply ensures_bind; [apply ensures_repeat, e_mb|]. intros l [Hl L]. apply ensures_ret.
    unfold morph_ok; cbn. rewrite ?orb_true_r. fin. }
  destruct (a2 =? 3) eqn:T3.
  { eapply ensures_bind; [apply ensures_repeat, e_mu|]. intros l [Hl L]. apply ensures_ret.
    unfold morph_ok; cbn. rewrite T3, (len_ok_n l a3 E3 L), (forallb_Forall _ _ Hl). cbn.
    rewrite ?orb_true_r. fin. }
  destruct (a2 =? 8) eqn:T8.
  { eapply ensures_bind; [apply ensures_repeat, e_mm|]. intros l [Hl L]. apply ensures_ret.
    unfold morph_ok; cbn. rewrite T8, (len_ok_n l a3 E3 L), (forallb_Forall _ _ Hl). cbn.
    rewrite ?orb_true_r. fin. }
  destruct (a3 =? 0); [|apply ensures_fatal]. apply ensures_ret.
  unfold morph_ok; cbn. rewrite ?orb_true_r. fin.
Qed.

Lemma e_display : ensures (readDisplayGroup utf16 h) (fun _ => True).
Proof.
  unfold readDisplayGroup. do 4 estep.
  eapply ensures_bind.
  { apply ensures_repeat with (Q := fun _ => True). estep.
    destruct (_ =? 0); (eapply ensures_weaken; [apply e_index|auto]). }
  intros; apply ensures_ret; exact I.
Qed.

Lemma e_body : ensures (readRigidBody utf16 h) (fun b => body_ok h b = true).
Proof. unfold readRigidBody. repeat estep. unfold body_ok, bidx_ok; cbn. fin. Qed.
Lemma e_joint : ensures (readJoint utf16 h) (fun j => joint_ok h j = true).
Proof. unfold readJoint. repeat estep. unfold joint_ok; cbn. fin. Qed.

Lemma e_weights : ensures (readWeights fsub1 h) (fun '(bs, ws) => weights_ok fsub1 h bs ws = true).
Proof.
  unfold readWeights. estep.
  destruct (a =? 0). { repeat estep. unfold weights_ok, bidx_ok; cbn. fin. }
  destruct (a =? 1). { repeat estep. unfold weights_ok, bidx_ok; cbn. rewrite Z.eqb_refl. fin. }
  destruct (a =? 2). { repeat estep. unfold weights_ok, bidx_ok; cbn. fin. }
  destruct (a =? 3); [|apply ensures_fatal].
  do 3 estep. eapply ensures_bind; [apply ensures_read_raw|]. intros b [Hb Lb]. apply ensures_ret.
  unfold weights_ok.
  assert (forallb (bidx_ok h) [a0; a1] = true) as -> by (unfold bidx_ok; cbn; fin).
  assert (Hm : forall n s, forallb (u_ok 4) (map (fun i => le_dec (firstn 4 (skipn (4 * i) b))) (seq s n)) = true).
  { intros n s. apply forallb_forall. intros x Hx. apply in_map_iff in Hx. destruct Hx as [i [<- _]].
    apply dec4_ok. apply Forall_skipn'; exact Hb. }
  pose proof (Hm 9%nat 0%nat) as Hm9. cbn [seq map] in *. cbv iota. rewrite Hm9, E2, Z.eqb_refl. reflexivity.
Qed.

Lemma chunk16_ok n b : Forall byte b -> forallb vec4_ok (chunk16 n b) = true.
Proof.
  intros H. apply forallb_forall. intros x Hx. apply in_map_iff in Hx. destruct Hx as [i [<- _]].
  apply vec4_of_ok, Forall_skipn', H.
Qed.

Lemma e_vertex : ensures (readVertex fsub1 h) (fun v => vertex_ok fsub1 h v = true).
Proof.
  unfold readVertex. do 5 estep.
  eapply ensures_bind; [apply e_weights|]. intros [bs ws] Hw. cbv beta iota in *.
  estep. apply ensures_ret. subst.
  unfold vertex_ok; cbn [v_pos v_normal v_uv v_ext v_edge v_bones v_weights].
  destruct E as [? _], E0 as [? _], E1 as [? _], E3 as [? _].
  rewrite !vec3_of_ok, vec2_of_ok, chunk16_ok, Hw by assumption. unfold chunk16.
  rewrite map_length, seq_length, Nat.eqb_refl. fin.
Qed.
End Ensures.

Lemma codes_counted {A} (p : P A) (f : A -> W) (l : list A) {B} (k : list A -> P B) w b :
  len_ok l = true -> Forall (fun a => codes p (f a) a) l -> codes (k l) w b ->
  codes (bind readInt (fun n => bind (repeatP (Z.to_nat n) p) k)) (wcount f l +++ w) b.
Proof.
  intros Hl HF Hk. unfold wcount. rewrite wseq_assoc.
  eapply codes_bind; [apply codes_len; exact Hl|].
  eapply codes_bind; [|exact Hk]. apply codes_repeat_id; [apply Nat2Z.id|exact HF].
Qed.

Definition writeMain (h : header) (d : document) : W :=
  writeText (d_name d) +++ writeText (d_name_en d) +++ writeText (d_comment d) +++
  writeText (d_comment_en d) +++
  wcount (writeVertex h) (d_vertexes d) +++
  (writeInt (Z.of_nat (length (d_faces d)) * 3) +++ wlist (writeFace h) (d_faces d)) +++
  wcount writeText (d_textures d) +++
  wcount (writeMaterial h) (d_materials d) +++
  wcount (writeBone h) (d_bones d) +++
  wcount (writeMorph h) (d_morphs d) +++
  writeInt 0 +++
  wcount (writeBody h) (d_bodies d) +++
  wcount (writeJoint h) (d_joints d).

Lemma writeRest_main h d : writeRest h d = writeMain h d +++ writeInt 0.
Proof. unfold writeRest, writeMain. rewrite !wseq_assoc. reflexivity. Qed.

Lemma codes_main utf16 fsub1 d :
  nth_error (h_info (d_header d)) 0 = Some 1 ->
  doc_ok fsub1 d = true -> joint_widths_agree d ->
  codes (readBody_ utf16 fsub1 (d_header d)) (writeMain (d_header d) d) d.
Proof.
  intros H1 Hd Hj. unfold doc_ok, header_ok in Hd. ands.
  assert (Hlen : (8 <= length (h_info (d_header d)))%nat) by (apply Nat.leb_le; assumption).
  unfold readBody_, writeMain.
  do 4 (eapply codes_bind; [apply codes_text; assumption|]).
  eapply codes_counted; [assumption| |].
  { eapply Forall_forallb; [|eassumption]. intros v Hv. apply codes_vertex; assumption. }
  rewrite wseq_assoc.
  eapply codes_bind; [apply codes_int; rewrite Z.mul_comm; assumption|].
  rewrite Z.div_mul by lia. rewrite Nat2Z.id.
  eapply codes_bind.
  { apply codes_repeat_id; [reflexivity|]. eapply Forall_forallb; [|eassumption].
    intros f Hf. apply codes_face; assumption. }
  eapply codes_counted; [assumption| |].
  { eapply Forall_forallb; [|eassumption]. intros s Hs. apply codes_text; assumption. }
  eapply codes_counted; [assumption| |].
  { eapply Forall_forallb; [|eassumption]. intros m Hm. apply codes_material; assumption. }
  eapply codes_counted; [assumption| |].
  { eapply Forall_forallb; [|eassumption]. intros m Hm. apply codes_bone; assumption. }
  eapply codes_counted; [assumption| |].
  { eapply Forall_forallb; [|eassumption]. intros m Hm. apply codes_morph; assumption. }
  eapply codes_bind; [apply codes_int; reflexivity|].
  eapply codes_nil_l; [change (Z.to_nat 0) with 0%nat; cbn [repeatP]; apply codes_ret|].
  eapply codes_counted; [assumption| |].
  { eapply Forall_forallb; [|eassumption]. intros m Hm. apply codes_body; assumption. }
  apply codes_wseq_nil.
  eapply codes_counted; [assumption| |].
  { destruct Hj as [E|E]; [rewrite E; constructor|].
    eapply Forall_forallb; [|eassumption]. intros m Hm. apply codes_joint; assumption. }
  destruct d; apply codes_ret.
Qed.

Transparent le_enc.

Lemma pmx_header utf16 fsub1 ver inf body rest d :
  u_ok 4 ver = true -> forallb byte_ok inf = true -> (length inf <= 255)%nat ->
  (forall r, readBody_ utf16 fsub1 (mkHeader pmx_magic ver inf) (body ++ r) = ROk d r) ->
  exists bs, writeHeader (mkHeader pmx_magic ver inf) +++ Some (body ++ rest) = Some bs /\
    parse utf16 fsub1 bs = ROk d rest.
Proof.
  intros Hv Hi Hl Hb. unfold writeHeader, wbytes, writeUint8. cbn [h_format h_version h_info wseq].
  eexists. split; [reflexivity|].
  unfold parse, pmx_magic. cbn [app].
  set (tail := (le_enc 4 ver ++ le_enc 1 (Z.of_nat (length inf)) ++ inf) ++ body ++ rest).
  change (skipn 4 (80 :: 77 :: 88 :: 32 :: tail)) with tail.
  change (firstn 4 (80 :: 77 :: 88 :: 32 :: tail)) with pmx_magic.
  change (firstn 4 (pmx_magic ++ [0; 0; 0; 0])) with pmx_magic.
  unfold parse_pmx, readHeader.
  change (negb (bytes_eqb pmx_magic pmx_magic)) with false. cbv iota. subst tail.
  assert (codes (bind (read_u 4) (fun ver => bind readUint8 (fun n =>
     bind (read_raw (Z.to_nat n)) (fun inf => ret (mkHeader pmx_magic ver inf)))))
     (Some (le_enc 4 ver) +++ Some (le_enc 1 (Z.of_nat (length inf))) +++ Some inf)
     (mkHeader pmx_magic ver inf)) as C.
  { eapply codes_bind; [apply codes_u; exact Hv|].
    eapply codes_bind; [apply codes_uint8; apply u_ok_iff; cbn; lia|].
    eapply codes_map; [apply codes_read_raw; rewrite Nat2Z.id; reflexivity|reflexivity]. }
  cbn [wseq] in C. pose proof (codes_run _ _ _ _ (body ++ rest) C eq_refl) as R.
  unfold bind at 1. rewrite R. apply Hb.
Qed.

Theorem pmx_round_trip utf16 fsub1 d :
  doc_ok fsub1 d = true -> joint_widths_agree d ->
  exists bs, write_pmx d = Some bs /\ parse utf16 fsub1 bs = ROk (as_written d) [0; 0; 0; 0].
Proof.
  intros Hd Hj.
  assert (Hd' : doc_ok fsub1 (as_written d) = true /\ joint_widths_agree (as_written d) /\
    writeMain (d_header (as_written d)) (as_written d) = writeMain (d_header (as_written d)) d /\
    fix_header (d_header d) = Some (d_header (as_written d))).
  { destruct d as [[fmt ver inf] n ne c ce vs fs ts ms bs mos rbs js].
    destruct inf as [|i0 r].
    { exfalso. unfold doc_ok, header_ok in Hd. ands. cbn in *. discriminate. }
    split; [|split; [|split]]; try reflexivity.
    - unfold doc_ok in *. unfold as_written. cbn [d_header] in *. ands.
      unfold header_ok in *. cbn [h_version h_info tl length forallb] in *. ands.
      rewrite ?andb_true_iff; repeat split; assumption.
    - exact Hj. }
  destruct Hd' as [Hd' [Hj' [Em Ef]]].
  pose proof (codes_main utf16 fsub1 (as_written d) eq_refl Hd' Hj') as [body [Eb Hb]].
  unfold write_pmx. rewrite Ef, writeRest_main. rewrite <- Em, Eb.
  cbn [wseq writeInt]. 
  unfold doc_ok, header_ok in Hd'. ands.
  destruct (pmx_header utf16 fsub1 (h_version (d_header d)) (1 :: tl (h_info (d_header d))) body
    [0; 0; 0; 0] (as_written d)) as [bs [Ew Ep]].
  - assumption.
  - assumption.
  - apply Nat.leb_le; assumption.
  - exact Hb.
  - exists bs. split; [exact Ew|exact Ep].
Qed.

(** ** Whatever the reader returns fits the format *)
Lemma e_counted {A B} (p : P A) (ok : A -> bool) (k : list A -> P B) R :
  ensures p (fun a => ok a = true) ->
  (forall l, len_ok l = true -> forallb ok l = true -> ensures (k l) R) ->
  ensures (bind readInt (fun n => bind (repeatP (Z.to_nat n) p) k)) R.
Proof.
  intros Hp Hk. eapply ensures_bind; [apply e_u|]. intros n Hn. cbv beta in Hn.
  eapply ensures_bind; [apply ensures_repeat; exact Hp|]. intros l [Hl L].
  apply Hk; [eapply len_ok_n; eassumption|apply forallb_Forall; exact Hl].
Qed.

Lemma e_doc utf16 fsub1 h :
  (wd h AttrStringEncoding <> 0 \/ forall b, str_ok (utf16 b) = true) ->
  header_ok h = true ->
  ensures (readBody_ utf16 fsub1 h) (fun d => d_header d = h /\ doc_ok fsub1 d = true).
Proof.
  intros H16 Hh. unfold readBody_.
  do 4 (eapply ensures_bind; [apply e_text; exact H16|]; let s := fresh "s" in let H := fresh "Hs" in intros s H; cbv beta in H).
  eapply e_counted; [apply e_vertex|]. intros vs Lv Fv.
  eapply ensures_bind; [apply e_u|]. intros fn Hfn. cbv beta in Hfn.
  eapply ensures_bind; [apply ensures_repeat, e_face|]. intros fs [Ff Lf].
  eapply e_counted; [apply e_text; exact H16|]. intros ts Lt Ft.
  eapply e_counted; [apply e_material; exact H16|]. intros ms Lm Fm.
  eapply e_counted; [apply e_bone; exact H16|]. intros bs Lb Fb.
  eapply e_counted; [apply e_morph; exact H16|]. intros mos Lo Fo.
  eapply ensures_bind; [apply e_u|]. intros gn _.
  eapply ensures_bind; [apply ensures_repeat, e_display; exact H16|]. intros _ _.
  eapply e_counted; [apply e_body; exact H16|]. intros rs Lr Fr.
  eapply e_counted; [apply e_joint; exact H16|]. intros js Lj Fj.
  apply ensures_ret. split; [reflexivity|].
  unfold doc_ok; cbn [d_header d_name d_name_en d_comment d_comment_en d_vertexes d_faces
    d_textures d_materials d_bones d_morphs d_bodies d_joints].
  rewrite ?andb_true_iff; repeat split; try assumption.
  - apply u_ok_iff in Hfn. apply u_ok_iff. rewrite Lf. lia.
  - apply forallb_Forall; exact Ff.
Qed.

Theorem parse_doc_ok utf16 fsub1 bs d rest :
  Forall byte bs -> parse utf16 fsub1 bs = ROk d rest ->
  (8 <= length (h_info (d_header d)))%nat ->
  (wd (d_header d) AttrStringEncoding <> 0 \/ forall b, str_ok (utf16 b) = true) ->
  doc_ok fsub1 d = true.
Proof.
  intros Hb Hp Hl H16. unfold parse in Hp. destruct bs as [|b0 bs']; [discriminate|].
  set (bs := b0 :: bs') in *.
  unfold parse_pmx, bind at 1 in Hp.
  assert (He : ensures (readHeader (firstn 4 (firstn 4 bs ++ [0; 0; 0; 0])))
    (fun h => u_ok 4 (h_version h) = true /\ forallb byte_ok (h_info h) = true /\ (length (h_info h) <= 255)%nat)).
  { unfold readHeader. destruct (negb _); [apply ensures_perr|].
    eapply ensures_bind; [apply e_u|]. intros v Hv. cbv beta in Hv.
    eapply ensures_bind; [apply e_u|]. intros n Hn. cbv beta in Hn.
    eapply ensures_bind; [apply ensures_read_raw|]. intros i [Hi Li]. apply ensures_ret.
    cbn [h_version h_info]. split; [exact Hv|]. split; [apply bytes_forallb; exact Hi|].
    apply u_ok_iff in Hn. rewrite Li. cbn in Hn. lia. }
  destruct (readHeader _ (skipn 4 bs)) as [h r| | |] eqn:Eh; try discriminate.
  destruct (He _ _ _ (Forall_skipn' _ _ _ Hb) Eh) as [[Hv [Hi Hl']] Hr].
  assert (Hdh : d_header d = h).
  { clear - Hp. revert Hp. unfold readBody_, bind, ret.
    repeat match goal with
    | |- context [match ?x with ROk _ _ => _ | _ => _ end] => destruct x; try discriminate
    end. intros E; inversion E; reflexivity. }
  rewrite Hdh in *.
  assert (header_ok h = true) as Hh.
  { unfold header_ok. rewrite ?andb_true_iff, ?Nat.leb_le. auto. }
  destruct (e_doc utf16 fsub1 h H16 Hh _ _ _ Hr Hp) as [[_ Hok] _]. exact Hok.
Qed.

Theorem pmx_resave utf16 fsub1 bs d rest :
  Forall byte bs -> parse utf16 fsub1 bs = ROk d rest ->
  (8 <= length (h_info (d_header d)))%nat ->
  (wd (d_header d) AttrStringEncoding <> 0 \/ forall b, str_ok (utf16 b) = true) ->
  joint_widths_agree d ->
  exists bs', write_pmx d = Some bs' /\ parse utf16 fsub1 bs' = ROk (as_written d) [0; 0; 0; 0].
Proof.
  intros Hb Hp Hl H16 Hj. apply pmx_round_trip; [|exact Hj].
  eapply parse_doc_ok; eassumption.
Qed.

(** ** Index wrap-around *)
Lemma codes_u_wrap k v : codes (read_u k) (Some (le_enc k v)) (v mod 256 ^ Z.of_nat k).
Proof.
  unfold read_u. eapply codes_map; [apply codes_read_full, le_enc_length|]. apply le_dec_enc.
Qed.

Lemma face_wraps h a b c :
  nth_error (h_info h) AttrVertIndexSz = Some 2 ->
  codes (readFace h) (writeFace h (mkFace a b c))
    (mkFace (a mod 65536) (b mod 65536) (c mod 65536)).
Proof.
  intros Hw. unfold readFace, writeFace, readUIndex, writeIndex, info. rewrite Hw.
  cbn [f_0 f_1 f_2].
  change (writeVInt 2) with (fun v => Some (le_enc 2 v)).
  assert (forall v, codes (bind (ret 2) readVUInt) (Some (le_enc 2 v)) (v mod 65536)) as C.
  { intros v. exact (codes_u_wrap 2 v). }
  eapply codes_bind; [apply C|]. eapply codes_bind; [apply C|].
  eapply codes_map; [apply C|reflexivity].
Qed.

(** ** Skinning *)
Definition dummy (bs ws : list Z) : vertex := mkVertex vec3_0 vec3_0 (mkV2 0 0) [] 0 bs ws.

Lemma skin_saved fsub1 h v :
  nth_error (h_info h) 0 = Some 1 -> (8 <= length (h_info h))%nat ->
  vec3_ok (v_pos v) = true -> vec3_ok (v_normal v) = true -> vec2_ok (v_uv v) = true ->
  forallb vec4_ok (v_ext v) = true -> length (v_ext v) = Z.to_nat (wd h AttrExtUV) ->
  u_ok 4 (v_edge v) = true ->
  (length (v_weights v) <= 4)%nat -> length (v_bones v) = length (v_weights v) ->
  forallb (bidx_ok h) (v_bones v) = true -> bidx_ok h (-1) = true ->
  forallb (u_ok 4) (v_weights v) = true ->
  let '(bs, ws) := skin_after_save fsub1 (v_bones v) (v_weights v) in
  codes (readVertex fsub1 h) (writeVertex h v)
    (mkVertex (v_pos v) (v_normal v) (v_uv v) (v_ext v) (v_edge v) bs ws).
Proof.
  intros H1 Hl Hp Hn Hu He Hel Hed Hw Hbw Hb Hb1 Hws.
  assert (G : forall bs ws, writeVertex h v = writeVertex h (mkVertex (v_pos v) (v_normal v) (v_uv v) (v_ext v) (v_edge v) bs ws) ->
    weights_ok fsub1 h bs ws = true ->
    codes (readVertex fsub1 h) (writeVertex h v)
      (mkVertex (v_pos v) (v_normal v) (v_uv v) (v_ext v) (v_edge v) bs ws)).
  { intros bs ws -> Hok. apply (codes_vertex (fun b => b)); try assumption.
    unfold vertex_ok; cbn [v_pos v_normal v_uv v_ext v_edge v_bones v_weights].
    rewrite Hp, Hn, Hu, He, Hed, Hok, Hel, Nat.eqb_refl. reflexivity. }
  destruct v as [pos nor uv ext edge bs ws]; cbn [v_pos v_normal v_uv v_ext v_edge v_bones v_weights] in *.
  destruct ws as [|w0 [|w1 [|w2 [|w3 [|]]]]]; cbn [length] in *; try lia;
  destruct bs as [|b0 [|b1 [|b2 [|b3 [|]]]]]; try discriminate;
  cbn [skin_after_save app]; apply G; try reflexivity;
  unfold weights_ok; cbn [forallb] in *; ands;
  rewrite ?andb_true_iff, ?Z.eqb_refl; repeat split; try assumption; try reflexivity.
Qed.

Lemma skin_after_save_idem fsub1 bs ws :
  let '(bs', ws') := skin_after_save fsub1 bs ws in skin_after_save fsub1 bs' ws' = (bs', ws').
Proof.
  destruct ws as [|w0 [|w1 [|w2 [|w3 ws]]]]; reflexivity.
Qed.

(** ** Errors are never reported once the magic has been accepted *)
Ltac ne :=
  repeat first
  [ apply no_err_ret | apply no_err_fatal | apply no_err_panic | apply no_err_read_full
  | apply no_err_repeat | (apply no_err_bind; [|intros ?])
  | match goal with |- no_err (if ?c then _ else _) => destruct c end
  | match goal with |- no_err (match ?c with _ => _ end) => destruct c end
  | progress unfold readText, readIndex, readUIndex, readVInt, readVUInt, info, readVec3, readVec4,
      readFloat, readInt, readUint8, read_raw, read_u, readFatal, readWeights ].

Lemma never_err utf16 fsub1 bs : parse utf16 fsub1 (pmx_magic ++ bs) <> RErr.
Proof.
  unfold parse. cbn [app pmx_magic].
  change (skipn 4 (80 :: 77 :: 88 :: 32 :: bs)) with bs.
  change (firstn 4 (firstn 4 (80 :: 77 :: 88 :: 32 :: bs) ++ [0; 0; 0; 0])) with pmx_magic.
  revert bs. change (no_err (parse_pmx utf16 fsub1 pmx_magic)).
  unfold parse_pmx, readHeader. change (negb (bytes_eqb pmx_magic pmx_magic)) with false. cbv iota.
  apply no_err_bind; [ne|]. intros h. unfold readBody_.
  assert (no_err (readVertex fsub1 h)) by (unfold readVertex; ne).
  assert (no_err (readFace h)) by (unfold readFace; ne).
  assert (no_err (readText utf16 h)) by ne.
  assert (no_err (readMaterial utf16 h)) by (unfold readMaterial; ne).
  assert (no_err (readBone utf16 h)) by (unfold readBone, readLink; ne).
  assert (no_err (readMorph utf16 h)) by (unfold readMorph, readMG, readMV, readMB, readMU, readMM; cbv zeta; ne).
  assert (no_err (readDisplayGroup utf16 h)) by (unfold readDisplayGroup; ne).
  assert (no_err (readRigidBody utf16 h)) by (unfold readRigidBody; ne).
  assert (no_err (readJoint utf16 h)) by (unfold readJoint; ne).
  repeat first [ assumption | apply no_err_ret | (apply no_err_repeat; assumption)
    | (apply no_err_bind; [|intros ?]) | progress unfold readInt, read_u | apply no_err_read_full ].
Qed.
