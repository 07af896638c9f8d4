(** Proofs about the PMD parser. *)
From Coq Require Import List ZArith Bool Lia.
From Coq Require DecimalNat.
From Verif.Model Require Import Num Vec Codec Pmx Vmd Pmd.
From Verif.Spec Require Import PmxSpec VmdSpec PmdSpec.
From Verif.Proofs Require Import CodecLemmas PmxProofs VmdProofs.
Import ListNotations.
Local Open Scope Z_scope.

Lemma codes_app {A B} (p : P A) (q : A -> P B) b b' a r :
  codes p (Some b) a -> codes (q a) (Some b') r -> codes (bind p q) (Some (b ++ b')) r.
Proof. intros H1 H2. rewrite some_app. eapply codes_bind; eassumption. Qed.
Lemma codes_le8 v : u_ok 1 v = true -> codes (read_u 1) (Some (le8 v)) v.
Proof. exact (codes_u 1 v). Qed.
Lemma codes_le8' v : u_ok 1 v = true -> codes readUint8 (Some (le8 v)) v.
Proof. exact (codes_u 1 v). Qed.
Lemma codes_le16 v : u_ok 2 v = true -> codes (read_u 2) (Some (le16 v)) v.
Proof. exact (codes_u 2 v). Qed.
Lemma codes_s16 v : s_ok 2 v = true -> codes (readS 2) (Some (le16 v)) v.
Proof. intros H. exact (codes_s 2 v ltac:(lia) H). Qed.
Lemma codes_s32 v : s_ok 4 v = true -> codes (readS 4) (Some (le32 v)) v.
Proof. intros H. rewrite le32_enc. exact (codes_s 4 v ltac:(lia) H). Qed.
Lemma codes_u32 v : u_ok 4 v = true -> codes (read_u 4) (Some (le32 v)) v.
Proof. rewrite le32_enc. exact (codes_u 4 v). Qed.
Lemma codes_u32f v : u_ok 4 v = true -> codes readFloat (Some (le32 v)) v.
Proof. exact (codes_u32 v). Qed.
Lemma codes_v3b v : vec3_ok v = true -> codes readVec3 (Some (v3b v)) v.
Proof. exact (codes_v3 v). Qed.
Lemma codes_v4b v : vec4_ok v = true -> codes readVec4 (Some (v4b v)) v.
Proof. exact (codes_v4 v). Qed.
Lemma vec2_dec v : vec2_ok v = true -> vec2_of (v2b v) = v.
Proof. intros H. unfold v2b. rewrite !le32_enc. now apply vec2_of_enc. Qed.

Section D.
Variable sjis : bytes -> bytes.
Variable fdiv100 : Z -> Z.
Variable fsub1 : Z -> Z.
Variable fofu8 : Z -> Z.
Variable flt1 : Z -> bool.
Lemma codes_pstring k t j : field_ok k t j -> codes (pstring sjis k) (Some (field k t j)) (sjis t).
Proof. exact (codes_string sjis k t j). Qed.

Lemma codes_pvertex v : pv_ok v -> codes (pmd_vertex fdiv100 fsub1 fofu8) (Some (pv_bytes v)) (r_vertex fdiv100 fsub1 fofu8 v).
Proof.
  intros (H1 & H2 & H3 & H4 & H5 & H6 & H7). unfold pmd_vertex, pv_bytes.
  eapply codes_app; [apply codes_v3b, H1|]. eapply codes_app; [apply codes_v3b, H2|].
  eapply codes_app; [apply codes_read_raw; reflexivity|]. eapply codes_app; [apply codes_s16, H4|].
  eapply codes_app; [apply codes_s16, H5|]. eapply codes_app; [apply codes_le8', H6|].
  eapply codes_map; [apply codes_le8', H7|]. rewrite vec2_dec by exact H3. reflexivity.
Qed.

Lemma codes_pface f : pf_ok f -> codes (bind (read_u 2) (fun a => bind (read_u 2) (fun b => bind (read_u 2) (fun c => ret (mkFace a b c))))) (Some (pf_bytes f)) f.
Proof.
  intros (H1 & H2 & H3). unfold pf_bytes. eapply codes_app; [apply codes_le16, H1|]. eapply codes_app; [apply codes_le16, H2|].
  eapply codes_map; [apply codes_le16, H3|]. now destruct f.
Qed.

(** ** Materials *)
Lemma split_star_cons a s : a <> 42 -> split_star (a :: s) = match split_star s with [] => [[a]] | x :: l => (a :: x) :: l end.
Proof. intros H. cbn. destruct (Z.eqb_spec a 42); congruence. Qed.
Lemma split_star_none s : ~ In 42 s -> split_star s = [s].
Proof.
  induction s as [|a s IH]; intros H; [reflexivity|]. cbn in H. rewrite split_star_cons by tauto. now rewrite IH by tauto.
Qed.
Lemma split_star_some a b : ~ In 42 a -> split_star (a ++ 42 :: b) = [a; b].
Proof.
  induction a as [|x a IH]; intros H; [reflexivity|]. cbn in H. change ((x :: a) ++ 42 :: b) with (x :: (a ++ 42 :: b)). rewrite split_star_cons by tauto. now rewrite IH by tauto.
Qed.
Lemma split_case s : ~ In 42 s \/ exists a b, s = a ++ 42 :: b /\ ~ In 42 a.
Proof.
  induction s as [|x s [IH|(a & b & -> & IH)]]; [left; tauto| |].
  - destruct (Z.eq_dec x 42) as [->|N]; [right; now exists [], s|left; cbn; intuition congruence].
  - destruct (Z.eq_dec x 42) as [->|N]; [right; now exists [], (a ++ 42 :: b)|right]. exists (x :: a), b. split; [reflexivity|]. cbn. intuition congruence.
Qed.
Definition tex_list (s : bytes) : list bytes := match split_star s with (_ :: _) :: _ => split_star s | _ => [] end.
Lemma tex_list_spec s : textures_of s (tex_list s).
Proof.
  unfold tex_list. destruct (split_case s) as [H|(a & b & -> & H)].
  - rewrite split_star_none by exact H. destruct s as [|c s]; [now apply tex_none|]. apply tex_one; [discriminate|exact H].
  - rewrite split_star_some by exact H. destruct a as [|c a]; [apply tex_none; reflexivity|]. apply tex_two; [discriminate|exact H].
Qed.
Lemma textures_of_fun s t : textures_of s t -> t = tex_list s.
Proof.
  unfold tex_list. intros [s' H|s' H1 H2|a b H1 H2].
  - destruct s' as [|c s']; [reflexivity|]. subst c. reflexivity.
  - rewrite split_star_none by exact H2. now destruct s'.
  - rewrite split_star_some by exact H2. now destruct a.
Qed.
Definition mat_of (i nt : nat) (m : pmaterial) : material :=
  mkMaterial (mat_name i) [] (pm_color m) (pm_specular m) (pm_specularity m) (pm_ambient m)
         (if flt1 (qw (pm_color m)) then 1 else 0) (mkV4 0 0 0 0) (fofu8 (pm_edge m))
         (match tex_list (sjis (pm_tex m)) with [] => -1 | _ => Z.of_nat nt end) 0 0 0 (pm_toon m) [] (pm_count m).
Lemma codes_pmaterial i nt m : pm_ok m ->
  codes (pmd_material sjis fofu8 flt1 i nt) (Some (pm_bytes m)) (mat_of i nt m, tex_list (sjis (pm_tex m))).
Proof.
  intros (H1 & H2 & H3 & H4 & H5 & H6 & H7 & H8). unfold pmd_material, pm_bytes.
  eapply codes_app; [apply codes_v4b, H1|]. eapply codes_app; [apply codes_u32, H2|].
  eapply codes_app; [apply codes_v3b, H3|]. eapply codes_app; [apply codes_v3b, H4|].
  eapply codes_app; [apply codes_le8', H5|]. eapply codes_app; [apply codes_le8', H6|].
  eapply codes_app; [apply codes_le32, H7|]. eapply codes_map; [apply codes_pstring, H8|].
  unfold mat_of, tex_list. destruct (split_star (sjis (pm_tex m))) as [|[|c x] l]; reflexivity.
Qed.
Lemma codes_pmaterials l : forall i texs, Forall pm_ok l -> exists ms ts,
  r_materials sjis fofu8 flt1 i (length texs) l ms ts /\
  codes (pmd_materials sjis fofu8 flt1 (length l) i texs) (Some (flat_map pm_bytes l)) (ms, texs ++ ts).
Proof.
  induction l as [|m l IH]; intros i texs H.
  - exists [], []. split; [constructor|]. rewrite app_nil_r. apply codes_ret.
  - inversion_clear H as [|? ? Hm Hl]. destruct (IH (S i) (texs ++ tex_list (sjis (pm_tex m))) Hl) as (ms & ts & Hr & Hc).
    rewrite app_length in Hr. eexists _, _. split.
    + apply rm_cons; [apply tex_list_spec | exact Hr].
    + cbn [length pmd_materials flat_map]. eapply codes_app; [apply codes_pmaterial, Hm|]. cbv beta iota.
      rewrite <- (app_nil_r (flat_map pm_bytes l)). eapply codes_app; [exact Hc|]. cbv beta iota. rewrite <- app_assoc. apply codes_ret.
Qed.
Lemma r_materials_fun i n l ms ts : r_materials sjis fofu8 flt1 i n l ms ts ->
  forall ms' ts', r_materials sjis fofu8 flt1 i n l ms' ts' -> ms = ms' /\ ts = ts'.
Proof.
  induction 1 as [i n|i n m l t ms ts Ht H IH]; intros ms' ts' H'; inversion H' as [|? ? ? ? t' ms2 ts2 Ht' H2]; subst; [auto|].
  apply textures_of_fun in Ht, Ht'. subst t t'. destruct (IH _ _ H2) as [-> ->]. auto.
Qed.

(** ** Bones *)
Definition bone0 (b : pbone) : bone :=
  mkBone (sjis (pb_name b)) [] (pb_pos b) (pb_parent b) 0 0 (if pb_tail b =? 0 then -1 else pb_tail b) vec3_0 0 0 vec3_0 0 0 0 [].
Lemma codes_pbone b : pb_ok b -> codes (pmd_bone sjis) (Some (pb_bytes b)) (bone0 b).
Proof.
  intros (H1 & H2 & H3 & H4 & H5 & H6). unfold pmd_bone, pb_bytes.
  eapply codes_app; [apply codes_pstring, H1|]. eapply codes_app; [apply codes_s16, H2|].
  eapply codes_app; [apply codes_s16, H3|]. eapply codes_app; [apply codes_le8', H4|].
  eapply codes_app; [apply codes_le16, H5|]. eapply codes_map; [apply codes_v3b, H6|]. reflexivity.
Qed.
Definition setk (b : bone) (k : pik) : bone := set_ik b (pk_target k) (pk_loop k) (pk_links k).
Lemma codes_pik bones k : pk_ok k -> (pk_bone k < length bones)%nat ->
  codes (pmd_ik bones) (Some (pk_bytes k)) (upd bones (pk_bone k) (fun b => setk b k)).
Proof.
  intros (H1 & H2 & H3 & H4 & H5 & H6) H. unfold pmd_ik, pk_bytes.
  eapply codes_app; [apply codes_le16, H1|]. rewrite Nat2Z.id. destruct (Nat.ltb_spec (pk_bone k) (length bones)); [|lia].
  eapply codes_app; [apply codes_s16, H2|]. eapply codes_app; [apply codes_le8'; apply u_ok_iff; lia|].
  eapply codes_app; [apply codes_le16, H3|]. eapply codes_app; [apply codes_u32f, H4|].
  eapply codes_map; [apply (codes_many _ le16 (fun l => l)); [now rewrite Nat2Z.id|]|].
  - eapply Forall_impl; [|exact H6]. apply codes_s16.
  - cbv beta. rewrite map_id. reflexivity.
Qed.
Lemma upd_length {A} (l : list A) i f : length (upd l i f) = length l.
Proof. revert i. induction l; intros [|i]; cbn; auto. Qed.
Lemma upd_nth {A} (l : list A) i f j : nth_error (upd l i f) j = if Nat.eqb i j then option_map f (nth_error l j) else nth_error l j.
Proof.
  revert i j. induction l as [|a l IH]; intros [|i] [|j]; cbn; try reflexivity; [now destruct (Nat.eqb i j)|apply IH].
Qed.
Definition apply_iks (ks : list pik) (bones : list bone) : list bone :=
  fold_left (fun bs k => upd bs (pk_bone k) (fun b => setk b k)) ks bones.
Lemma codes_piks ks : forall bones, Forall pk_ok ks -> Forall (fun k => pk_bone k < length bones)%nat ks ->
  codes (pmd_iks (length ks) bones) (Some (flat_map pk_bytes ks)) (apply_iks ks bones).
Proof.
  induction ks as [|k ks IH]; intros bones H1 H2; [apply codes_ret|]. inversion_clear H1. inversion_clear H2.
  cbn [length pmd_iks flat_map]. eapply codes_app; [apply codes_pik; assumption|]. apply IH; [assumption|]. now rewrite upd_length.
Qed.
Lemma apply_iks_length ks : forall bones, length (apply_iks ks bones) = length bones.
Proof. induction ks as [|k ks IH]; intros bones; [reflexivity|]. cbn [apply_iks fold_left]. unfold apply_iks in IH. now rewrite IH, upd_length. Qed.
Lemma apply_iks_nth ks : forall bones i, nth_error (apply_iks ks bones) i = option_map (fun b => fold_left setk (iks_of ks i) b) (nth_error bones i).
Proof.
  induction ks as [|k ks IH]; intros bones i; [cbn; now destruct (nth_error bones i)|].
  cbn [apply_iks fold_left]. unfold apply_iks in IH. rewrite IH, upd_nth. unfold iks_of. cbn [filter].
  destruct (Nat.eqb (pk_bone k) i); destruct (nth_error bones i); reflexivity.
Qed.
Lemma last_cons {A} (l : list A) : forall x d, last (x :: l) d = last l x.
Proof.
  induction l as [|y l IH]; intros x d; [reflexivity|]. change (last (x :: y :: l) d) with (last (y :: l) d). now rewrite !IH.
Qed.
Lemma last_cons_map {A B} (f : A -> B) l d x : last (map f (x :: l)) d = last (map f l) (f x).
Proof. cbn [map]. apply last_cons. Qed.
Lemma setk_fold ks : forall b, fold_left setk ks b =
  mkBone (b_name b) (b_name_en b) (b_pos b) (b_parent b) (b_layer b) (b_flags b) (b_tail_id b) (b_tail_pos b)
    (b_inherit_id b) (b_inherit_w b) (b_fixed_axis b) (last (map pk_target ks) (ik_target b)) (last (map pk_loop ks) (ik_loop b)) (ik_limit b)
    (ik_links b ++ map (fun t => mkLink t false vec3_0 vec3_0) (flat_map pk_links ks)).
Proof.
  induction ks as [|k ks IH]; intros b; [cbn; rewrite app_nil_r; now destruct b|].
  cbn [fold_left flat_map]. rewrite IH, !last_cons_map. cbn [setk set_ik b_name b_name_en b_pos b_parent b_layer b_flags b_tail_id b_tail_pos b_inherit_id b_inherit_w b_fixed_axis ik_target ik_loop ik_limit ik_links].
  now rewrite map_app, app_assoc.
Qed.
Lemma bones_spec bs ks : length (apply_iks ks (map bone0 bs)) = length bs /\
  forall i b, nth_error bs i = Some b -> nth_error (apply_iks ks (map bone0 bs)) i = Some (r_bone sjis ks i b).
Proof.
  split; [now rewrite apply_iks_length, map_length|]. intros i b H.
  rewrite apply_iks_nth, (map_nth_error _ _ _ H). cbn [option_map]. now rewrite setk_fold.
Qed.

(** ** Morphs *)
Definition raw_vs (m : pmorph) : list morph_vertex := map (fun v => mkMV (fst v) (snd v)) (po_vs m).
Definition raw_morph (m : pmorph) : morph := mkMorph (sjis (po_name m)) [] (po_panel m) 0 [] (raw_vs m) [] [].
Lemma codes_pmorph m : po_ok m -> codes (pmd_morph sjis) (Some (po_bytes m)) (raw_morph m).
Proof.
  intros (H1 & H2 & H3 & H4). unfold pmd_morph, po_bytes.
  eapply codes_app; [apply codes_pstring, H1|]. eapply codes_app; [apply codes_le32, H2|].
  eapply codes_app; [apply codes_le8, H3|]. eapply codes_map; [|reflexivity].
  apply (codes_many _ pvb (fun v => mkMV (fst v) (snd v))); [now rewrite Nat2Z.id|].
  eapply Forall_impl; [|exact H4]. intros v [Ha Hb]. unfold pvb.
  eapply codes_app; [apply codes_s32, Ha|]. eapply codes_map; [apply codes_v3b, Hb|]. reflexivity.
Qed.
Lemma base_targets_in base m : po_in base m -> base_targets (raw_vs base) (raw_vs m) = Some (mo_vertex (r_morph sjis base m)).
Proof.
  unfold po_in, raw_vs at 2, r_morph. cbn [mo_vertex]. induction (po_vs m) as [|v l IH]; intros H; [reflexivity|].
  inversion_clear H as [|? ? Hv Hl]. cbn [map base_targets]. rewrite (IH Hl). unfold base_target. cbn [mv_target mv_offset].
  destruct (Z.leb_spec 0 (fst v)); [|lia]. unfold raw_vs.
  assert (L : (Z.to_nat (fst v) < length (po_vs base))%nat) by lia.
  rewrite (map_nth_error _ _ _ (nth_error_nth' _ (0, vec3_0) L)). reflexivity.
Qed.
Lemma base_targets_out base m : ~ po_in base m -> base_targets (raw_vs base) (raw_vs m) = None.
Proof.
  unfold po_in, raw_vs at 2. induction (po_vs m) as [|v l IH]; intros H; [destruct H; constructor|].
  cbn [map base_targets]. unfold base_target. cbn [mv_target mv_offset].
  destruct (Z.leb_spec 0 (fst v)) as [H0|H0]; [|reflexivity].
  destruct (nth_error (raw_vs base) (Z.to_nat (fst v))) eqn:E; [|reflexivity].
  rewrite IH; [now destruct (base_targets _ _)|]. intros Hl. apply H. constructor; [|exact Hl].
  assert (Z.to_nat (fst v) < length (raw_vs base))%nat by (apply nth_error_Some; congruence). unfold raw_vs in *. rewrite map_length in *. lia.
Qed.
Lemma codes_pmorphs base ms : Forall po_ok ms -> Forall (po_in base) ms ->
  codes (pmd_morphs sjis (length ms) (raw_vs base)) (Some (flat_map po_bytes ms)) (map (r_morph sjis base) ms).
Proof.
  induction ms as [|m ms IH]; intros H1 H2; [apply codes_ret|]. inversion_clear H1. inversion_clear H2.
  cbn [length pmd_morphs flat_map map]. eapply codes_app; [apply codes_pmorph; assumption|].
  cbn [mo_vertex raw_morph]. rewrite base_targets_in by assumption. eapply codes_map; [apply IH; assumption|]. reflexivity.
Qed.

Definition tail_morphs (pn : Z) : P (list morph) :=
  if 0 <? pn then bind (pmd_morph sjis) (fun base => pmd_morphs sjis (Z.to_nat (pn - 1)) (mo_vertex base)) else ret [].
Definition tail_bytes (w : pmd) : bytes :=
  match p_morphs w with
  | None => le16 0
  | Some (base, ms) => le16 (1 + Z.of_nat (length ms)) ++ po_bytes base ++ flat_map po_bytes ms
  end.
Lemma codes_tail w : pmd_fits w -> pmd_indexed w ->
  codes (bind (read_u 2) tail_morphs) (Some (tail_bytes w)) (match p_morphs w with None => [] | Some (base, ms) => map (r_morph sjis base) ms end).
Proof.
  intros (_ & _ & _ & _ & _ & _ & _ & _ & _ & _ & _ & _ & _ & Hm) [_ Hb]. unfold tail_bytes, tail_morphs.
  destruct (p_morphs w) as [[base ms]|].
  - destruct Hm as (H1 & H2 & H3). eapply codes_app; [apply codes_le16, H1|]. destruct (Z.ltb_spec 0 (1 + Z.of_nat (length ms))); [|lia].
    eapply codes_app; [apply codes_pmorph, H2|]. replace (1 + Z.of_nat (length ms) - 1) with (Z.of_nat (length ms)) by lia. rewrite Nat2Z.id.
    apply codes_pmorphs; assumption.
  - change (le16 0) with (le16 0 ++ []). eapply codes_app; [apply codes_le16; reflexivity|]. apply codes_ret.
Qed.

(** The parser in two parts. *)
Definition body (bs : list bone) (k : list bone -> list morph -> document) : P document :=
  bind (read_u 2) (fun kn => bind (pmd_iks (Z.to_nat kn) bs) (fun bs' => bind (bind (read_u 2) tail_morphs) (fun ps => ret (k bs' ps)))).
Lemma bind_assoc {A B C} (p : P A) (q : A -> P B) (r : B -> P C) bs : bind (bind p q) r bs = bind p (fun a => bind (q a) r) bs.
Proof. unfold bind. now destruct (p bs). Qed.
Lemma bind_ext {A B} (p : P A) (q q' : A -> P B) bs : (forall a bs, q a bs = q' a bs) -> bind p q bs = bind p q' bs.
Proof. intros H. unfold bind. destruct (p bs); auto. Qed.
Definition parse_pmd2 : P document :=
  bind (read_u 4) (fun ver => bind (pstring sjis 20) (fun name => bind (pstring sjis 256) (fun comment =>
  bind readInt (fun vn => bind (repeatP (Z.to_nat vn) (pmd_vertex fdiv100 fsub1 fofu8)) (fun vs =>
  bind readInt (fun fn => bind (repeatP (Z.to_nat (fn / 3)) (bind (read_u 2) (fun a => bind (read_u 2) (fun b => bind (read_u 2) (fun c => ret (mkFace a b c)))))) (fun fs =>
  bind readInt (fun mn => bind (pmd_materials sjis fofu8 flt1 (Z.to_nat mn) 0 []) (fun x => match x with (ms, ts) =>
  bind (read_u 2) (fun bn => bind (repeatP (Z.to_nat bn) (pmd_bone sjis)) (fun bs =>
    body bs (fun bs' ps => mkDoc (mkHeader pmd_magic ver []) name [] comment [] vs fs ts ms bs' ps [] []))) end))))))))).
Lemma parse_pmd_eq bs : parse_pmd sjis fdiv100 fsub1 fofu8 flt1 bs = parse_pmd2 bs.
Proof.
  unfold parse_pmd, parse_pmd2. repeat (apply bind_ext; intros). destruct a7 as [ms ts]. repeat (apply bind_ext; intros).
  now rewrite bind_assoc.
Qed.
Definition doc_of (w : pmd) (ms : list material) (ts : list bytes) (bs : list bone) (ps : list morph) : document :=
  mkDoc (mkHeader pmd_magic (p_version w) []) (sjis (p_name w)) [] (sjis (p_comment w)) []
    (map (r_vertex fdiv100 fsub1 fofu8) (p_vertices w)) (p_faces w) ts ms bs ps [] [].
(** Everything up to the bones is read whatever follows. *)
Definition first_bytes (w : pmd) : bytes :=
  le32 (p_version w) ++ field 20 (p_name w) (p_njunk w) ++ field 256 (p_comment w) (p_cjunk w) ++
  le32 (Z.of_nat (length (p_vertices w))) ++ flat_map pv_bytes (p_vertices w) ++
  le32 (3 * Z.of_nat (length (p_faces w))) ++ flat_map pf_bytes (p_faces w) ++
  le32 (Z.of_nat (length (p_materials w))) ++ flat_map pm_bytes (p_materials w) ++
  le16 (Z.of_nat (length (p_bones w))) ++ flat_map pb_bytes (p_bones w).
Lemma pmd_bytes_split w : pmd_bytes w = pmd_magic ++ first_bytes w ++ le16 (Z.of_nat (length (p_iks w))) ++ flat_map pk_bytes (p_iks w) ++ tail_bytes w.
Proof. unfold pmd_bytes, pmd_head, first_bytes, tail_bytes. now rewrite <- !app_assoc. Qed.
Ltac run H := let E := fresh in destruct H as (? & [= <-] & E); unfold bind at 1; rewrite <- ?app_assoc, E; clear E.
Lemma first_part w : pmd_fits w -> exists ms ts, r_materials sjis fofu8 flt1 0 0 (p_materials w) ms ts /\
  forall rest, parse_pmd2 (first_bytes w ++ rest) = body (map bone0 (p_bones w)) (doc_of w ms ts) rest.
Proof.
  intros (H1 & H2 & H3 & H4 & H5 & H6 & H7 & H8 & H9 & H10 & H11 & _).
  destruct (codes_pmaterials (p_materials w) 0 [] H9) as (ms & ts & Hr & Hc).
  exists ms, ts. split; [exact Hr|]. intros rest. unfold first_bytes, parse_pmd2. rewrite <- !app_assoc.
  run (codes_u32 _ H1). run (codes_pstring _ _ _ H2). run (codes_pstring _ _ _ H3). run (codes_le32 _ H4).
  assert (C : codes (repeatP (Z.to_nat (Z.of_nat (length (p_vertices w)))) (pmd_vertex fdiv100 fsub1 fofu8)) (Some (flat_map pv_bytes (p_vertices w))) (map (r_vertex fdiv100 fsub1 fofu8) (p_vertices w))).
  { apply codes_many; [now rewrite Nat2Z.id|]. eapply Forall_impl; [|exact H5]. apply codes_pvertex. }
  run C. run (codes_le32 _ H6).
  assert (C : codes (repeatP (Z.to_nat (3 * Z.of_nat (length (p_faces w)) / 3)) (bind (read_u 2) (fun a => bind (read_u 2) (fun b => bind (read_u 2) (fun c => ret (mkFace a b c)))))) (Some (flat_map pf_bytes (p_faces w))) (map (fun f => f) (p_faces w))).
  { apply codes_many; [rewrite Z.mul_comm, Z.div_mul by lia; now rewrite Nat2Z.id|]. eapply Forall_impl; [|exact H7]. apply codes_pface. }
  run C. rewrite map_id. run (codes_le32 _ H8). rewrite Nat2Z.id. run Hc. cbv beta iota. cbn [app].
  run (codes_le16 _ H10). 
  assert (C : codes (repeatP (Z.to_nat (Z.of_nat (length (p_bones w)))) (pmd_bone sjis)) (Some (flat_map pb_bytes (p_bones w))) (map bone0 (p_bones w))).
  { apply codes_many; [now rewrite Nat2Z.id|]. eapply Forall_impl; [|exact H11]. apply codes_pbone. }
  run C. reflexivity.
Qed.
Theorem pmd_decodes w rest utf16 : pmd_fits w -> pmd_indexed w -> exists d,
  parse_mmd sjis fdiv100 fsub1 fofu8 flt1 utf16 (pmd_bytes w ++ rest) = ROk d rest /\ r_pmd sjis fdiv100 fsub1 fofu8 flt1 w d.
Proof.
  intros Hf Hi. destruct (first_part w Hf) as (ms & ts & Hr & Hc).
  exists (doc_of w ms ts (apply_iks (p_iks w) (map bone0 (p_bones w))) (match p_morphs w with None => [] | Some (base, ms) => map (r_morph sjis base) ms end)).
  split.
  - rewrite pmd_bytes_split. unfold parse_mmd. cbn [app pmd_magic firstn skipn].
    change (bytes_eqb [80; 109; 100] [80; 109; 100]) with true. cbv iota. rewrite parse_pmd_eq, <- app_assoc, Hc. unfold body.
    pose proof Hf as (_ & _ & _ & _ & _ & _ & _ & _ & _ & _ & _ & H12 & H13 & _). pose proof Hi as [Hi1 _].
    rewrite <- !app_assoc. run (codes_le16 _ H12). rewrite Nat2Z.id.
    assert (Hi1' : Forall (fun k => pk_bone k < length (map bone0 (p_bones w)))%nat (p_iks w)) by now rewrite map_length.
    run (codes_piks _ _ H13 Hi1'). run (codes_tail w Hf Hi). reflexivity.
  - unfold r_pmd, doc_of. cbn. repeat (split; [reflexivity || exact Hr || apply bones_spec|]). split; reflexivity.
Qed.

(** ** Panics *)
Lemma piks_panic ks : forall bones rest, Forall pk_ok ks -> ~ Forall (fun k => pk_bone k < length bones)%nat ks ->
  pmd_iks (length ks) bones (flat_map pk_bytes ks ++ rest) = RPanic.
Proof.
  induction ks as [|k ks IH]; intros bones rest H1 H2; [destruct H2; constructor|]. inversion_clear H1 as [|? ? Hk Hks].
  cbn [length pmd_iks flat_map]. rewrite <- app_assoc. destruct (Nat.ltb_spec (pk_bone k) (length bones)) as [H|H].
  - run (codes_pik bones k Hk H). apply IH; [exact Hks|]. rewrite upd_length. intros Hl. apply H2. now constructor.
  - unfold bind at 1, pmd_ik, pk_bytes. rewrite <- !app_assoc. destruct Hk as (H1 & _). run (codes_le16 _ H1). rewrite Nat2Z.id.
    destruct (Nat.ltb_spec (pk_bone k) (length bones)); [lia|]. reflexivity.
Qed.
Lemma pmorphs_panic base ms rest : Forall po_ok ms -> ~ Forall (po_in base) ms ->
  pmd_morphs sjis (length ms) (raw_vs base) (flat_map po_bytes ms ++ rest) = RPanic.
Proof.
  induction ms as [|m ms IH]; intros H1 H2; [destruct H2; constructor|]. inversion_clear H1 as [|? ? Hm Hms].
  cbn [length pmd_morphs flat_map]. rewrite <- app_assoc. run (codes_pmorph m Hm). cbn [mo_vertex raw_morph].
  destruct (base_targets (raw_vs base) (raw_vs m)) eqn:E; [|reflexivity].
  unfold bind. rewrite IH; [reflexivity|exact Hms|]. intros Hl. apply H2. constructor; [|exact Hl].
  unfold po_in. apply Forall_forall. intros v Hv.
  destruct (Z_le_dec 0 (fst v)) as [Ha|Ha]; [destruct (Z_lt_dec (fst v) (Z.of_nat (length (po_vs base)))) as [Hb|Hb]; [lia|]|];
    (rewrite base_targets_out in E; [discriminate|]; intros Hin; apply (proj1 (Forall_forall _ _) Hin) in Hv; lia).
Qed.
Theorem pmd_panics w rest utf16 : pmd_fits w -> ~ pmd_indexed w ->
  parse_mmd sjis fdiv100 fsub1 fofu8 flt1 utf16 (pmd_bytes w ++ rest) = RPanic.
Proof.
  intros Hf Hi. destruct (first_part w Hf) as (ms & ts & _ & Hc).
  rewrite pmd_bytes_split. unfold parse_mmd. cbn [app pmd_magic firstn skipn].
  change (bytes_eqb [80; 109; 100] [80; 109; 100]) with true. cbv iota. rewrite parse_pmd_eq, <- app_assoc, Hc. unfold body.
  pose proof Hf as (_ & _ & _ & _ & _ & _ & _ & _ & _ & _ & _ & H12 & H13 & Hm).
  rewrite <- !app_assoc. run (codes_le16 _ H12). rewrite Nat2Z.id.
  destruct (Forall_dec (fun k => pk_bone k < length (map bone0 (p_bones w)))%nat (fun k => lt_dec _ _) (p_iks w)) as [Hk|Hk].
  - run (codes_piks _ _ H13 Hk). unfold tail_bytes. rewrite map_length in Hk. unfold pmd_indexed in Hi. destruct (p_morphs w) as [[base l]|]; [|tauto].
    destruct Hm as (M1 & M2 & M3). rewrite bind_assoc, <- !app_assoc. run (codes_le16 _ M1). unfold tail_morphs.
    destruct (Z.ltb_spec 0 (1 + Z.of_nat (length l))); [|lia]. rewrite bind_assoc. run (codes_pmorph base M2).
    replace (1 + Z.of_nat (length l) - 1) with (Z.of_nat (length l)) by lia. rewrite Nat2Z.id. cbn [mo_vertex raw_morph].
    unfold bind. rewrite pmorphs_panic; [reflexivity|exact M3|tauto].
  - unfold bind. rewrite piks_panic by assumption. reflexivity.
Qed.

(** ** No error is ever returned *)
Lemma no_err_u k : no_err (read_u k). Proof. apply no_err_bind; [apply no_err_read_full|]. intros. apply no_err_ret. Qed.
Lemma no_err_raw k : no_err (read_raw k). Proof. apply no_err_bind; [apply no_err_read_full|]. intros. apply no_err_ret. Qed.
Ltac ne := repeat first [apply no_err_ret | apply no_err_u | apply no_err_raw | apply no_err_panic | apply no_err_repeat | apply no_err_bind; [|intros ?]].
Lemma ne_materials n : forall i t, no_err (pmd_materials sjis fofu8 flt1 n i t).
Proof.
  induction n; intros i t; cbn [pmd_materials]; [ne|]. apply no_err_bind; [unfold pmd_material, readVec4, readVec3, pstring, readUint8, readInt; ne|].
  intros [m x]. apply no_err_bind; [apply IHn|]. intros [? ?]. ne.
Qed.
Lemma ne_iks n : forall b, no_err (pmd_iks n b).
Proof.
  induction n; intros b; cbn [pmd_iks]; [ne|]. apply no_err_bind; [|intros; apply IHn]. unfold pmd_ik, readS, readUint8, readFloat.
  apply no_err_bind; [ne|]. intros. destruct (_ <? _)%nat; ne.
Qed.
Lemma ne_morph : no_err (pmd_morph sjis).
Proof. unfold pmd_morph, pstring, readInt, readS, readVec3. ne. Qed.
Lemma ne_morphs n : forall b, no_err (pmd_morphs sjis n b).
Proof.
  induction n; intros b; cbn [pmd_morphs]; [ne|]. apply no_err_bind; [apply ne_morph|]. intros m. destruct (base_targets _ _); ne. apply IHn.
Qed.
Theorem pmd_never_err bs utf16 : parse_mmd sjis fdiv100 fsub1 fofu8 flt1 utf16 (pmd_magic ++ bs) <> RErr.
Proof.
  unfold parse_mmd. cbn [app pmd_magic firstn skipn]. change (bytes_eqb [80; 109; 100] [80; 109; 100]) with true. cbv iota.
  revert bs. change (no_err (parse_pmd sjis fdiv100 fsub1 fofu8 flt1)).
  unfold parse_pmd, pmd_vertex, pmd_bone, readVec3, pstring, readInt, readUint8, readS.
  repeat (apply no_err_bind; [solve [ne]|intros ?]). apply no_err_bind; [apply ne_materials|]. intros [ms ts].
  repeat (apply no_err_bind; [solve [ne]|intros ?]). apply no_err_bind; [apply ne_iks|]. intros.
  repeat (apply no_err_bind; [solve [ne]|intros ?]). apply no_err_bind; [|intros; ne]. destruct (_ <? _); [|ne]. apply no_err_bind; [apply ne_morph|intros ?; apply ne_morphs].
Qed.

End D.

(** ** Material names *)
Lemma uint_bytes_inj d d' : uint_bytes d = uint_bytes d' -> d = d'.
Proof. revert d'. induction d; destruct d'; cbn; intros H; try discriminate; try reflexivity; injection H as H; now rewrite (IHd _ H). Qed.
Lemma mat_name_inj i j : mat_name i = mat_name j -> i = j.
Proof.
  unfold mat_name, dec. intros H. apply app_inv_head in H. apply uint_bytes_inj in H. apply DecimalNat.Unsigned.to_uint_inj in H. now injection H.
Qed.
Lemma r_materials_names sjis fofu8 flt1 i n l ms ts : r_materials sjis fofu8 flt1 i n l ms ts -> map m_name ms = map mat_name (seq i (length l)).
Proof. induction 1; cbn; congruence. Qed.

(** ** Saving a model that came from a PMD file *)
Lemma bind_ok {A B} (p : P A) (k : A -> P B) bs b r : bind p k bs = ROk b r -> exists a r', k a r' = ROk b r.
Proof. unfold bind. destruct (p bs) as [a r'| | |]; [eauto|discriminate..]. Qed.
Theorem pmd_unsaveable sjis fdiv100 fsub1 fofu8 flt1 utf16 bs d rest :
  parse_mmd sjis fdiv100 fsub1 fofu8 flt1 utf16 (pmd_magic ++ bs) = ROk d rest -> write_pmx d = None.
Proof.
  unfold parse_mmd. cbn [app pmd_magic firstn skipn]. change (bytes_eqb [80; 109; 100] [80; 109; 100]) with true. cbv iota.
  intros H. assert (E : h_info (d_header d) = []).
  { unfold parse_pmd in H. do 8 (apply bind_ok in H; destruct H as (? & ? & H)). apply bind_ok in H; destruct H as ([ms ts] & ? & H).
    do 6 (apply bind_ok in H; destruct H as (? & ? & H)). unfold ret in H. injection H as <- _. reflexivity. }
  unfold write_pmx, fix_header. now rewrite E.
Qed.
