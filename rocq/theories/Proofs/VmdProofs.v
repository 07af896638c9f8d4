(** VMD: channels, decoding of files, truncated files. *)
From Coq Require Import List ZArith Bool Permutation Sorted Lia.
From Verif.Model Require Import Num Vec Codec Pmx Vmd.
From Verif.Spec Require Import PmxSpec VmdSpec.
From Verif.Proofs Require Import CodecLemmas PmxProofs.
Import ListNotations.
Local Open Scope Z_scope.

(** ** Grouping *)
Section Group.
Context {S C : Type} (target : S -> bytes) (key : C -> bytes) (new : S -> C) (ext : C -> S -> C).
Hypothesis key_new : forall s, key (new s) = target s.
Hypothesis key_ext : forall c s, key (ext c s) = key c.
Fixpoint add_g (r : list C) (s : S) : list C :=
  match r with
  | [] => [new s]
  | c :: r' => if bytes_eqb (key c) (target s) then ext c s :: r' else c :: add_g r' s
  end.
Lemma bytes_eqb_spec a b : reflect (a = b) (bytes_eqb a b).
Proof. unfold bytes_eqb. destruct (list_eq_dec Z.eq_dec a b); now constructor. Qed.
Lemma add_keys r s : map key (add_g r s) = map key r /\ In (target s) (map key r) \/
  map key (add_g r s) = map key r ++ [target s] /\ ~ In (target s) (map key r).
Proof.
  induction r as [|c r IH]; cbn [add_g map]; [right; rewrite key_new; split; [reflexivity|intros []]|].
  destruct (bytes_eqb_spec (key c) (target s)) as [E|E].
  - left. cbn [map]. rewrite key_ext. split; [reflexivity|now left].
  - cbn [map]. destruct IH as [[-> H]|[-> H]]; [left; split; [reflexivity|now right]|].
    right. split; [reflexivity|]. intros [H'|H']; tauto.
Qed.
Lemma add_in r s c : In c (add_g r s) -> NoDup (map key r) ->
  (key c <> target s /\ In c r) \/ (key c = target s /\
   ((exists c0, In c0 r /\ key c0 = target s /\ c = ext c0 s) \/ (~ In (target s) (map key r) /\ c = new s))).
Proof.
  induction r as [|x r IH]; cbn [add_g map].
  - intros [<-|[]] _. right. rewrite key_new. split; [reflexivity|]. right. split; [intros []|reflexivity].
  - intros Hin Hn. inversion Hn as [|? ? Hx Hr]; subst.
    destruct (bytes_eqb_spec (key x) (target s)) as [E|E].
    + destruct Hin as [<-|Hin].
      * right. rewrite key_ext. split; [exact E|]. left. exists x. repeat split; [now left|exact E].
      * left. split; [|now right]. intros Hc. apply Hx. rewrite E, <- Hc. now apply in_map.
    + destruct Hin as [<-|Hin]; [left; split; [exact E|now left]|].
      destruct (IH Hin Hr) as [[H1 H2]|[H1 [(c0 & H2 & H3 & H4)|[H2 H3]]]].
      * left. split; [exact H1|now right].
      * right. split; [exact H1|]. left. exists c0. repeat split; [now right|exact H3|exact H4].
      * right. split; [exact H1|]. right. split; [intros [H|H]; tauto|exact H3].
Qed.
Lemma NoDup_snoc {A} (l : list A) x : NoDup l -> ~ In x l -> NoDup (l ++ [x]).
Proof. intros H Hx. apply NoDup_rev in H. rewrite <- (rev_involutive (l ++ [x])), rev_app_distr. apply NoDup_rev. cbn. constructor; [now rewrite <- in_rev|exact H]. Qed.
Definition sel (t : bytes) (l : list S) : list S := filter (fun s => if list_eq_dec Z.eq_dec (target s) t then true else false) l.
Lemma sel_snoc t l s : sel t (l ++ [s]) = sel t l ++ (if list_eq_dec Z.eq_dec (target s) t then [s] else []).
Proof. unfold sel. rewrite filter_app. cbn. now destruct (list_eq_dec Z.eq_dec (target s) t). Qed.
Lemma sel_none t l : ~ In t (map target l) -> sel t l = [].
Proof.
  unfold sel. induction l as [|s l IH]; cbn; [reflexivity|]. intros H.
  destruct (list_eq_dec Z.eq_dec (target s) t) as [E|E]; [tauto|apply IH; tauto].
Qed.
(** Any list attached to channels that grows by one entry per sample. *)
Lemma groups {V} (content : C -> list V) (val : S -> V) :
  (forall s, content (new s) = [val s]) -> (forall c s, content (ext c s) = content c ++ [val s]) ->
  forall l, let r := fold_left add_g l [] in
  NoDup (map key r) /\ (forall t, In t (map key r) <-> In t (map target l)) /\
  (forall c, In c r -> content c = map val (sel (key c) l)).
Proof.
  intros Hnew Hext l. induction l as [|s l IH] using rev_ind; cbn zeta in *.
  - cbn. repeat split; [constructor|intros []|intros []|intros c []].
  - rewrite fold_left_app. cbn [fold_left]. set (r := fold_left add_g l []) in *. destruct IH as (Hn & Hk & Hc).
    split; [|split].
    + destruct (add_keys r s) as [[-> _]|[-> H]]; [exact Hn|now apply NoDup_snoc].
    + intros t. rewrite map_app. rewrite in_app_iff. cbn [map In].
      destruct (add_keys r s) as [[-> H]|[-> H]].
      * rewrite Hk. split; [tauto|]. intros [H'|[<-|[]]]; [exact H'|]. now apply Hk.
      * rewrite in_app_iff, Hk. cbn. tauto.
    + intros c Hin. rewrite sel_snoc. destruct (add_in r s c Hin Hn) as [[E H]|[E [(c0 & H & E0 & ->)|[H ->]]]].
      * destruct (list_eq_dec Z.eq_dec (target s) (key c)); [congruence|]. rewrite app_nil_r. now apply Hc.
      * rewrite key_ext in *. destruct (list_eq_dec Z.eq_dec (target s) (key c0)); [|congruence].
        rewrite map_app, Hext, (Hc c0 H). reflexivity.
      * rewrite key_new in *. destruct (list_eq_dec Z.eq_dec (target s) (target s)); [|congruence].
        rewrite sel_none, Hnew by (now rewrite <- Hk). reflexivity.
Qed.
End Group.

Lemma sel_perm {S} (target : S -> bytes) t l l' : Permutation l l' -> Permutation (sel target t l) (sel target t l').
Proof.
  unfold sel. induction 1; cbn; repeat match goal with |- context [list_eq_dec ?a ?b ?c] => destruct (list_eq_dec a b c) end;
    try constructor; auto. eapply perm_trans; eassumption.
Qed.
Lemma sel_sorted {S} (target : S -> bytes) t (R : S -> S -> Prop) l : StronglySorted R l -> StronglySorted R (sel target t l).
Proof.
  unfold sel. induction 1 as [|a l Hl IH Ha]; cbn; [constructor|].
  destruct (list_eq_dec Z.eq_dec (target a) t); [|exact IH]. constructor; [exact IH|].
  apply Forall_forall. intros x Hx. apply filter_In in Hx as [Hx _]. revert x Hx. now apply Forall_forall.
Qed.
Lemma map_sorted {A B} (R : A -> A -> Prop) (Q : B -> B -> Prop) (f : A -> B) l :
  (forall a b, In a l -> In b l -> R a b -> Q (f a) (f b)) -> StronglySorted R l -> StronglySorted Q (map f l).
Proof.
  intros H Hs. induction Hs as [|a l Hl IH Ha]; cbn; [constructor|]. constructor.
  - apply IH. intros x y Hx Hy. apply H; now right.
  - apply Forall_map. apply Forall_forall. intros x Hx. apply H; [now left|now right|]. revert x Hx. now apply Forall_forall.
Qed.
Lemma u32_id f : frame32 f -> u32 f = f.
Proof. intros H. apply Z.mod_small. exact H. Qed.
Lemma in_sel {S} (target : S -> bytes) t l s : In s (sel target t l) -> In s l.
Proof. intros H. unfold sel in H. apply filter_In in H. tauto. Qed.
Lemma combine_map {A B D} (f : A -> B) (g : A -> D) l : combine (map f l) (map g l) = map (fun x => (f x, g x)) l.
Proof. induction l; cbn; congruence. Qed.

Theorem bone_channels_group l l' : sorted_by bs_frame l l' -> Forall (fun s => frame32 (bs_frame s)) l ->
  grouping bs_target (fun s => (bs_frame s, (bs_rot s, bs_pos s))) bc_target bc_frames
    (fun c => combine (bc_frames c) (combine (bc_rots c) (bc_poss c))) l (bone_channels l') /\
  forall c, In c (bone_channels l') -> length (bc_rots c) = length (bc_frames c) /\ length (bc_poss c) = length (bc_frames c).
Proof.
  intros [Hp Hs] Hf.
  assert (Hf' : Forall (fun s => frame32 (bs_frame s)) l') by (now rewrite <- Hp).
  pose (new := fun s => mkBC (bs_target s) [u32 (bs_frame s)] [bs_rot s] [bs_pos s]).
  pose (ext := fun c s => mkBC (bc_target c) (bc_frames c ++ [u32 (bs_frame s)]) (bc_rots c ++ [bs_rot s]) (bc_poss c ++ [bs_pos s])).
  assert (E : bone_channels l' = fold_left (add_g bs_target bc_target new ext) l' []) by reflexivity.
  destruct (groups bs_target bc_target new ext (fun _ => eq_refl) (fun _ _ => eq_refl) bc_frames (fun s => u32 (bs_frame s))
              (fun _ => eq_refl) (fun _ _ => eq_refl) l') as (Hn & Hk & Hc1).
  destruct (groups bs_target bc_target new ext (fun _ => eq_refl) (fun _ _ => eq_refl) bc_rots bs_rot
              (fun _ => eq_refl) (fun _ _ => eq_refl) l') as (_ & _ & Hc2).
  destruct (groups bs_target bc_target new ext (fun _ => eq_refl) (fun _ _ => eq_refl) bc_poss bs_pos
              (fun _ => eq_refl) (fun _ _ => eq_refl) l') as (_ & _ & Hc3).
  rewrite <- E in *.
  assert (Hc1' : forall c, In c (bone_channels l') -> bc_frames c = map bs_frame (sel bs_target (bc_target c) l')).
  { intros c Hc. rewrite Hc1 by exact Hc. apply map_ext_in. intros s Hin. apply u32_id.
    apply (proj1 (Forall_forall _ _) Hf'). eapply in_sel; exact Hin. }
  split.
  - constructor.
    + exact Hn.
    + intros t. rewrite Hk. split; apply Permutation_in; [apply Permutation_sym|]; now apply Permutation_map.
    + intros c Hc. rewrite Hc1', Hc2, Hc3 by exact Hc. rewrite !combine_map.
      apply Permutation_map. apply Permutation_sym. apply (sel_perm bs_target). exact Hp.
    + intros c Hc. rewrite Hc1', Hc2, Hc3 by exact Hc. rewrite !combine_map, map_map. reflexivity.
    + intros c Hc. rewrite Hc1' by exact Hc. eapply map_sorted; [|apply sel_sorted; exact Hs]. auto.
  - intros c Hc. rewrite Hc1, Hc2, Hc3 by exact Hc. now rewrite !map_length.
Qed.
Theorem morph_channels_group l l' : sorted_by ms_frame l l' -> Forall (fun s => frame32 (ms_frame s)) l ->
  grouping ms_target (fun s => (ms_frame s, ms_value s)) mc_target mc_frames
    (fun c => combine (mc_frames c) (mc_weights c)) l (morph_channels l') /\
  forall c, In c (morph_channels l') -> length (mc_weights c) = length (mc_frames c).
Proof.
  intros [Hp Hs] Hf.
  assert (Hf' : Forall (fun s => frame32 (ms_frame s)) l') by (now rewrite <- Hp).
  pose (new := fun s => mkMC (ms_target s) [u32 (ms_frame s)] [ms_value s]).
  pose (ext := fun c s => mkMC (mc_target c) (mc_frames c ++ [u32 (ms_frame s)]) (mc_weights c ++ [ms_value s])).
  assert (E : morph_channels l' = fold_left (add_g ms_target mc_target new ext) l' []) by reflexivity.
  destruct (groups ms_target mc_target new ext (fun _ => eq_refl) (fun _ _ => eq_refl) mc_frames (fun s => u32 (ms_frame s))
              (fun _ => eq_refl) (fun _ _ => eq_refl) l') as (Hn & Hk & Hc1).
  destruct (groups ms_target mc_target new ext (fun _ => eq_refl) (fun _ _ => eq_refl) mc_weights ms_value
              (fun _ => eq_refl) (fun _ _ => eq_refl) l') as (_ & _ & Hc2).
  rewrite <- E in *.
  assert (Hc1' : forall c, In c (morph_channels l') -> mc_frames c = map ms_frame (sel ms_target (mc_target c) l')).
  { intros c Hc. rewrite Hc1 by exact Hc. apply map_ext_in. intros s Hin. apply u32_id.
    apply (proj1 (Forall_forall _ _) Hf'). eapply in_sel; exact Hin. }
  split.
  - constructor.
    + exact Hn.
    + intros t. rewrite Hk. split; apply Permutation_in; [apply Permutation_sym|]; now apply Permutation_map.
    + intros c Hc. rewrite Hc1', Hc2 by exact Hc. rewrite !combine_map.
      apply Permutation_map. apply Permutation_sym. apply (sel_perm ms_target). exact Hp.
    + intros c Hc. rewrite Hc1', Hc2 by exact Hc. rewrite !combine_map, map_map. reflexivity.
    + intros c Hc. rewrite Hc1' by exact Hc. eapply map_sorted; [|apply sel_sorted; exact Hs]. auto.
  - intros c Hc. rewrite Hc1, Hc2 by exact Hc. now rewrite !map_length.
Qed.

(** ** Decoding *)
Lemma le32_enc v : le32 v = le_enc 4 v.
Proof. unfold le32, le_enc. rewrite !Z.div_div by lia. reflexivity. Qed.
Lemma cut0_app t r : ~ In 0 t -> cut0 (t ++ 0 :: r) = t.
Proof.
  induction t as [|c t IH]; cbn; [reflexivity|]. intros H. destruct (Z.eqb_spec c 0); [subst; tauto|]. rewrite IH by tauto. reflexivity.
Qed.
Lemma cut0_no0 t : ~ In 0 t -> cut0 t = t.
Proof.
  induction t as [|c t IH]; cbn; [reflexivity|]. intros H. destruct (Z.eqb_spec c 0); [subst; tauto|]. rewrite IH by tauto. reflexivity.
Qed.
Lemma field_len k t j : field_ok k t j -> length (field k t j) = k.
Proof. intros [_ H]. unfold field. rewrite firstn_length, app_length. cbn [length]. lia. Qed.
Lemma field_cut k t j : field_ok k t j -> cut0 (field k t j) = t.
Proof.
  intros [H0 H]. unfold field. rewrite firstn_app. destruct (Nat.eq_dec (length t) k) as [E|E].
  - rewrite <- E, firstn_all, Nat.sub_diag. cbn [firstn]. rewrite app_nil_r. now apply cut0_no0.
  - rewrite firstn_all2 by lia. destruct (k - length t)%nat as [|n] eqn:En; [lia|]. cbn [firstn]. now apply cut0_app.
Qed.

Section Dec.
Variable sjis : bytes -> bytes.
Lemma codes_string k t j : field_ok k t j -> codes (readString sjis k) (Some (field k t j)) (sjis t).
Proof.
  intros H. unfold readString. eapply codes_map; [apply codes_read_raw, field_len, H|]. now rewrite field_cut.
Qed.
Lemma codes_le32 v : u_ok 4 v = true -> codes readInt (Some (le32 v)) v.
Proof. rewrite le32_enc. apply codes_int. Qed.
Lemma codes_le32_err v : u_ok 4 v = true -> codes (read_u_err 4) (Some (le32 v)) (v, false).
Proof.
  intros H. rewrite le32_enc. unfold read_u_err. eapply codes_map; [apply codes_read_full, le_enc_length|].
  cbv beta iota. rewrite le_dec_enc_id; [reflexivity|]. now apply u_ok_iff.
Qed.
Lemma codes_v3 v : vec3_ok v = true -> codes readVec3 (Some (le32 (vx v) ++ le32 (vy v) ++ le32 (vz v))) v.
Proof. intros H. rewrite !le32_enc. exact (codes_vec3 v H). Qed.
Lemma codes_v4 v : vec4_ok v = true -> codes readVec4 (Some (le32 (qx v) ++ le32 (qy v) ++ le32 (qz v) ++ le32 (qw v))) v.
Proof. intros H. rewrite !le32_enc. exact (codes_vec4 v H). Qed.
Lemma some_app (a b : bytes) : Some (a ++ b) = Some a +++ Some b.
Proof. reflexivity. Qed.
Lemma codes_bone b : wb_ok b -> codes (readBoneSample sjis) (Some (wb_bytes b)) (read_bone sjis b).
Proof.
  intros (Ht & Hf & Hp & Hr & Hq). unfold wb_bytes, readBoneSample.
  replace (field 15 (wb_text b) (wb_junk b) ++ le32 (wb_frame b) ++ le32 (vx (wb_pos b)) ++ le32 (vy (wb_pos b)) ++ le32 (vz (wb_pos b)) ++
    le32 (qx (wb_rot b)) ++ le32 (qy (wb_rot b)) ++ le32 (qz (wb_rot b)) ++ le32 (qw (wb_rot b)) ++ wb_params b)
   with (field 15 (wb_text b) (wb_junk b) ++ le32 (wb_frame b) ++ (le32 (vx (wb_pos b)) ++ le32 (vy (wb_pos b)) ++ le32 (vz (wb_pos b))) ++
    (le32 (qx (wb_rot b)) ++ le32 (qy (wb_rot b)) ++ le32 (qz (wb_rot b)) ++ le32 (qw (wb_rot b))) ++ wb_params b) by now rewrite <- !app_assoc.
  rewrite !(some_app (field _ _ _)), (some_app (le32 (wb_frame b))), (some_app (_ ++ _ ++ le32 (vz _))), (some_app (_ ++ _ ++ _ ++ le32 (qw _))).
  eapply codes_bind; [apply codes_string, Ht|]. eapply codes_bind; [apply codes_le32, Hf|].
  eapply codes_bind; [apply codes_v3, Hp|]. eapply codes_bind; [apply codes_v4, Hr|].
  eapply codes_map; [apply codes_read_raw, Hq|]. reflexivity.
Qed.
Lemma codes_morph m : wm_ok m -> codes (readMorphSample sjis) (Some (wm_bytes m)) (read_morph sjis m, false).
Proof.
  intros (Ht & Hf & Hv). unfold wm_bytes, readMorphSample. rewrite (some_app (field _ _ _)), (some_app (le32 _)).
  eapply codes_bind; [apply codes_string, Ht|]. eapply codes_bind; [apply codes_le32_err, Hf|]. cbv beta iota.
  eapply codes_map; [apply codes_le32, Hv|]. reflexivity.
Qed.
Lemma wlist_flat {A} (f : A -> bytes) l : wlist (fun a => Some (f a)) l = Some (flat_map f l).
Proof. induction l as [|a l IH]; [reflexivity|]. cbn [wlist fold_right flat_map]. unfold wlist in IH. now rewrite IH. Qed.
Lemma codes_many {A B} (p : P B) (f : A -> bytes) (g : A -> B) l n : n = length l ->
  Forall (fun a => codes p (Some (f a)) (g a)) l -> codes (repeatP n p) (Some (flat_map f l)) (map g l).
Proof. intros -> H. rewrite <- wlist_flat. now apply codes_repeat. Qed.
Lemma last_err_map {A B} (f : A -> B) l : last_err false (map (fun a => (f a, false)) l) = false.
Proof. unfold last_err. induction l; cbn; auto. Qed.
Theorem parse_vmd_bytes w rest : sjis (w_magic w) = vmd_magic -> wire_ok w ->
  parse_vmd sjis (vmd_bytes w ++ rest) = ROk (read_wire sjis w, false) rest.
Proof.
  intros Hm (H1 & H2 & H3 & H4 & H5 & H6). unfold vmd_bytes. eapply codes_run; [|reflexivity].
  unfold parse_vmd. rewrite !some_app. eapply codes_bind; [apply codes_string, H1|]. rewrite Hm.
  replace (bytes_eqb vmd_magic vmd_magic) with true by (symmetry; destruct (bytes_eqb_spec vmd_magic vmd_magic); congruence).
  cbn [negb]. eapply codes_bind; [apply codes_string, H2|]. eapply codes_bind; [apply codes_le32, H3|].
  eapply codes_bind; [apply (codes_many _ wb_bytes (read_bone sjis)); [now rewrite Nat2Z.id|]|].
  { eapply Forall_impl; [|exact H5]. apply codes_bone. }
  eapply codes_bind; [apply codes_le32_err, H4|]. cbv beta iota.
  eapply codes_map; [apply (codes_many _ wm_bytes (fun m => (read_morph sjis m, false))); [now rewrite Nat2Z.id|]|].
  { eapply Forall_impl; [|exact H6]. apply codes_morph. }
  unfold read_wire. now rewrite map_map, last_err_map.
Qed.
Theorem parse_vmd_magic w rest : sjis (w_magic w) <> vmd_magic -> field_ok 30 (w_magic w) (w_mjunk w) ->
  parse_vmd sjis (vmd_bytes w ++ rest) = RErr.
Proof.
  intros Hm H. unfold vmd_bytes. rewrite <- app_assoc. unfold parse_vmd, bind at 1.
  destruct (codes_string 30 _ _ H) as (b & [= <-] & E). rewrite E. cbv iota.
  destruct (bytes_eqb_spec (sjis (w_magic w)) vmd_magic); [contradiction|]. reflexivity.
Qed.

(** Whatever is parsed has 32-bit frame numbers. *)
Lemma e_u_err k : ensures (read_u_err k) (fun x => 0 <= fst x < 256 ^ Z.of_nat k).
Proof.
  unfold read_u_err. eapply ensures_bind; [apply ensures_read_full|]. intros [b|] H; apply ensures_ret; cbn [fst].
  - destruct H as [Hb Hl]. rewrite <- Hl. now apply le_dec_bound.
  - lia.
Qed.
Lemma e_any_vec3 : ensures readVec3 (fun _ => True).
Proof. unfold readVec3. eapply ensures_bind; [apply ensures_read_raw|]. intros. now apply ensures_ret. Qed.
Lemma e_any_vec4 : ensures readVec4 (fun _ => True).
Proof. unfold readVec4. eapply ensures_bind; [apply ensures_read_raw|]. intros. now apply ensures_ret. Qed.
Theorem parse_vmd_frames bs a e rest : Forall byte bs -> parse_vmd sjis bs = ROk (a, e) rest ->
  Forall (fun s => frame32 (bs_frame s)) (an_bone a) /\ Forall (fun s => frame32 (ms_frame s)) (an_morph a).
Proof.
  intros Hb H.
  assert (K : ensures (parse_vmd sjis) (fun x =>
    Forall (fun s => frame32 (bs_frame s)) (an_bone (fst x)) /\ Forall (fun s => frame32 (ms_frame s)) (an_morph (fst x)))).
  { assert (Ks : forall k, ensures (readString sjis k) (fun _ => True)).
    { intros k. unfold readString. eapply ensures_bind; [apply ensures_read_raw|]. intros. now apply ensures_ret. }
    unfold parse_vmd. eapply ensures_bind; [apply Ks|]. intros fmt _. destruct (negb _); [apply ensures_perr|].
    eapply ensures_bind; [apply Ks|]. intros nm _. eapply ensures_bind; [apply ensures_read_u|]. intros nb _.
    eapply ensures_bind.
    { apply (ensures_repeat _ (fun s => frame32 (bs_frame s))). unfold readBoneSample.
      eapply ensures_bind; [apply Ks|]. intros t _. eapply ensures_bind; [apply ensures_read_u|]. intros f Hf.
      eapply ensures_bind; [apply e_any_vec3|]. intros p _.
      eapply ensures_bind; [apply e_any_vec4|]. intros r _.
      eapply ensures_bind; [apply ensures_read_raw|]. intros pr _. apply ensures_ret. exact Hf. }
    intros bones [Hbones _]. eapply ensures_bind; [apply e_u_err|]. intros [nm' e'] _.
    eapply ensures_bind.
    { apply (ensures_repeat _ (fun s => frame32 (ms_frame (fst s)))). unfold readMorphSample.
      eapply ensures_bind; [apply Ks|]. intros t _. eapply ensures_bind; [apply e_u_err|]. intros [f ef] Hf.
      eapply ensures_bind; [apply ensures_read_u|]. intros v _. apply ensures_ret. exact Hf. }
    intros ms [Hms _]. apply ensures_ret. cbn [fst an_bone an_morph]. split; [exact Hbones|]. now apply Forall_map. }
  exact (proj1 (K _ _ _ Hb H)).
Qed.
End Dec.

(** ** Truncated input *)
(** On a proper prefix of its bytes the parser ends with nothing left. *)
Definition cuts {A} (p : P A) (b : bytes) : Prop := forall k, (k < length b)%nat -> exists a, p (firstn k b) = ROk a [].
Definition starves {A} (p : P A) : Prop := exists a, p [] = ROk a [].
Lemma cuts_bind {A B} (p : P A) (q : A -> P B) b b' a :
  codes p (Some b) a -> cuts p b -> (forall x, starves (q x)) -> cuts (q a) b' -> cuts (bind p q) (b ++ b').
Proof.
  intros (b0 & [= <-] & E) Hp Hs Hq k Hk. rewrite app_length in Hk. unfold bind.
  rewrite firstn_app. destruct (Nat.ltb_spec k (length b)) as [H|H].
  - destruct (Hp k H) as [x Ex]. replace (k - length b)%nat with 0%nat by lia. cbn [firstn]. rewrite app_nil_r, Ex. apply Hs.
  - rewrite firstn_all2 by lia. rewrite E. apply Hq. lia.
Qed.
Lemma starves_bind {A B} (p : P A) (q : A -> P B) : starves p -> (forall x, starves (q x)) -> starves (bind p q).
Proof. intros [a E] Hq. unfold starves, bind. rewrite E. apply Hq. Qed.
Lemma starves_ret {A} (a : A) : starves (ret a).
Proof. now exists a. Qed.
Lemma starves_full k : starves (read_full k).
Proof. unfold starves, read_full. destruct k; cbn; eexists; reflexivity. Qed.
Lemma cuts_full k b : length b = k -> cuts (read_full k) b.
Proof.
  intros E n Hn. unfold read_full. rewrite firstn_length. destruct (Nat.leb_spec k (Nat.min n (length b))); [lia|]. eexists. reflexivity.
Qed.
Lemma cuts_map {A B} (p : P A) (f : A -> B) b : cuts p b -> cuts (bind p (fun x => ret (f x))) b.
Proof. intros H k Hk. destruct (H k Hk) as [a E]. exists (f a). unfold bind. now rewrite E. Qed.
Lemma starves_repeat {A} (p : P A) n : starves p -> starves (repeatP n p).
Proof. intros H. induction n; cbn; [apply starves_ret|]. repeat (apply starves_bind; [assumption|intros]). apply starves_ret. Qed.
Lemma cuts_many {A B} (p : P B) (f : A -> bytes) (g : A -> B) l : starves p ->
  Forall (fun a => codes p (Some (f a)) (g a) /\ cuts p (f a)) l -> cuts (repeatP (length l) p) (flat_map f l).
Proof.
  intros Hs H. induction H as [|a l [Ha Hc] Hl IH]; [intros k Hk; cbn in Hk; lia|].
  cbn [length repeatP flat_map]. eapply cuts_bind; [exact Ha | exact Hc | |].
  - intros x. apply starves_bind; [now apply starves_repeat|]. intros. apply starves_ret.
  - apply cuts_map. exact IH.
Qed.
Ltac starve := repeat first [apply starves_full | apply starves_ret | apply starves_repeat | apply starves_bind; [|intros]].

Section Trunc.
Variable sjis : bytes -> bytes.
Lemma starves_raw k : starves (read_raw k). Proof. unfold read_raw. starve. Qed.
Lemma starves_u k : starves (read_u k). Proof. unfold read_u. starve. Qed.
Lemma starves_string k : starves (readString sjis k). Proof. unfold readString, read_raw. starve. Qed.
Lemma starves_bone : starves (readBoneSample sjis).
Proof. unfold readBoneSample, readVec3, readVec4, readString, readInt, read_u, read_raw. starve. Qed.
Lemma cuts_raw k b : length b = k -> cuts (read_raw k) b.
Proof. intros H. unfold read_raw. apply cuts_map. now apply cuts_full. Qed.
Lemma cuts_le32 v : cuts readInt (le32 v).
Proof. unfold readInt, read_u. apply cuts_map. now apply cuts_full. Qed.
Lemma cuts_string k t j : field_ok k t j -> cuts (readString sjis k) (field k t j).
Proof. intros H. unfold readString. apply cuts_map, cuts_raw, field_len, H. Qed.
Lemma cuts_bone b : wb_ok b -> cuts (readBoneSample sjis) (wb_bytes b).
Proof.
  intros (Ht & Hf & Hp & Hr & Hq). unfold wb_bytes, readBoneSample.
  replace (field 15 (wb_text b) (wb_junk b) ++ le32 (wb_frame b) ++ le32 (vx (wb_pos b)) ++ le32 (vy (wb_pos b)) ++ le32 (vz (wb_pos b)) ++
    le32 (qx (wb_rot b)) ++ le32 (qy (wb_rot b)) ++ le32 (qz (wb_rot b)) ++ le32 (qw (wb_rot b)) ++ wb_params b)
   with (field 15 (wb_text b) (wb_junk b) ++ le32 (wb_frame b) ++ (le32 (vx (wb_pos b)) ++ le32 (vy (wb_pos b)) ++ le32 (vz (wb_pos b))) ++
    (le32 (qx (wb_rot b)) ++ le32 (qy (wb_rot b)) ++ le32 (qz (wb_rot b)) ++ le32 (qw (wb_rot b))) ++ wb_params b) by now rewrite <- !app_assoc.
  eapply cuts_bind; [apply codes_string, Ht | apply cuts_string, Ht | |].
  { intros. unfold readVec3, readVec4, readInt, read_u, read_raw. starve. }
  eapply cuts_bind; [apply codes_le32, Hf | apply cuts_le32 | |].
  { intros. unfold readVec3, readVec4, read_raw. starve. }
  eapply cuts_bind; [apply codes_v3, Hp | unfold readVec3; apply cuts_map, cuts_raw; reflexivity | |].
  { intros. unfold readVec4, read_raw. starve. }
  eapply cuts_bind; [apply codes_v4, Hr | unfold readVec4; apply cuts_map, cuts_raw; reflexivity | |].
  { intros. unfold read_raw; starve. }
  apply cuts_map, cuts_raw, Hq.
Qed.

Lemma u_err_short k b : (length b < k)%nat -> read_u_err k b = ROk (0, true) [].
Proof. intros H. unfold read_u_err, bind, read_full. destruct (Nat.leb_spec k (length b)); [lia|reflexivity]. Qed.
(** The error flag of the morph loop. *)
Lemma morphs_on_nil n e : exists l, repeatP n (readMorphSample sjis) [] = ROk l [] /\ (n <> 0%nat -> last_err e l = true).
Proof.
  revert e. induction n as [|n IH]; intros e; [exists []; split; [reflexivity|congruence]|].
  cbn [repeatP]. unfold bind at 1.
  assert (E : exists s, readMorphSample sjis [] = ROk (s, true) []).
  { unfold readMorphSample, readString, read_raw, read_u_err, read_u, bind, ret, read_full. cbn. eexists. reflexivity. }
  destruct E as [s E]. rewrite E. unfold bind. destruct (IH true) as (l & El & Hl). rewrite El. eexists. split; [reflexivity|].
  intros _. cbn [last_err fold_left snd]. destruct n as [|n]; [cbn in El; injection El as <-; reflexivity|]. apply Hl. discriminate.
Qed.
Lemma morph_cut m k : wm_ok m -> (k < 19)%nat -> exists s, readMorphSample sjis (firstn k (wm_bytes m)) = ROk (s, true) [].
Proof.
  intros (Ht & Hf & Hv) Hk. unfold wm_bytes, readMorphSample.
  pose proof (field_len _ _ _ Ht) as Hl. rewrite firstn_app, Hl. destruct (Nat.ltb_spec k 15) as [H|H].
  - replace (k - 15)%nat with 0%nat by lia. cbn [firstn]. rewrite app_nil_r.
    destruct (cuts_string 15 _ _ Ht k) as [x E]; [lia|]. unfold bind at 1. rewrite E.
    unfold read_u_err, read_u, bind, ret, read_full. cbn. eexists. reflexivity.
  - rewrite firstn_all2 by lia. destruct (codes_string sjis 15 _ _ Ht) as (b & [= <-] & E). unfold bind at 1. rewrite E.
    rewrite firstn_app. replace (length (le32 (wm_frame m))) with 4%nat by reflexivity.
    replace (k - 15 - 4)%nat with 0%nat by lia. cbn [firstn]. rewrite app_nil_r.
    unfold bind at 1. rewrite u_err_short by (rewrite firstn_length; cbn [length le32]; lia).
    unfold read_u, bind, read_full. cbn. eexists. reflexivity.
Qed.
Lemma wm_len m : wm_ok m -> length (wm_bytes m) = 23%nat.
Proof. intros (Ht & _). unfold wm_bytes. rewrite !app_length, (field_len _ _ _ Ht). reflexivity. Qed.
Lemma morph_cut_last m k : wm_ok m -> (k < 23)%nat -> exists s e, readMorphSample sjis (firstn k (wm_bytes m)) = ROk (s, e) [].
Proof.
  intros H Hk. destruct (Nat.ltb_spec k 19) as [Hk'|Hk'].
  - destruct (morph_cut m k H Hk') as [s E]. now exists s, true.
  - pose proof H as (Ht & Hf & Hv). unfold wm_bytes, readMorphSample. pose proof (field_len _ _ _ Ht) as Hl. rewrite firstn_app, Hl, firstn_all2 by lia.
    destruct (codes_string sjis 15 _ _ Ht) as (b & [= <-] & E). unfold bind at 1. rewrite E.
    rewrite firstn_app. replace (length (le32 (wm_frame m))) with 4%nat by reflexivity. rewrite firstn_all2 by (cbn; lia).
    destruct (codes_le32_err _ Hf) as (b & [= <-] & E2). unfold bind at 1. rewrite E2.
    unfold read_u, bind. destruct (cuts_full 4 (le32 (wm_value m)) eq_refl (k - 15 - 4)%nat) as [x Ex]; [cbn; lia|].
    rewrite Ex. eexists _, _. reflexivity.
Qed.
Lemma morphs_cut ms k e : Forall wm_ok ms -> (k + 4 < length (flat_map wm_bytes ms))%nat ->
  exists l, repeatP (length ms) (readMorphSample sjis) (firstn k%nat (flat_map wm_bytes ms)) = ROk l [] /\ last_err e l = true.
Proof.
  intros H. revert k e. induction H as [|m ms Hm Hms IH]; intros k e Hk; [cbn in Hk; lia|].
  cbn [flat_map length] in *. rewrite app_length, (wm_len m Hm) in Hk. cbn [repeatP]. unfold bind at 1.
  rewrite firstn_app, (wm_len m Hm). destruct (Nat.ltb_spec k 23) as [Hk'|Hk'].
  - replace (k - 23)%nat with 0%nat by lia. cbn [firstn]. rewrite app_nil_r.
    destruct ms as [|m2 ms].
    + destruct (morph_cut m k Hm) as [s E]; [cbn in Hk; lia|]. rewrite E. eexists. split; reflexivity.
    + destruct (morph_cut_last m k Hm Hk') as (s & e' & E). rewrite E. unfold bind.
      destruct (morphs_on_nil (length (m2 :: ms)) e') as (l & El & Hl). rewrite El. eexists. split; [reflexivity|].
      cbn [last_err fold_left snd]. apply Hl. discriminate.
  - rewrite firstn_all2 by (rewrite wm_len by exact Hm; lia). destruct (codes_morph sjis m Hm) as (b & [= <-] & E). rewrite E. unfold bind.
    destruct (IH (k - 23)%nat false) as (l & El & Hl); [lia|]. rewrite El. eexists. split; [reflexivity|].
    cbn [last_err fold_left snd]. exact Hl.
Qed.
(** The parser after the format name; on a cut before the end of the morph count nothing is left
    for the count. *)
Definition head_part : P (bytes * list bone_sample) :=
  bind (readString sjis 20) (fun name => bind readInt (fun nb => bind (repeatP (Z.to_nat nb) (readBoneSample sjis)) (fun bones => ret (name, bones)))).
Definition tail_part (x : bytes * list bone_sample) : P (animation * bool) :=
  bind (read_u_err 4) (fun y => match y with (nm, e) =>
    bind (repeatP (Z.to_nat nm) (readMorphSample sjis)) (fun morphs => ret (mkAnim (fst x) (snd x) (map fst morphs), last_err e morphs)) end).
Lemma parse_split bs : parse_vmd sjis bs =
  bind (readString sjis 30) (fun fmt => if negb (bytes_eqb fmt vmd_magic) then perr else bind head_part tail_part) bs.
Proof.
  unfold parse_vmd, head_part, tail_part, bind. destruct (readString sjis 30 bs); try reflexivity. destruct (negb _); [reflexivity|].
  destruct (readString sjis 20 rest); try reflexivity. destruct (readInt rest0); try reflexivity.
  destruct (repeatP (Z.to_nat a1) (readBoneSample sjis) rest1); reflexivity.
Qed.
Theorem truncation_reported w k : sjis [] = [] -> sjis (w_magic w) = vmd_magic -> wire_ok w ->
  (k + (if w_morphs w then 0 else 4) < length (vmd_bytes w))%nat ->
  reported (parse_vmd sjis (firstn k (vmd_bytes w))).
Proof.
  intros H0 Hm (H1 & H2 & H3 & H4 & H5 & H6) Hk. rewrite parse_split. unfold vmd_bytes in *.
  set (A := field 30 _ _) in *. set (B := field 20 _ _) in *.
  set (H := B ++ le32 (Z.of_nat (length (w_bones w))) ++ flat_map wb_bytes (w_bones w)).
  set (M := le32 (Z.of_nat (length (w_morphs w)))) in *.
  replace (A ++ B ++ le32 (Z.of_nat (length (w_bones w))) ++ flat_map wb_bytes (w_bones w) ++ M ++ flat_map wm_bytes (w_morphs w))
    with (A ++ H ++ M ++ flat_map wm_bytes (w_morphs w)) in * by (unfold H; now rewrite <- !app_assoc).
  rewrite !app_length in Hk. assert (LA : length A = 30%nat) by now apply field_len. assert (LM : length M = 4%nat) by reflexivity.
  rewrite firstn_app. unfold bind at 1. destruct (Nat.ltb_spec k (length A)) as [C|C].
  - unfold readString, bind, read_raw, bind, read_full. rewrite app_length, !firstn_length.
    replace (k - length A)%nat with 0%nat by lia. rewrite Nat.min_0_l, Nat.add_0_r.
    destruct (Nat.leb_spec 30 (Nat.min k (length A))); [lia|]. cbn [ret]. cbn -[vmd_magic]. rewrite H0. exact I.
  - rewrite firstn_all2 by lia. destruct (codes_string sjis 30 _ _ H1) as (b & [= <-] & E). fold A in E. rewrite E, Hm. clear E.
    replace (bytes_eqb vmd_magic vmd_magic) with true by (symmetry; destruct (bytes_eqb_spec vmd_magic vmd_magic); congruence). cbn [negb].
    assert (Hh : codes head_part (Some H) (sjis (w_name w), map (read_bone sjis) (w_bones w))).
    { unfold H, head_part. rewrite !some_app. eapply codes_bind; [apply codes_string, H2|]. eapply codes_bind; [apply codes_le32, H3|].
      eapply codes_map; [apply (codes_many _ wb_bytes (read_bone sjis)); [now rewrite Nat2Z.id|]|reflexivity].
      eapply Forall_impl; [|exact H5]. apply codes_bone. }
    assert (Ch : cuts head_part H).
    { unfold H, head_part. eapply cuts_bind; [apply codes_string, H2 | apply cuts_string, H2 | |].
      { intros. apply starves_bind; [apply starves_u|]. intros. apply starves_bind; [apply starves_repeat, starves_bone|]. intros. apply starves_ret. }
      eapply cuts_bind; [apply codes_le32, H3 | apply cuts_le32 | |].
      { intros. apply starves_bind; [apply starves_repeat, starves_bone|]. intros. apply starves_ret. }
      apply cuts_map. rewrite Nat2Z.id. apply (cuts_many _ wb_bytes (read_bone sjis)); [apply starves_bone|].
      eapply Forall_impl; [|exact H5]. intros a Ha. split; [now apply codes_bone|now apply cuts_bone]. }
    unfold bind at 1. rewrite firstn_app. destruct (Nat.ltb_spec (k - length A) (length H)) as [C2|C2].
    + destruct (Ch _ C2) as [x E]. replace (k - length A - length H)%nat with 0%nat by lia. cbn [firstn]. rewrite app_nil_r, E.
      unfold tail_part, bind, read_u_err, bind, read_full, ret. cbn. reflexivity.
    + rewrite firstn_all2 by lia. destruct Hh as (b & [= <-] & E). rewrite E. unfold tail_part. rewrite firstn_app.
      destruct (Nat.ltb_spec (k - length A - length H) 4) as [C3|C3].
      * replace (k - length A - length H - length M)%nat with 0%nat by lia. cbn [firstn]. rewrite app_nil_r.
        unfold bind. rewrite u_err_short by (rewrite firstn_length; lia). cbn. reflexivity.
      * rewrite firstn_all2 by lia. destruct (codes_le32_err _ H4) as (b & [= <-] & E2). fold M in E2. unfold bind at 1. rewrite E2.
        rewrite Nat2Z.id. 
        assert (Hk4 : (k + 4 < length A + (length H + (length M + length (flat_map wm_bytes (w_morphs w)))))%nat).
        { clear - Hk C3 LM C C2. clearbody A H M. destruct (w_morphs w); cbn [flat_map length] in *; lia. }
        unfold bind. destruct (morphs_cut (w_morphs w) (k - length A - length H - length M)%nat false H6) as (l & El & Hl); [lia|].
        rewrite El. exact Hl.
Qed.
End Trunc.
