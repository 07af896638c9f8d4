(** The binary FBX parser returns the tree a file was laid out from. *)
From Coq Require Import List ZArith Bool Lia ZifyBool ZifyNat.
From Verif.Model Require Import Codec Fbx.
From Verif.Spec Require Import FbxSpec.
From Verif.Proofs Require Import CodecLemmas.
Import ListNotations.
Local Open Scope Z_scope.

(** ** Lists *)
Lemma le_S k v : le (S k) v = v mod 256 :: le k (v / 256).
Proof.
  unfold le. cbn [seq map]. f_equal; [rewrite Z.div_1_r; reflexivity|].
  rewrite <- seq_shift, map_map. apply map_ext; intro i.
  rewrite Nat2Z.inj_succ, Z.pow_succ_r by lia.
  rewrite Z.div_div by lia. reflexivity.
Qed.
Lemma le_eq k v : le k v = le_enc k v.
Proof.
  revert v; induction k as [|k IH]; intros v; [reflexivity|].
  rewrite le_S, IH. reflexivity.
Qed.
Lemma le_length k v : length (le k v) = k.
Proof. unfold le. rewrite map_length, seq_length. reflexivity. Qed.
Lemma le_dec_le k v : fits_u k v -> le_dec (le k v) = v.
Proof. intros H. rewrite le_eq. apply le_dec_enc_id, H. Qed.
Lemma to_signed_le k v : (0 < k)%nat -> fits_s k v -> to_signed k (le_dec (le k v)) = v.
Proof.
  intros Hk H. rewrite le_eq. apply to_signed_enc; auto.
  unfold fits_s in H. pose proof (pow2_half k Hk). lia.
Qed.

Lemma skipZ_skipn n l : skipZ n l = skipn (Z.to_nat n) l.
Proof.
  revert n; induction l as [|b l IH]; intros n; cbn [skipZ].
  - rewrite skipn_nil; reflexivity.
  - destruct (Z.leb_spec n 0).
    + replace (Z.to_nat n) with O by lia. reflexivity.
    + rewrite IH. replace (Z.to_nat n) with (S (Z.to_nat (n - 1))) by lia. reflexivity.
Qed.
Lemma takeZ_firstn n l : takeZ n l = firstn (Z.to_nat n) l.
Proof.
  revert n; induction l as [|b l IH]; intros n; cbn [takeZ].
  - rewrite firstn_nil; reflexivity.
  - destruct (Z.leb_spec n 0).
    + replace (Z.to_nat n) with O by lia. reflexivity.
    + rewrite IH. replace (Z.to_nat n) with (S (Z.to_nat (n - 1))) by lia. reflexivity.
Qed.
Lemma skipZ_app a b : skipZ (blen a) (a ++ b) = b.
Proof.
  rewrite skipZ_skipn. unfold blen. rewrite Nat2Z.id, skipn_app, skipn_all, Nat.sub_diag. reflexivity.
Qed.
Lemma takeZ_app a b : takeZ (blen a) (a ++ b) = a.
Proof.
  rewrite takeZ_firstn. unfold blen. rewrite Nat2Z.id, firstn_app, Nat.sub_diag, firstn_all, firstn_O, app_nil_r.
  reflexivity.
Qed.
Lemma blen_app a b : blen (a ++ b) = blen a + blen b.
Proof. unfold blen. rewrite app_length. lia. Qed.
Lemma blen_nonneg a : 0 <= blen a.
Proof. unfold blen; lia. Qed.
Lemma blen_le k v : blen (le k v) = Z.of_nat k.
Proof. unfold blen. rewrite le_length. reflexivity. Qed.
Lemma skipZ_0 l : skipZ 0 l = l.
Proof. rewrite skipZ_skipn. reflexivity. Qed.

(** ** Reading what is there *)
Definition runs {A} (p : M A) (b : bytes) (a : A) : Prop :=
  forall rest pos, p (mkR (b ++ rest) pos None) = (a, mkR rest (pos + blen b) None).

Lemma runs_ret {A} (a : A) : runs (mret a) [] a.
Proof. intros rest pos. cbn. rewrite Z.add_0_r. reflexivity. Qed.
Lemma runs_bind {A B} (p : M A) (k : A -> M B) b c a r :
  runs p b a -> runs (k a) c r -> runs (mbind p k) (b ++ c) r.
Proof.
  intros Hp Hk rest pos. unfold mbind. rewrite <- app_assoc, Hp, Hk, blen_app, Z.add_assoc. reflexivity.
Qed.
Lemma runs_map {A B} (p : M A) (f : A -> B) b a :
  runs p b a -> runs (mbind p (fun x => mret (f x))) b (f a).
Proof. intros H. rewrite <- (app_nil_r b). eapply runs_bind; [exact H|apply runs_ret]. Qed.
Lemma runs_get b : runs (get (blen b)) b b.
Proof.
  intros rest pos. unfold get. cbn [r_err r_rest r_pos].
  rewrite blen_app. pose proof (blen_nonneg rest).
  destruct (Z.leb_spec (blen b) (blen b + blen rest)); [|lia].
  rewrite takeZ_app, skipZ_app. reflexivity.
Qed.
Lemma runs_get' k b : k = blen b -> runs (get k) b b.
Proof. intros ->. apply runs_get. Qed.
Lemma runs_u k v : fits_u k v -> runs (rd_u k) (le k v) v.
Proof.
  intros H. unfold rd_u. rewrite <- (le_dec_le k v H) at 2. apply (runs_map _ le_dec).
  apply runs_get'. rewrite blen_le; reflexivity.
Qed.
Lemma runs_s k v : (0 < k)%nat -> fits_s k v -> runs (rd_s k) (le k v) v.
Proof.
  intros Hk H. unfold rd_s. rewrite <- (to_signed_le k v Hk H) at 2.
  apply (runs_map _ (fun b => to_signed k (le_dec b))).
  apply runs_get'. rewrite blen_le; reflexivity.
Qed.
Lemma runs_name nm : len nm < 256 -> runs rd_name (le 1 (len nm) ++ nm) nm.
Proof.
  intros H. unfold rd_name. eapply runs_bind; [apply runs_u|apply runs_get].
  unfold fits_u, len in *. change (256 ^ Z.of_nat 1) with 256. lia.
Qed.

Lemma skipn_exact {A} n (l r : list A) : length l = n -> skipn n (l ++ r) = r.
Proof. intros <-. rewrite skipn_app, skipn_all, Nat.sub_diag. reflexivity. Qed.
Lemma firstn_exact {A} n (l r : list A) : length l = n -> firstn n (l ++ r) = l.
Proof. intros <-. rewrite firstn_app, Nat.sub_diag, firstn_all, firstn_O, app_nil_r. reflexivity. Qed.

Lemma chunks_le w l tail :
  chunks (length l) w (flat_map (le w) l ++ tail) = map (fun v => le_dec (le w v)) l.
Proof.
  induction l as [|v l IH]; [reflexivity|].
  cbn [length flat_map chunks map]. rewrite <- app_assoc.
  rewrite skipn_exact, firstn_exact by apply le_length. rewrite IH. reflexivity.
Qed.
Lemma chunks_le0 w l : chunks (length l) w (flat_map (le w) l) = map (fun v => le_dec (le w v)) l.
Proof. rewrite <- (app_nil_r (flat_map _ _)). apply chunks_le. Qed.
Lemma blen_flat w l : blen (flat_map (le w) l) = Z.of_nat (length l) * Z.of_nat w.
Proof.
  induction l as [|v l IH]; [reflexivity|].
  cbn [flat_map length]. rewrite blen_app, IH, blen_le. lia.
Qed.

Lemma arr_kind_of a typ w l inr : array_of a = Some (typ, w, l, inr) -> Forall inr l ->
  exists mk, arr_kind typ = Some (w, mk) /\ mk (map (fun v => le_dec (le w v)) l) = a.
Proof.
  intros H HF.
  destruct a; cbn [array_of] in H; try discriminate; injection H as <- <- <- <-;
    (eexists; split; [reflexivity|]); cbv beta; f_equal; try rewrite map_map;
    (etransitivity; [|apply map_id]); apply map_ext_in; intros v Hv;
    rewrite Forall_forall in HF; specialize (HF v Hv);
    first [apply to_signed_le; [lia|exact HF] | apply le_dec_le; exact HF].
Qed.
Lemma array_letter a typ w l inr : array_of a = Some (typ, w, l, inr) ->
  typ = 98 \/ typ = 121 \/ typ = 105 \/ typ = 108 \/ typ = 102 \/ typ = 100.
Proof. destruct a; cbn [array_of]; intros H; try discriminate; injection H as <- _ _ _; lia. Qed.

Section Reader.
Variable seek : option Z.
Variable inflate : bytes -> Z -> Z * infl.

Notation unpacks := (unpacks seek inflate).
(** Every offset of a file of [total] bytes can be seeked to. *)
Definition seek_ok (total : Z) : Prop := match seek with Some m => total <= m | None => True end.

Lemma skip_to_here pos s : r_pos s = pos -> seek_ok pos ->
  skip_to seek pos s = (None, s).
Proof.
  intros Hp Hs. destruct s as [rest p e]; cbn in Hp; subst p.
  unfold skip_to. cbn [r_pos r_rest r_err]. rewrite Z.sub_diag. cbn [Z.ltb Z.compare].
  unfold seek_ok in Hs. destruct seek as [m|].
  - destruct (Z.leb_spec pos m); [|lia]. rewrite skipZ_0. reflexivity.
  - pose proof (blen_nonneg rest). destruct (Z.ltb_spec (blen rest) 0); [lia|].
    rewrite Z.min_l by lia. rewrite Z.add_0_r, skipZ_0. reflexivity.
Qed.

(** Parsers whose success needs room to seek. *)
Definition runsat {A} (p : M A) (b : bytes) (a : A) : Prop :=
  forall rest pos, seek_ok (pos + blen b) -> p (mkR (b ++ rest) pos None) = (a, mkR rest (pos + blen b) None).
Lemma runs_at {A} (p : M A) b a : runs p b a -> runsat p b a.
Proof. intros H rest pos _. apply H. Qed.
Lemma runsat_bind {A B} (p : M A) (k : A -> M B) b c a r :
  runs p b a -> runsat (k a) c r -> runsat (mbind p k) (b ++ c) r.
Proof.
  intros Hp Hk rest pos Hs. unfold mbind. rewrite <- app_assoc, Hp, Hk, blen_app, Z.add_assoc.
  - reflexivity.
  - rewrite blen_app in Hs. rewrite <- Z.add_assoc. exact Hs.
Qed.
Lemma runsat_map {A B} (p : M A) (f : A -> B) b a :
  runsat p b a -> runsat (mbind p (fun x => mret (f x))) b (f a).
Proof. intros H rest pos Hs. unfold mbind. rewrite H by exact Hs. reflexivity. Qed.

Lemma skipZ_app_le n a b : 0 <= n <= blen a -> skipZ n (a ++ b) = skipZ n a ++ b.
Proof.
  intros H. rewrite !skipZ_skipn, skipn_app.
  unfold blen in H. replace (Z.to_nat n - length a)%nat with O by lia. reflexivity.
Qed.
Lemma skipZ_skipZ n m l : 0 <= n -> 0 <= m -> skipZ n (skipZ m l) = skipZ (m + n) l.
Proof.
  intros Hn Hm. revert m Hm. induction l as [|b l IH]; intros m Hm; [reflexivity|].
  cbn [skipZ]. destruct (Z.leb_spec m 0).
  - replace (m + n) with n by lia. reflexivity.
  - destruct (Z.leb_spec (m + n) 0); [lia|]. rewrite IH by lia. f_equal; lia.
Qed.

Lemma runs_inflate payload raw :
  unpacks payload raw -> runsat (rd_inflate seek inflate (len payload) (len raw)) payload raw.
Proof.
  intros (used & Hi & Hused) rest pos Hs. unfold rd_inflate. cbn [r_rest r_pos r_err].
  change (len payload) with (blen payload) in *.
  rewrite takeZ_app, Hi. f_equal.
  set (k := Z.max 0 (Z.min used (blen payload))).
  pose proof (blen_nonneg payload).
  assert (Hk : 0 <= k <= blen payload) by (unfold k; lia).
  unfold skip_to. cbn [r_pos r_rest r_err].
  replace (pos + blen payload - (pos + k)) with (blen payload - k) by lia.
  destruct (Z.ltb_spec (blen payload - k) 0); [lia|].
  unfold seek_ok in Hs. destruct seek as [m|].
  - destruct (Z.leb_spec (pos + blen payload) m); [|lia]. cbn [snd].
    rewrite skipZ_skipZ by lia. replace (k + (blen payload - k)) with (blen payload) by lia.
    rewrite skipZ_app. reflexivity.
  - cbn [snd]. assert (k = blen payload) as -> by (unfold k; lia).
    rewrite Z.sub_diag, skipZ_0, skipZ_app.
    rewrite Z.min_l by apply blen_nonneg. rewrite Z.add_0_r. reflexivity.
Qed.

Lemma runs_array a typ w l inr b enc :
  array_of a = Some (typ, w, l, inr) -> fits_u 4 (Z.of_nat (length l)) -> Forall inr l ->
  fits_u 4 (len b) ->
  (enc = 0 /\ b = flat_map (le w) l \/ enc = 1 /\ unpacks b (flat_map (le w) l)) ->
  runsat (rd_array seek inflate typ) (le 4 (Z.of_nat (length l)) ++ le 4 enc ++ le 4 (len b) ++ b) a.
Proof.
  intros Ha Hn HF Hb Henc.
  destruct (arr_kind_of _ _ _ _ _ Ha HF) as (mk & Hk & Hmk).
  assert (He : fits_u 4 enc) by (unfold fits_u; cbn; lia).
  unfold rd_array.
  eapply runsat_bind; [apply runs_u, Hn|].
  eapply runsat_bind; [apply runs_u, He|].
  eapply runsat_bind; [apply runs_u, Hb|].
  rewrite Hk, Nat2Z.id, <- Hmk, <- chunks_le0.
  apply (runsat_map _ (fun b => mk (chunks (length l) w b))).
  destruct Henc as [(-> & ->)|(-> & Hu)]; cbn [Z.eqb].
  - apply runs_at, runs_get'. rewrite blen_flat. reflexivity.
  - replace (Z.of_nat (length l) * Z.of_nat w) with (len (flat_map (le w) l)) by apply blen_flat.
    apply runs_inflate, Hu.
Qed.

Lemma runs_prop a b : attr_at unpacks a b -> runsat (rd_prop seek inflate) b a.
Proof.
  assert (Hl : forall v, fits_u 1 v -> runs (rd_u 1) [v] v).
  { intros v H. pose proof (runs_u 1 v H) as R. rewrite le_S in R.
    unfold fits_u in H. change (256 ^ Z.of_nat 1) with 256 in H.
    rewrite Z.mod_small in R by lia. exact R. }
  unfold rd_prop. intros H; destruct H.
  1-9: eapply (runsat_bind _ _ [_]); [apply Hl; unfold fits_u; cbn; lia|]; cbn [Z.eqb Pos.eqb].
  1: apply runs_at, (runs_map _ AI8), runs_s; [lia|assumption].
  1: apply runs_at, (runs_map _ AU8), runs_u; assumption.
  1: apply runs_at, (runs_map _ AI16), runs_s; [lia|assumption].
  1: apply runs_at, (runs_map _ AI32), runs_s; [lia|assumption].
  1: apply runs_at, (runs_map _ AI64), runs_s; [lia|assumption].
  1: apply runs_at, (runs_map _ AF32), runs_u; assumption.
  1: apply runs_at, (runs_map _ AF64), runs_u; assumption.
  1-2: eapply runsat_bind; [apply runs_u; assumption|].
  1: apply runs_at, (runs_map _ AStr), runs_get.
  1: apply runs_at, (runs_map _ ARaw), runs_get.
  1-2: eapply (runsat_bind _ _ [_]);
       [apply Hl; apply array_letter in H; unfold fits_u; change (256 ^ Z.of_nat 1) with 256; lia|].
  1-2: destruct (arr_kind_of _ _ _ _ _ H H1) as (mk & Hk & _).
  - assert (R : runsat (rd_array seek inflate typ) (le 4 (Z.of_nat (length l)) ++ le 4 0 ++ le 4 (len (flat_map (le w) l)) ++ flat_map (le w) l) a).
    { eapply runs_array; eauto. }
    destruct (array_letter _ _ _ _ _ H) as [E|[E|[E|[E|[E|E]]]]]; rewrite E in R, Hk |- *; cbn [Z.eqb Pos.eqb]; rewrite Hk; exact R.
  - assert (R : runsat (rd_array seek inflate typ) (le 4 (Z.of_nat (length l)) ++ le 4 1 ++ le 4 (len payload) ++ payload) a).
    { eapply runs_array; eauto. }
    destruct (array_letter _ _ _ _ _ H) as [E|[E|[E|[E|[E|E]]]]]; rewrite E in R, Hk |- *; cbn [Z.eqb Pos.eqb]; rewrite Hk; exact R.
Qed.

Lemma attr_two a b : attr_at unpacks a b -> (2 <= length b)%nat.
Proof.
  intros H; destruct H; cbn [length]; rewrite ?app_length, ?le_length; lia.
Qed.
Lemma attrs_two l b : attrs_at unpacks l b -> (2 * length l <= length b)%nat.
Proof.
  induction 1 as [|a l b bl Ha _ IH]; [cbn; lia|].
  apply attr_two in Ha. cbn [length]. rewrite app_length. lia.
Qed.

Lemma rd_props_ok attrs ab : attrs_at unpacks attrs ab ->
  forall fuel rest pos, (length ab < fuel)%nat -> seek_ok (pos + blen ab) ->
  rd_props seek inflate fuel (Z.of_nat (length attrs)) (mkR (ab ++ rest) pos None) =
  (attrs, mkR rest (pos + blen ab) None).
Proof.
  induction 1 as [|a l b bl Ha Hl IH]; intros fuel rest pos Hf Hs; (destruct fuel as [|f]; [lia|]).
  - cbn. rewrite Z.add_0_r. reflexivity.
  - pose proof (attr_two _ _ Ha) as H2. rewrite app_length in Hf.
    pose proof (runs_prop _ _ Ha) as R.
    cbn [rd_props length]. unfold no_error. cbn [r_err].
    rewrite blen_app in Hs.
    destruct (Z.ltb_spec 0 (Z.of_nat (S (length l)))); [|lia]. cbn [andb].
    rewrite <- app_assoc, R.
    + replace (Z.of_nat (S (length l)) - 1) with (Z.of_nat (length l)) by lia.
      rewrite IH; [|lia|rewrite <- Z.add_assoc; exact Hs].
      rewrite blen_app, Z.add_assoc. reflexivity.
    + unfold seek_ok in *. destruct seek; auto. pose proof (blen_nonneg bl). lia.
Qed.

Definition wide_of (ver : Z) : bool := 7500 <=? ver.

Lemma header_ok ver fin n sz name :
  offset_ok (wide_of ver) fin -> offset_ok (wide_of ver) n -> offset_ok (wide_of ver) sz -> len name < 256 ->
  runs (rd_header ver)
    (le (num_w (wide_of ver)) fin ++ le (num_w (wide_of ver)) n ++ le (num_w (wide_of ver)) sz ++
     le 1 (len name) ++ name) (fin, n, sz, name).
Proof.
  intros H1 H2 H3 Hn. unfold rd_header, wide_of in *.
  assert (R : forall v, offset_ok (7500 <=? ver) v ->
     runs (if 7500 <=? ver then rd_s 8 else rd_u 4) (le (num_w (7500 <=? ver)) v) v).
  { intros v Hv. destruct (7500 <=? ver); cbn [num_w offset_ok] in *.
    - apply runs_s; [lia|]. unfold fits_s. change (256 ^ Z.of_nat 8) with (2 * 2 ^ 63). lia.
    - apply runs_u. unfold fits_u. change (256 ^ Z.of_nat 4) with (2 ^ 32). lia. }
  replace (le (num_w (7500 <=? ver)) fin ++ le (num_w (7500 <=? ver)) n ++ le (num_w (7500 <=? ver)) sz ++
     le 1 (len name) ++ name)
   with ((le (num_w (7500 <=? ver)) fin ++ le (num_w (7500 <=? ver)) n ++ le (num_w (7500 <=? ver)) sz) ++
     le 1 (len name) ++ name) by (rewrite <- !app_assoc; reflexivity).
  pose proof (R _ H1) as R1. pose proof (R _ H2) as R2. pose proof (R _ H3) as R3. clear R.
  eapply (runs_bind _ _ _ _ (fin, n, sz)).
  - destruct (7500 <=? ver).
    + eapply runs_bind; [exact R1|]. eapply runs_bind; [exact R2|].
      apply (runs_map _ (fun x => (fin, n, x))). exact R3.
    + eapply runs_bind; [exact R1|]. eapply runs_bind; [exact R2|].
      apply (runs_map _ (fun x => (fin, n, x))). exact R3.
  - apply (runs_map _ (fun x => (fin, n, sz, x))). apply runs_name, Hn.
Qed.

Lemma null_ok f ver rest pos :
  rd_node seek inflate (S f) ver (mkR (null_record (wide_of ver) ++ rest) pos None) =
  (None, mkR rest (pos + blen (null_record (wide_of ver))) None).
Proof.
  assert (E : null_record (wide_of ver) =
     le (num_w (wide_of ver)) 0 ++ le (num_w (wide_of ver)) 0 ++ le (num_w (wide_of ver)) 0 ++ le 1 (len []) ++ []).
  { unfold null_record, num_w. destruct (wide_of ver); reflexivity. }
  rewrite E. cbn [rd_node].
  rewrite header_ok; try (unfold offset_ok; destruct (wide_of ver); cbn; lia).
  - reflexivity.
Qed.

Scheme node_at_ind2 := Minimality for node_at Sort Prop
  with nodes_at_ind2 := Minimality for nodes_at Sort Prop.
Combined Scheme node_at_both from node_at_ind2, nodes_at_ind2.

Lemma blen_null wide : blen (null_record wide) = Z.of_nat (3 * num_w wide + 1).
Proof. unfold blen, null_record. rewrite repeat_length. reflexivity. Qed.

Lemma seek_ok_le a b : a <= b -> seek_ok b -> seek_ok a.
Proof. unfold seek_ok. destruct seek; lia. Qed.

Lemma node_len wide base n b : node_at unpacks wide base n b -> (13 <= length b)%nat.
Proof.
  intros H; destruct H. rewrite !app_length, !le_length. destruct wide; cbn [num_w]; lia.
Qed.

Lemma rd_node_step f ver s :
  rd_node seek inflate (S f) ver s =
      let '((next, nprop, propsz, name), s1) := rd_header ver s in
      if invalid nprop propsz then
        let (e, s2) := skip_to seek next s1 in
        (None, mkR (r_rest s2) (r_pos s2) e)
      else if next =? 0 then (None, s1)
      else
        let (attrs, s2) := rd_props seek inflate (S (length (r_rest s1)) + 1) nprop s1 in
        if bad_error s2 then (None, s2)
        else
          let (kids, s3) := rd_kids seek inflate f ver next s2 in
          let s4 := match r_err s3 with
                    | None => let (e, s') := skip_to seek next s3 in mkR (r_rest s') (r_pos s') e
                    | Some _ => s3
                    end in
          if bad_error s4 then (None, s4) else (Some (Node name attrs kids), s4).
Proof. reflexivity. Qed.
Lemma rd_kids_step f ver next s :
  rd_kids seek inflate (S f) ver next s =
  if (r_pos s <? next) && no_error s
  then let (c, s1) := rd_node seek inflate f ver s in
       let (l, s2) := rd_kids seek inflate f ver next s1 in
       (cons_opt c l, s2)
  else ([], s).
Proof. reflexivity. Qed.
Lemma rd_top_step f ver s :
  rd_top seek inflate (S f) ver s =
  if no_error s
  then let (c, s1) := rd_node seek inflate f ver s in
       let (l, s2) := rd_top seek inflate f ver s1 in
       (cons_opt c l, s2)
  else ([], s).
Proof. reflexivity. Qed.
Lemma rd_kids_stop f ver next rest pos : next <= pos ->
  rd_kids seek inflate (S f) ver next (mkR rest pos None) = ([], mkR rest pos None).
Proof. intros H. cbn [rd_kids r_pos]. destruct (Z.ltb_spec pos next); [lia|]. reflexivity. Qed.

Lemma invalid_ok wide n sz : offset_ok wide n -> offset_ok wide sz -> 2 * n <= sz -> invalid n sz = false.
Proof.
  intros H1 H2 H. unfold invalid, u64.
  assert (0 <= n < 2 ^ 63 /\ 0 <= sz < 2 ^ 63) by (unfold offset_ok in *; destruct wide; lia).
  rewrite (Z.mod_small n), (Z.mod_small sz), (Z.mod_small (n * 2)) by lia. lia.
Qed.

Lemma read_tree ver :
  (forall base n b, node_at unpacks (wide_of ver) base n b -> 0 <= base ->
     forall f rest, (length b <= f)%nat -> seek_ok (base + blen b) ->
     rd_node seek inflate f ver (mkR (b ++ rest) base None) = (Some n, mkR rest (base + blen b) None)) /\
  (forall base l b, nodes_at unpacks (wide_of ver) base l b -> 0 <= base ->
     forall f rest term, (term = [] \/ term = null_record (wide_of ver)) ->
     (length b + length term < f)%nat -> seek_ok (base + blen b + blen term) ->
     rd_kids seek inflate f ver (base + blen b + blen term) (mkR (b ++ term ++ rest) base None) =
     (l, mkR rest (base + blen b + blen term) None)).
Proof.
  apply (node_at_both unpacks (wide_of ver)
    (fun base n b => 0 <= base -> forall f rest, (length b <= f)%nat -> seek_ok (base + blen b) ->
       rd_node seek inflate f ver (mkR (b ++ rest) base None) = (Some n, mkR rest (base + blen b) None))
    (fun base l b => 0 <= base -> forall f rest term, (term = [] \/ term = null_record (wide_of ver)) ->
       (length b + length term < f)%nat -> seek_ok (base + blen b + blen term) ->
       rd_kids seek inflate f ver (base + blen b + blen term) (mkR (b ++ term ++ rest) base None) =
       (l, mkR rest (base + blen b + blen term) None))).
  - intros base name attrs kids ab kb term fin Hn Hab Hk IHk Ht Hfin Hoff Hbase f rest Hf Hs.
    set (w := num_w (wide_of ver)) in *.
    assert (Hw : (4 <= w)%nat) by (unfold w; destruct (wide_of ver); cbn; lia).
    destruct f as [|f]; [rewrite !app_length, !le_length in Hf; lia|].
    set (hd := le w fin ++ le w (Z.of_nat (length attrs)) ++ le w (len ab) ++ le 1 (len name) ++ name).
    assert (Hhd : blen hd = Z.of_nat (3 * w + 1) + len name).
    { unfold hd. rewrite !blen_app, !blen_le. unfold len, blen. lia. }
    replace ((le w fin ++ le w (Z.of_nat (length attrs)) ++ le w (len ab) ++ le 1 (len name) ++
              name ++ ab ++ kb ++ term)) with (hd ++ ab ++ kb ++ term) in Hs, Hf |- *
      by (unfold hd; rewrite <- !app_assoc; reflexivity).
    pose proof (attrs_two _ _ Hab) as H2.
    assert (Hfin' : fin = base + blen (hd ++ ab ++ kb ++ term)).
    { rewrite !blen_app, Hhd. unfold len, blen in *. lia. }
    assert (Hpos : base + blen hd + blen ab + blen kb + blen term = fin).
    { rewrite Hfin', !blen_app. lia. }
    pose proof (blen_nonneg ab). pose proof (blen_nonneg kb). pose proof (blen_nonneg term).
    pose proof (blen_nonneg hd).
    assert (Hoab : offset_ok (wide_of ver) (len ab)).
    { unfold offset_ok in *. change (len ab) with (blen ab). destruct (wide_of ver); lia. }
    assert (Hoat : offset_ok (wide_of ver) (Z.of_nat (length attrs))).
    { unfold offset_ok, len in *. destruct (wide_of ver); lia. }
    cbn [rd_node]. rewrite <- app_assoc.
    rewrite (header_ok ver fin (Z.of_nat (length attrs)) (len ab) name Hoff Hoat Hoab Hn).
    fold w. fold hd.
    rewrite (invalid_ok (wide_of ver)); [|exact Hoat|exact Hoab|unfold len; lia].
    destruct (Z.eqb_spec fin 0) as [Hz|_].
    { exfalso. unfold len, blen in *. lia. }
    cbn [r_rest].
    replace ((ab ++ kb ++ term) ++ rest) with (ab ++ (kb ++ term ++ rest)) by (rewrite <- !app_assoc; reflexivity).
    rewrite (rd_props_ok attrs ab Hab).
    2: { rewrite app_length. lia. }
    2: { eapply seek_ok_le; [|exact Hs]. rewrite !blen_app. lia. }
    unfold bad_error at 1. cbn [r_err].
    replace fin with (base + Z.of_nat (3 * w + 1) + len name + len ab + blen kb + blen term) at 1 by (unfold len, blen in *; lia).
    replace (base + blen hd + blen ab) with (base + Z.of_nat (3 * w + 1) + len name + len ab) by (unfold len, blen in *; lia).
    rewrite IHk; [|unfold len; lia|exact Ht| |].
    2: { rewrite !app_length in Hf. assert (3 * w + 1 <= length hd)%nat by (unfold blen, len in Hhd; lia). lia. }
    2: { eapply seek_ok_le; [|exact Hs]. rewrite <- Hfin'. unfold len, blen in *. lia. }
    cbn [r_err]. rewrite skip_to_here; cbn [r_pos].
    2: { unfold len, blen in *. lia. }
    2: { rewrite Hfin'. exact Hs. }
    unfold bad_error. cbn [r_err r_rest r_pos].
    do 2 f_equal. rewrite <- Hfin'. unfold len, blen in *. lia.
  - intros base Hbase f rest term Ht Hf Hs. cbn [length] in Hf. change (blen []) with 0. rewrite Z.add_0_r. cbn [app].
    destruct f as [|f]; [lia|].
    destruct Ht as [-> | ->].
    + change (blen []) with 0. cbn [app]. rewrite Z.add_0_r. apply rd_kids_stop. lia.
    + assert (Hn : 13 <= blen (null_record (wide_of ver))).
      { rewrite blen_null. destruct (wide_of ver); cbn [num_w]; lia. }
      destruct f as [|f]; [unfold blen in Hn; lia|].
      rewrite rd_kids_step. unfold no_error; cbn [r_pos r_err].
      destruct (Z.ltb_spec base (base + blen (null_record (wide_of ver)))); [|lia]. cbn [andb].
      rewrite null_ok. cbn [cons_opt].
      rewrite rd_kids_stop by lia. reflexivity.
  - intros base n l b bl Hn IHn Hl IHl Hbase f rest term Ht Hf Hs.
    pose proof (node_len _ _ _ _ Hn) as H13. rewrite app_length in Hf.
    destruct f as [|f]; [lia|]. rewrite rd_kids_step. unfold no_error; cbn [r_pos r_err].
    rewrite blen_app in Hs |- *.
    pose proof (blen_nonneg bl). pose proof (blen_nonneg term).
    assert (13 <= blen b) by (unfold blen; lia).
    destruct (Z.ltb_spec base (base + (blen b + blen bl) + blen term)); [|lia]. cbn [andb].
    rewrite <- app_assoc. rewrite IHn; [|exact Hbase|lia|].
    2: { eapply seek_ok_le; [|exact Hs]. lia. }
    replace (base + (blen b + blen bl) + blen term) with (base + len b + blen bl + blen term) by (unfold len, blen; lia).
    change (base + blen b) with (base + len b).
    rewrite IHl; [reflexivity|unfold len; lia|exact Ht|lia|].
    eapply seek_ok_le; [|exact Hs]. unfold len, blen; lia.
Qed.

(** ** Whole files *)
Lemma rd_top_nodes ver base l b : nodes_at unpacks (wide_of ver) base l b -> 0 <= base ->
  forall f rest, (length b < f)%nat -> seek_ok (base + blen b) ->
  rd_top seek inflate f ver (mkR (b ++ rest) base None) =
  (let (m, s) := rd_top seek inflate (f - length l) ver (mkR rest (base + blen b) None) in (l ++ m, s)).
Proof.
  induction 1 as [base|base n l b bl Hn Hl IH]; intros Hb f rest Hf Hs.
  - change (blen []) with 0. cbn [app length]. rewrite Z.add_0_r, Nat.sub_0_r. destruct (rd_top _ _ _ _ _); reflexivity.
  - pose proof (node_len _ _ _ _ Hn) as H13. rewrite app_length in Hf. rewrite blen_app in *.
    destruct f as [|f]; [lia|]. rewrite rd_top_step. cbn [length Nat.sub]. unfold no_error; cbn [r_err].
    pose proof (blen_nonneg bl).
    rewrite <- app_assoc. destruct (read_tree ver) as [RT _].
    rewrite (RT _ _ _ Hn Hb); [|lia|eapply seek_ok_le; [|exact Hs]; lia].
    change (base + blen b) with (base + len b).
    rewrite IH; [|unfold len; lia|lia|eapply seek_ok_le; [|exact Hs]; unfold len, blen; lia].
    replace (base + len b + blen bl) with (base + (blen b + blen bl)) by (unfold len, blen; lia).
    destruct (rd_top _ _ _ _ _). reflexivity.
Qed.
Lemma nodes_count wide base l b : nodes_at unpacks wide base l b -> (13 * length l <= length b)%nat.
Proof.
  induction 1 as [|base n l b bl Hn _ IH]; [cbn; lia|].
  apply node_len in Hn. cbn [length]. rewrite app_length. lia.
Qed.

Lemma node_eof f ver pos :
  rd_node seek inflate (S f) ver (mkR [] pos None) = (None, mkR [] pos (Some EEof)).
Proof.
  assert (E : rd_header ver (mkR [] pos None) = ((0, 0, 0, []), mkR [] pos (Some EEof))).
  { unfold rd_header. rewrite <- (Z.add_0_r pos) at 2. destruct (7500 <=? ver); reflexivity. }
  cbn [rd_node]. rewrite E. reflexivity.
Qed.
Lemma top_eof f ver pos :
  rd_top seek inflate (S (S f)) ver (mkR [] pos None) = ([], mkR [] pos (Some EEof)).
Proof.
  rewrite rd_top_step. unfold no_error; cbn [r_err]. rewrite node_eof. reflexivity.
Qed.
Lemma top_null f ver rest pos :
  rd_top seek inflate (S (S f)) ver (mkR (null_record (wide_of ver) ++ rest) pos None) =
  rd_top seek inflate (S f) ver (mkR rest (pos + blen (null_record (wide_of ver))) None).
Proof.
  rewrite rd_top_step. unfold no_error; cbn [r_err]. rewrite null_ok.
  cbn [cons_opt]. destruct (rd_top _ _ _ _ _). reflexivity.
Qed.

Lemma head_ok res ver : length res = 2%nat -> fits_u 4 ver ->
  forall data, parse_fbx seek inflate (file_head res ver ++ data) =
    let (kids, s4) := rd_top seek inflate (31 + length data) ver (mkR data 27 None) in
    match r_err s4 with
    | None | Some EEof => FTree (Node root_name [] kids)
    | Some EFuel => FFuel
    | Some EOther => FErr
    end.
Proof.
  intros Hr Hv data. unfold parse_fbx, file_head.
  change [75; 97; 121; 100; 97; 114; 97; 32; 70; 66; 88; 32; 66; 105; 110; 97; 114; 121; 32; 32; 0] with magic.
  rewrite <- !app_assoc.
  rewrite (runs_get' 21 magic eq_refl). change (beq magic magic) with true. cbn [negb].
  assert (R2 : runs (rd_u 2) res (le_dec res)).
  { unfold rd_u. apply (runs_map _ le_dec). apply runs_get'. unfold blen. rewrite Hr. reflexivity. }
  rewrite R2, (runs_u 4 ver Hv). rewrite !app_length, Hr, le_length, blen_le.
  change (length magic) with 21%nat.
  replace (21 + (2 + (4 + length data)) + 4)%nat with (31 + length data)%nat by lia.
  replace (0 + blen magic + blen res + Z.of_nat 4) with 27; [reflexivity|].
  unfold blen. rewrite Hr. reflexivity.
Qed.

(** Parsing followed by any tail: the top-level loop carries on with the tail. *)
Lemma parse_then ver kids res kb term tail :
  length res = 2%nat -> fits_u 4 ver -> nodes_at unpacks (wide_of ver) 27 kids kb ->
  (term = [] \/ term = null_record (wide_of ver)) ->
  seek_ok (27 + blen kb) ->
  exists f, (length tail + 2 <= f)%nat /\
  parse_fbx seek inflate (file_head res ver ++ kb ++ term ++ tail) =
    let (more, s4) := rd_top seek inflate f ver (mkR tail (27 + blen kb + blen term) None) in
    match r_err s4 with
    | None | Some EEof => FTree (Node root_name [] (kids ++ more))
    | Some EFuel => FFuel
    | Some EOther => FErr
    end.
Proof.
  intros Hr Hv Hk Ht Hs.
  pose proof (nodes_count _ _ _ _ Hk) as Hc.
  destruct Ht as [-> | ->].
  - exists (31 + length (kb ++ tail) - length kids)%nat. split; [rewrite app_length; lia|].
    cbn [app]. change (blen []) with 0. rewrite Z.add_0_r.
    rewrite head_ok by assumption.
    rewrite (rd_top_nodes ver 27 kids kb Hk); [|lia|rewrite app_length; lia|exact Hs].
    destruct (rd_top _ _ _ _ _). reflexivity.
  - set (T := null_record (wide_of ver)) in *.
    exists (30 + length (kb ++ T ++ tail) - length kids)%nat. split; [rewrite !app_length; lia|].
    rewrite head_ok by assumption.
    rewrite (rd_top_nodes ver 27 kids kb Hk); [|lia|rewrite app_length; lia|exact Hs].
    set (L := length (kb ++ T ++ tail)).
    assert (length kb <= L)%nat by (unfold L; rewrite app_length; lia).
    replace (31 + L - length kids)%nat with (S (S (29 + L - length kids))) by lia.
    rewrite top_null. fold T.
    replace (30 + L - length kids)%nat with (S (29 + L - length kids)) by lia.
    destruct (rd_top _ _ _ _ _). reflexivity.
Qed.

Theorem parse_file ver kids data :
  file_at unpacks ver kids data -> seek_ok (len data) ->
  parse_fbx seek inflate data = FTree (tree_of kids).
Proof.
  intros H Hs. destruct H as [ver kids res kb term Hr Hv Hk Ht].
  assert (Hs' : seek_ok (27 + blen kb)).
  { eapply seek_ok_le; [|exact Hs]. unfold len, blen, file_head. rewrite !app_length, Hr, le_length. cbn [length]. lia. }
  destruct (parse_then ver kids res kb term [] Hr Hv Hk Ht Hs') as (f & Hf & E).
  rewrite app_nil_r in E. rewrite E. destruct f as [|[|f]]; cbn [length] in Hf; try lia.
  rewrite top_eof. cbn [r_err]. rewrite app_nil_r. reflexivity.
Qed.

(** ** Trailing bytes after the last null record: the footer *)
Lemma top_skip ver f s0 fin nprop sz name s1 :
  r_err s0 = None ->
  rd_header ver s0 = ((fin, nprop, sz, name), s1) ->
  invalid nprop sz = true ->
  (2 <= f)%nat ->
  rd_top seek inflate f ver s0 =
  let (e, s) := skip_to seek fin s1 in
  rd_top seek inflate (f - 1) ver (mkR (r_rest s) (r_pos s) e).
Proof.
  intros H0 H Hi Hf. destruct f as [|[|f]]; try lia. rewrite rd_top_step. replace (S (S f) - 1)%nat with (S f) by lia.
  unfold no_error. rewrite H0. cbn [rd_node]. rewrite H, Hi.
  destruct (skip_to _ _ _) as [e s]. cbn [cons_opt]. destruct (rd_top _ _ _ _ _). reflexivity.
Qed.
Lemma top_err f ver rest pos e :
  rd_top seek inflate (S f) ver (mkR rest pos (Some e)) = ([], mkR rest pos (Some e)).
Proof. reflexivity. Qed.

(** Skipping past the end of the data ends the file, whatever the reader. *)
Lemma skip_past fin s : r_pos s + blen (r_rest s) <= fin -> seek_ok fin ->
  exists e pos, skip_to seek fin s = (e, mkR [] pos (r_err s)) /\ (e = None \/ e = Some EEof).
Proof.
  intros Hp Hs. unfold skip_to. pose proof (blen_nonneg (r_rest s)).
  destruct (Z.ltb_spec (fin - r_pos s) 0); [lia|].
  assert (E : skipZ (fin - r_pos s) (r_rest s) = []).
  { rewrite skipZ_skipn. apply skipn_all2. unfold blen in *. lia. }
  rewrite E. unfold seek_ok in Hs. destruct seek as [m|].
  - destruct (Z.leb_spec fin m); [|lia]. eauto.
  - destruct (Z.ltb_spec (blen (r_rest s)) (fin - r_pos s)); eauto.
Qed.

Lemma footer_ends ver f s0 fin nprop sz name s1 :
  r_err s0 = None -> rd_header ver s0 = ((fin, nprop, sz, name), s1) -> invalid nprop sz = true ->
  r_pos s1 + blen (r_rest s1) <= fin -> seek_ok fin -> (4 <= f)%nat ->
  exists s, rd_top seek inflate f ver s0 = ([], s) /\ r_err s = Some EEof.
Proof.
  intros H0 H Hi Hp Hs Hf. rewrite (top_skip _ _ _ _ _ _ _ _ H0 H Hi) by lia.
  destruct (skip_past fin s1 Hp Hs) as (e & pos & E & He). rewrite E. cbn [r_rest r_pos].
  destruct f as [|[|[|f]]]; try lia. replace (S (S (S f)) - 1)%nat with (S (S f)) by lia.
  destruct He as [-> | ->].
  - rewrite top_eof. eauto.
  - rewrite top_err. eauto.
Qed.
Lemma footer_fails ver f s0 fin nprop sz name s1 :
  r_err s0 = None -> rd_header ver s0 = ((fin, nprop, sz, name), s1) -> invalid nprop sz = true ->
  (fin < r_pos s1 \/ exists m, seek = Some m /\ m < fin) -> (2 <= f)%nat ->
  exists s, rd_top seek inflate f ver s0 = ([], s) /\ r_err s = Some EOther.
Proof.
  intros H0 H Hi Hp Hf. rewrite (top_skip _ _ _ _ _ _ _ _ H0 H Hi) by lia.
  destruct f as [|[|f]]; try lia. replace (S (S f) - 1)%nat with (S f) by lia.
  unfold skip_to. destruct (Z.ltb_spec (fin - r_pos s1) 0) as [Hn|Hn].
  - cbv beta iota. rewrite top_err. eauto.
  - destruct Hp as [Hp|(m & Em & Hm)]; [lia|]. rewrite Em.
    destruct (Z.leb_spec fin m); [lia|]. eexists; split; reflexivity.
Qed.

(** What the parser sees in the footer: a record header that is rejected, with an end offset
    that depends on the format only. *)
Definition foot_end (ver : Z) : Z := if wide_of ver then 7409768082772311290 else 162249978.
Definition sh (q : Z) (s : rdst) : rdst := mkR (r_rest s) (q + r_pos s) (r_err s).
Definition shifts {A} (p : M A) : Prop := forall q s, p (sh q s) = (fst (p s), sh q (snd (p s))).
Lemma shifts_ret {A} (a : A) : shifts (mret a).
Proof. intros q s. reflexivity. Qed.
Lemma shifts_bind {A B} (p : M A) (k : A -> M B) : shifts p -> (forall a, shifts (k a)) -> shifts (mbind p k).
Proof.
  intros Hp Hk q s. unfold mbind. rewrite Hp. destruct (p s) as [a s1]. cbn [fst snd]. apply Hk.
Qed.
Lemma shifts_get k : shifts (get k).
Proof.
  intros q s. unfold get, sh. cbn [r_err r_rest r_pos]. destruct (r_err s) eqn:E; [cbn [fst snd r_rest r_pos r_err]; rewrite E; reflexivity|].
  destruct (k <=? blen (r_rest s)); cbn [fst snd r_rest r_pos r_err]; rewrite Z.add_assoc; reflexivity.
Qed.
Lemma shifts_header ver : shifts (rd_header ver).
Proof.
  unfold rd_header, rd_name, rd_u, rd_s.
  destruct (7500 <=? ver);
    repeat first [apply shifts_ret | apply shifts_get | apply shifts_bind; [|intros ?]].
Qed.

Definition foot_facts (ver : Z) (pad : nat) : Prop :=
  let '((fin, nprop, sz, _), s1) := rd_header ver (mkR (footer pad ver) 0 None) in
  fin = foot_end ver /\ invalid nprop sz = true /\ r_pos s1 + blen (r_rest s1) = blen (footer pad ver) /\
  r_pos s1 > 0.
Lemma footer_header0 :
  Forall (fun ver => Forall (foot_facts ver) (seq 1 16)) [7100; 7200; 7300; 7400; 7500; 7600; 7700].
Proof.
  change (seq 1 16) with [1;2;3;4;5;6;7;8;9;10;11;12;13;14;15;16]%nat.
  repeat apply Forall_cons; try apply Forall_nil; vm_compute; repeat split; reflexivity.
Qed.
Lemma footer_header pad ver pos : (1 <= pad <= 16)%nat -> In ver [7100; 7200; 7300; 7400; 7500; 7600; 7700] ->
  exists nprop sz name s1, rd_header ver (mkR (footer pad ver) pos None) = ((foot_end ver, nprop, sz, name), s1) /\
    invalid nprop sz = true /\ r_pos s1 + blen (r_rest s1) = pos + blen (footer pad ver) /\ pos < r_pos s1.
Proof.
  intros Hp Hv.
  assert (Hc : In pad (seq 1 16)) by (apply in_seq; lia).
  pose proof footer_header0 as H. rewrite Forall_forall in H. specialize (H ver Hv).
  rewrite Forall_forall in H. specialize (H pad Hc). unfold foot_facts in H.
  pose proof (shifts_header ver pos (mkR (footer pad ver) 0 None)) as S.
  unfold sh in S. cbn [r_rest r_pos r_err] in S. rewrite Z.add_0_r in S. rewrite S. clear S.
  destruct (rd_header ver (mkR (footer pad ver) 0 None)) as [[[[a b] c] d] s1].
  destruct H as (-> & Hi & Hr & H0). cbn [fst snd].
  exists b, c, d, (mkR (r_rest s1) (pos + r_pos s1) (r_err s1)). cbn [r_rest r_pos].
  repeat split; auto; lia.
Qed.

(** A file with a footer. *)
Lemma file_footer ver kids data pad :
  file_at unpacks ver kids data -> (1 <= pad <= 16)%nat -> In ver [7100; 7200; 7300; 7400; 7500; 7600; 7700] ->
  seek_ok (len data) ->
  exists f pos, (4 <= f)%nat /\ pos = len data /\
  parse_fbx seek inflate (data ++ footer pad ver) =
    let (more, s4) := rd_top seek inflate f ver (mkR (footer pad ver) pos None) in
    match r_err s4 with
    | None | Some EEof => FTree (Node root_name [] (kids ++ more))
    | Some EFuel => FFuel
    | Some EOther => FErr
    end.
Proof.
  intros H Hp Hv Hs. destruct H as [ver kids res kb term Hr Hfv Hk Ht].
  assert (El : len (file_head res ver ++ kb ++ term) = 27 + blen kb + blen term).
  { unfold len, blen, file_head. rewrite !app_length, Hr, le_length. cbn [length]. lia. }
  rewrite El in *. pose proof (blen_nonneg term).
  assert (Hs' : seek_ok (27 + blen kb)) by (eapply seek_ok_le; [|exact Hs]; lia).
  destruct (parse_then ver kids res kb term (footer pad ver) Hr Hfv Hk Ht Hs') as (f & Hf & E).
  exists f, (27 + blen kb + blen term). rewrite <- !app_assoc. split; [|split; [reflexivity|exact E]].
  unfold footer in Hf. rewrite app_length in Hf. cbn [length] in Hf. lia.
Qed.
Theorem footer_ignored ver kids data pad :
  file_at unpacks ver kids data -> (1 <= pad <= 16)%nat -> In ver [7100; 7200; 7300; 7400; 7500; 7600; 7700] ->
  seek_ok (foot_end ver) -> len data + blen (footer pad ver) <= foot_end ver ->
  parse_fbx seek inflate (data ++ footer pad ver) = FTree (tree_of kids).
Proof.
  intros H Hp Hv Hs Hl. pose proof (blen_nonneg (footer pad ver)).
  assert (Hs' : seek_ok (len data)) by (eapply seek_ok_le; [|exact Hs]; lia).
  destruct (file_footer ver kids data pad H Hp Hv Hs') as (f & pos & Hf & -> & ->).
  destruct (footer_header pad ver (len data) Hp Hv) as (nprop & sz & name & s1 & Hh & Hi & Hr & Hlt).
  destruct (footer_ends ver f (mkR (footer pad ver) (len data) None) _ _ _ _ _ eq_refl Hh Hi) as (s & E & Ee); auto; [lia|].
  rewrite E, Ee, app_nil_r. reflexivity.
Qed.
Theorem footer_rejected ver kids data pad :
  file_at unpacks ver kids data -> (1 <= pad <= 16)%nat -> In ver [7100; 7200; 7300; 7400; 7500; 7600; 7700] ->
  seek_ok (len data) ->
  (foot_end ver <= len data \/ exists m, seek = Some m /\ m < foot_end ver) ->
  parse_fbx seek inflate (data ++ footer pad ver) = FErr.
Proof.
  intros H Hp Hv Hs Hl.
  destruct (file_footer ver kids data pad H Hp Hv Hs) as (f & pos & Hf & -> & ->).
  destruct (footer_header pad ver (len data) Hp Hv) as (nprop & sz & name & s1 & Hh & Hi & Hr & Hlt).
  destruct (footer_fails ver f (mkR (footer pad ver) (len data) None) _ _ _ _ _ eq_refl Hh Hi) as (s & E & Ee); [|lia|].
  - destruct Hl; [left; lia|right; assumption].
  - rewrite E, Ee. reflexivity.
Qed.
End Reader.
