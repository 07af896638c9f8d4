(** Proofs about the textures of exported documents. *)
From Coq Require Import String Ascii List ZArith QArith Qround Bool Lia Lqa.
From Verif.Model Require Import Num Vec Matrix Mqo MqoDoc Gltf Mqo2Gltf Cli Mqo2GltfTextures.
From Verif.Spec Require Import TextureSpec.
Import ListNotations.
Local Open Scope Z_scope.
Local Open Scope list_scope.

(** *** Sizes *)
Lemma trunc_floor q : (0 <= q)%Q -> trunc q = Qfloor q.
Proof. intros H. unfold trunc. apply Qle_bool_iff in H. now rewrite H. Qed.
Lemma floor_is q z : (inject_Z z <= q)%Q -> (q < inject_Z z + 1)%Q -> Qfloor q = z.
Proof.
  intros H1 H2. assert (A := Qfloor_le q). assert (B := Qlt_floor q).
  assert (E1 : (inject_Z (Qfloor q) < inject_Z (z + 1))%Q) by (rewrite inject_Z_plus; change (inject_Z 1) with 1%Q; lra).
  assert (E2 : (inject_Z z < inject_Z (Qfloor q + 1))%Q) by lra.
  rewrite <- Zlt_Qlt in E1, E2. lia.
Qed.
Lemma floor_nonneg q : (0 <= q)%Q -> 0 <= Qfloor q.
Proof. intros H. change 0 with (Qfloor 0). now apply Qfloor_resp_le. Qed.

Section Size.
Variables (opts : topts) (p : pic).
Hypothesis (Hs : (0 < toScale opts)%Q) (HW : 0 <= pW p) (HH : 0 <= pH p).

Let w := Qfloor (inject_Z (pW p) * toScale opts).
Lemma size_pos z : 0 <= z -> (0 <= inject_Z z * toScale opts)%Q.
Proof. intros H. rewrite Zle_Qle in H. change (inject_Z 0) with 0%Q in H. apply Qmult_le_0_compat; lra. Qed.
Lemma final_cases : (0 < toLimit opts < w /\ final_scale opts p = (toScale opts * (inject_Z (toLimit opts) / inject_Z w))%Q) \/
  ((toLimit opts <= 0 \/ w <= toLimit opts) /\ final_scale opts p = toScale opts).
Proof.
  unfold final_scale. rewrite trunc_floor by (now apply size_pos). fold w.
  destruct (Z.ltb_spec 0 (toLimit opts)); destruct (Z.ltb_spec (toLimit opts) w); cbn [andb]; [left|right|right|right]; split; auto; lia.
Qed.
Lemma inj_pos z : 0 < z -> (0 < inject_Z z)%Q.
Proof. intros H. change 0%Q with (inject_Z 0). now rewrite <- Zlt_Qlt. Qed.
Lemma final_pos : (0 < final_scale opts p)%Q.
Proof.
  destruct final_cases as [[[L1 L2] ->] | [_ ->]]; [|exact Hs].
  assert (A : (0 < inject_Z w)%Q) by (apply inj_pos; lia). assert (B := inj_pos _ L1).
  apply Qmult_lt_0_compat; [exact Hs|]. apply Qlt_shift_div_l; [exact A|]. lra.
Qed.
Lemma mul_pos z : 0 <= z -> (0 <= inject_Z z * final_scale opts p)%Q.
Proof. intros H. assert (P := final_pos). rewrite Zle_Qle in H. change (inject_Z 0) with 0%Q in H. apply Qmult_le_0_compat; lra. Qed.

Lemma width_fits : trunc (inject_Z (pW p) * final_scale opts p) = fit_width opts p.
Proof.
  rewrite trunc_floor by (now apply mul_pos). unfold fit_width. fold w.
  destruct final_cases as [[[L1 L2] E] | [D E]]; rewrite E.
  - replace (0 <? toLimit opts) with true by (symmetry; apply Z.ltb_lt; lia). rewrite Z.min_r by lia.
    assert (A : (0 < inject_Z w)%Q) by (apply inj_pos; lia). assert (B := inj_pos _ L1).
    assert (F1 : (inject_Z w <= inject_Z (pW p) * toScale opts)%Q) by apply Qfloor_le.
    assert (F2 : (inject_Z (pW p) * toScale opts < inject_Z w + 1)%Q).
    { assert (X := Qlt_floor (inject_Z (pW p) * toScale opts)). fold w in X. rewrite inject_Z_plus in X. exact X. }
    set (x := (inject_Z (pW p) * toScale opts)%Q) in *.
    assert (R : (inject_Z (pW p) * (toScale opts * (inject_Z (toLimit opts) / inject_Z w)) == x * inject_Z (toLimit opts) / inject_Z w)%Q).
    { unfold x. field. intros Z0. rewrite Z0 in A. lra. }
    rewrite R. apply floor_is.
    + apply Qle_shift_div_l; [exact A|]. rewrite (Qmult_comm (inject_Z (toLimit opts))). apply Qmult_le_compat_r; lra.
    + apply Qlt_shift_div_r; [exact A|].
      assert (L : (inject_Z (toLimit opts) <= inject_Z w)%Q) by (rewrite <- Zle_Qle; lia).
      apply Qlt_le_trans with ((inject_Z w + 1) * inject_Z (toLimit opts))%Q; [apply Qmult_lt_r; assumption|].
      assert (X : ((inject_Z w + 1) * inject_Z (toLimit opts) == inject_Z w * inject_Z (toLimit opts) + inject_Z (toLimit opts))%Q) by ring.
      assert (Y : ((inject_Z (toLimit opts) + 1) * inject_Z w == inject_Z w * inject_Z (toLimit opts) + inject_Z w)%Q) by ring.
      rewrite X, Y. lra.
  - fold w. destruct (Z.ltb_spec 0 (toLimit opts)); [|reflexivity]. destruct D as [D|D]; [lia|]. now rewrite Z.min_l by lia.
Qed.
Lemma height_fits : fit_height opts p (trunc (inject_Z (pH p) * final_scale opts p)).
Proof.
  unfold fit_height. rewrite trunc_floor by (now apply mul_pos). fold w. apply Qfloor_comp.
  destruct final_cases as [[[L1 L2] E] | [D E]]; rewrite E.
  - replace ((0 <? toLimit opts) && (toLimit opts <? w)) with true by (symmetry; apply andb_true_iff; split; apply Z.ltb_lt; lia). ring.
  - replace ((0 <? toLimit opts) && (toLimit opts <? w)) with false; [ring|]. symmetry. apply andb_false_iff. rewrite !Z.ltb_ge. lia.
Qed.
Lemma scaled_fits resample : fits resample opts p (scaled_picture resample opts p).
Proof.
  unfold scaled_picture. destruct (Qeq_bool (final_scale opts p) 1) eqn:E.
  - left. apply Qeq_bool_iff in E. split; [reflexivity|]. split.
    + rewrite <- width_fits, trunc_floor by (now apply mul_pos). symmetry. rewrite E, Qmult_1_r. apply Qfloor_Z.
    + assert (F := height_fits). rewrite trunc_floor in F by (now apply mul_pos). rewrite E, Qmult_1_r, Qfloor_Z in F. exact F.
  - right. rewrite width_fits. eexists. split; [exact height_fits|reflexivity].
Qed.
End Size.

(** *** The cache *)
Section World.
Variables (file : string -> option (list Z)) (decode_tga decode : list Z -> option pic) (resample : Z -> Z -> pic -> pic)
  (png jpeg : pic -> option (list Z)) (join : string -> string) (opts : topts).
Hypothesis (Hs : (0 < toScale opts)%Q).
Hypothesis (Hsize : forall n b p, picture decode_tga decode n b = Some p -> 0 <= pW p /\ 0 <= pH p).

Notation load := (load_image file decode_tga decode join).
Notation Made := (made_from file decode_tga decode resample png jpeg join opts).
Notation Fails := (fails file decode_tga decode resample png jpeg join opts).
Notation Shows := (shows file decode_tga decode resample png jpeg join opts).

Record inv (used : list string) (st : tstate) : Prop := {
  iNoDup : NoDup used;
  iTex : tsTextures st = seq 0 (length used);
  iImg : length (tsImages st) = length used;
  iId : forall n i, tiId (cached (tsCache st) n) = Some i <-> nth_error used i = Some n;
  iPic : forall n r, tiImg (cached (tsCache st) n) = Some r -> r = load n;
  iMade : forall i n, nth_error used i = Some n -> exists g, nth_error (tsImages st) i = Some g /\ Made n g }.

Lemma cached_set st n t m : cached (tsCache (set_info st n t)) m = if String.eqb n m then t else cached (tsCache st) m.
Proof. reflexivity. Qed.
Lemma inv0 : inv [] ts0.
Proof.
  split; cbn; auto using NoDup_nil.
  - intros n i. split; [discriminate|]. now destruct i.
  - discriminate.
  - intros i n. destruct i; discriminate.
Qed.

(** Two states that differ in the pictures of the cache only. *)
Definition same_but_pictures (st st' : tstate) : Prop :=
  tsImages st' = tsImages st /\ tsTextures st' = tsTextures st /\ (forall n, tiId (cached (tsCache st') n) = tiId (cached (tsCache st) n)).
Lemma get_image_ok used st n r st' : inv used st -> get_image file decode_tga decode join st n = (r, st') ->
  r = load n /\ inv used st' /\ same_but_pictures st st'.
Proof.
  intros I E. unfold get_image in E. destruct (tiImg (cached (tsCache st) n)) as [r0|] eqn:C; injection E as <- <-.
  - split; [exact (iPic _ _ I n r0 C)|]. split; [exact I|]. repeat split.
  - split; [reflexivity|]. assert (S1 : same_but_pictures st (set_info st n (mkTI (tiId (cached (tsCache st) n)) (Some (load n))))).
    { split; [reflexivity|]. split; [reflexivity|]. intros m. rewrite cached_set. destruct (String.eqb_spec n m) as [->|]; reflexivity. }
    split; [|exact S1]. destruct I as [I1 I2 I3 I4 I5 I6]. split; try assumption.
    + intros m i. rewrite (proj2 (proj2 S1)). apply I4.
    + intros m r. rewrite cached_set. destruct (String.eqb_spec n m) as [->|]; [|apply I5]. cbn. now intros [= <-].
Qed.

Lemma mime_kind n : fst (mime_of n) = kind n.
Proof.
  unfold mime_of, kind, jpeg_name. cbn [existsb]. rewrite orb_false_r.
  destruct (String.eqb (lower (ext n)) ".jpg" || String.eqb (lower (ext n)) ".jpeg"); [reflexivity|].
  now destruct (String.eqb (lower (ext n)) ".png").
Qed.
Lemma mime_must n : snd (mime_of n) = false <-> (jpeg_name n = true \/ png_name n = true).
Proof.
  unfold mime_of, jpeg_name, png_name. cbn [existsb]. rewrite orb_false_r.
  destruct (String.eqb (lower (ext n)) ".jpg" || String.eqb (lower (ext n)) ".jpeg"); [cbn; intuition|].
  destruct (String.eqb (lower (ext n)) ".png"); cbn; intuition congruence.
Qed.
Lemma load_picture n bytes : file (join n) = Some bytes -> load n = picture decode_tga decode n bytes.
Proof. intros E. unfold load_image, picture. now rewrite E. Qed.
Lemma png_kind n : String.eqb (kind n) "image/png" = negb (jpeg_name n).
Proof. unfold kind. destruct (jpeg_name n); reflexivity. Qed.

(** Bytes of a picture that is compressed again. *)
Lemma scale_texture_ok used st n d st' : inv used st -> scale_texture file decode_tga decode resample png jpeg join opts st n (kind n) = (d, st') ->
  inv used st' /\ same_but_pictures st st' /\
  match d with
  | Some x => exists bytes p q, file (join n) = Some bytes /\ picture decode_tga decode n bytes = Some p /\ fits resample opts p q /\ encoded png jpeg n q = Some x
  | None => file (join n) = None \/ exists bytes, file (join n) = Some bytes /\
      (picture decode_tga decode n bytes = None \/ exists p q, picture decode_tga decode n bytes = Some p /\ fits resample opts p q /\ encoded png jpeg n q = None)
  end.
Proof.
  intros I E. unfold scale_texture in E. destruct (get_image file decode_tga decode join st n) as [r st1] eqn:G.
  destruct (get_image_ok used st n r st1 I G) as (R & I1 & S1). injection E as <- <-. split; [exact I1|]. split; [exact S1|].
  rewrite png_kind. destruct (file (join n)) as [bytes|] eqn:F.
  - rewrite (load_picture n bytes F) in R. destruct r as [p|].
    + destruct (Hsize n bytes p (eq_sym R)) as [W H]. assert (Q := scaled_fits opts p Hs W H resample). set (q := scaled_picture resample opts p) in *.
      replace (if negb (jpeg_name n) then png q else jpeg q) with (encoded png jpeg n q) by (unfold encoded; destruct (jpeg_name n); reflexivity).
      destruct (encoded png jpeg n q) as [x|] eqn:X; [exists bytes, p, q; auto|]. right. exists bytes. split; [reflexivity|]. right. exists p, q. auto.
    + right. exists bytes. auto.
  - unfold load_image in R. rewrite F in R. subst r. now left.
Qed.

Lemma not_copied_enc n bytes : (toReCompress opts = true \/ (0 < toThreshold opts /\ toThreshold opts < Z.of_nat (length bytes)) \/ snd (mime_of n) = true) -> ~ copied opts n bytes.
Proof. unfold copied. intros H (A & B & C). apply mime_must in A. rewrite B, A in H. destruct H as [H|[[H1 H2]|H]]; [discriminate|lia|discriminate]. Qed.

Lemma not_must n : snd (mime_of n) = true -> ~ (jpeg_name n = true \/ png_name n = true).
Proof. intros E X. apply mime_must in X. congruence. Qed.

Lemma image_data_ok used st n d st' : inv used st -> is_abs n = false -> image_data file decode_tga decode resample png jpeg join opts st n = (d, st') ->
  inv used st' /\ same_but_pictures st st' /\
  match d with
  | Some x => Made n (mkImg (base_name n) (fst (mime_of n)) x)
  | None => Fails n
  end.
Proof.
  intros I A E. unfold image_data in E. rewrite A in E. destruct (mime_of n) as [mime must] eqn:M.
  assert (Mk : mime = kind n) by (rewrite <- mime_kind, M; reflexivity). subst mime.
  assert (Mm : snd (mime_of n) = must) by now rewrite M.
  assert (ENC : forall d st', scale_texture file decode_tga decode resample png jpeg join opts st n (kind n) = (d, st') ->
    (forall b, file (join n) = Some b -> toReCompress opts = true \/ (0 < toThreshold opts /\ toThreshold opts < Z.of_nat (length b)) \/ must = true) ->
    inv used st' /\ same_but_pictures st st' /\ match d with Some x => Made n (mkImg (base_name n) (kind n) x) | None => Fails n end).
  { intros d1 st1 E1 W. destruct (scale_texture_ok used st n d1 st1 I E1) as (I1 & S1 & X). split; [exact I1|]. split; [exact S1|].
    rewrite <- Mm in W. destruct d1 as [x|].
    - destruct X as (b & p & q & F & P & Fi & En). split; [reflexivity|]. split; [reflexivity|]. exists b. split; [exact F|]. right. split; [apply not_copied_enc, W, F|]. exists p, q. auto.
    - destruct X as [F|(b & F & X)]; [now left|]. right. exists b. split; [exact F|]. split; [apply not_copied_enc, W, F|exact X]. }
  destruct (Z.ltb_spec 0 (toThreshold opts)) as [T|T].
  - destruct (file (join n)) as [b|] eqn:F.
    + destruct (toReCompress opts) eqn:RC; cbn [orb] in E.
      * apply ENC; [exact E|]. auto.
      * destruct (Z.ltb_spec (toThreshold opts) (Z.of_nat (length b))) as [L|L]; cbn [orb] in E.
        { apply ENC; [exact E|]. intros b' [= <-]. auto. }
        { destruct must.
          - apply ENC; [exact E|]. auto.
          - injection E as <- <-. split; [exact I|]. split; [repeat split|]. cbn [fst]. split; [reflexivity|]. split; [reflexivity|].
            exists b. split; [exact F|]. left. split; [|reflexivity]. split; [now apply mime_must|]. split; [exact RC|]. now right. }
    + injection E as <- <-. split; [exact I|]. split; [repeat split|]. now left.
  - destruct (toReCompress opts) eqn:RC; cbn [orb] in E.
    + apply ENC; [exact E|]. auto.
    + destruct must.
      * apply ENC; [exact E|]. auto.
      * injection E as <- <-. split; [exact I|]. split; [repeat split|]. destruct (file (join n)) as [b|] eqn:F; [|now left].
        cbn [fst]. split; [reflexivity|]. split; [reflexivity|]. exists b. split; [exact F|]. left. split; [|reflexivity]. split; [now apply mime_must|]. split; [exact RC|]. now left.
Qed.

(** Names that are used later come after those that are used already. *)
Definition more (used used' : list string) (n : string) : Prop := used' = used \/ used' = used ++ [n].

Lemma try_ok used st n o st' : inv used st -> is_abs n = false -> try_texture file decode_tga decode resample png jpeg join opts st n = (o, st') ->
  exists used', inv used' st' /\ more used used' n /\ Shows used' n o.
Proof.
  intros I A E. unfold try_texture in E. destruct (String.eqb_spec n "") as [->|Ne].
  { injection E as <- <-. exists used. split; [exact I|]. split; [now left|]. now left. }
  unfold add_texture in E. destruct (tiId (cached (tsCache st) n)) as [i|] eqn:C.
  { injection E as <- <-. exists used. split; [exact I|]. split; [now left|]. split; [exact Ne|]. now apply (iId _ _ I). }
  destruct (image_data file decode_tga decode resample png jpeg join opts st n) as [d st1] eqn:D.
  destruct (image_data_ok used st n d st1 I A D) as (I1 & (S1 & S2 & S3) & X). destruct d as [x|].
  - injection E as <- <-. exists (used ++ [n]). split.
    + assert (Nn : ~ In n used). { intros H. apply In_nth_error in H as [k Hk]. apply (iId _ _ I) in Hk. congruence. }
      destruct I1 as [J1 J2 J3 J4 J5 J6]. split.
      * clear -J1 Nn. induction used as [|a r IH]; cbn; [repeat constructor; auto|].
        inversion J1; subst. constructor; [|apply IH; [assumption|intros H; apply Nn; now right]].
        rewrite in_app_iff. intros [H|[H|[]]]; [auto|]. apply Nn. now left.
      * cbn. rewrite app_length, Nat.add_comm, J2, J3. cbn. rewrite <- seq_S. reflexivity.
      * cbn. rewrite !app_length, J3. reflexivity.
      * intros m i. rewrite cached_set. destruct (String.eqb_spec n m) as [<-|Nm].
        { cbn. rewrite J2, seq_length. split.
          - intros [= <-]. rewrite nth_error_app2 by lia. now rewrite Nat.sub_diag.
          - intros H. destruct (Nat.lt_ge_cases i (length used)) as [L|L].
            + rewrite nth_error_app1 in H by exact L. exfalso. apply Nn. eapply nth_error_In, H.
            + assert (i < length (used ++ [n]))%nat by (apply nth_error_Some; congruence). rewrite app_length in H0. cbn in H0. f_equal. lia. }
        { cbn. rewrite J4. split.
          - intros H. rewrite nth_error_app1; [exact H|]. apply nth_error_Some. congruence.
          - intros H. destruct (Nat.lt_ge_cases i (length used)) as [L|L]; [now rewrite nth_error_app1 in H by exact L|].
            rewrite nth_error_app2 in H by exact L. destruct (i - length used)%nat as [|k]; cbn in H; [congruence|]. destruct k; discriminate. }
      * intros m r. rewrite cached_set. destruct (String.eqb_spec n m) as [<-|Nm]; cbn; apply J5.
      * intros i m H. cbn. destruct (Nat.lt_ge_cases i (length used)) as [L|L].
        { rewrite nth_error_app1 in H by exact L. destruct (J6 i m H) as (g & G1 & G2). exists g. rewrite nth_error_app1 by (rewrite J3; exact L). auto. }
        { rewrite nth_error_app2 in H by exact L. assert (i = length used /\ m = n) as [-> ->].
          { destruct (i - length used)%nat as [|k] eqn:K; cbn in H; [split; [lia|congruence]|]. destruct k; discriminate. }
          rewrite nth_error_app2, J3, Nat.sub_diag by (rewrite J3; lia). cbn. eexists. split; [reflexivity|]. exact X. }
    + split; [now right|]. split; [exact Ne|]. rewrite S2, (iTex _ _ I), seq_length, nth_error_app2 by lia. now rewrite Nat.sub_diag.
  - injection E as <- <-. exists used. split; [exact I1|]. split; [now left|]. now right.
Qed.

(** *** Materials *)
(** [used'] adds names out of [l]. *)
Definition grows (used used' : list string) (l : list string) : Prop := exists x, used' = used ++ x /\ incl x l.
Lemma grows_refl used l : grows used used l.
Proof. exists []. rewrite app_nil_r. split; [reflexivity|intros a []]. Qed.
Lemma grows_trans a b c l l' : grows a b l -> grows b c l' -> grows a c (l ++ l').
Proof. intros (x & -> & X) (y & -> & Y). exists (x ++ y). rewrite app_assoc. split; [reflexivity|]. apply incl_app; [now apply incl_appl|now apply incl_appr]. Qed.
Lemma grows_incl a b l l' : grows a b l -> incl l l' -> grows a b l'.
Proof. intros (x & -> & X) H. exists x. split; [reflexivity|]. eapply incl_tran; eassumption. Qed.
Lemma more_grows a b n l : more a b n -> In n l -> grows a b l.
Proof. intros [->| ->] H; [apply grows_refl|]. exists [n]. split; [reflexivity|]. now intros z [<-|[]]. Qed.
Lemma shows_grows a b l n o : grows a b l -> Shows a n o -> Shows b n o.
Proof.
  intros (x & -> & _). destruct o as [i|]; [|auto]. intros [H1 H2]. split; [exact H1|].
  rewrite nth_error_app1; [exact H2|]. apply nth_error_Some. congruence.
Qed.

Lemma mapping_named l k : mapping l k = named k l.
Proof. unfold named. induction l as [|[k' v] r IH]; cbn; [reflexivity|]. rewrite String.eqb_sym. now destruct (String.eqb k k'). Qed.
Lemma flag_on e k : bool_param e k = turned_on e k.
Proof.
  unfold bool_param, turned_on. assert (H : param_of (exParams e) k = value k (exParams e)).
  { induction (exParams e) as [|[k' v] r IH]; cbn; [reflexivity|]. rewrite String.eqb_sym. now destruct (String.eqb k k'). }
  now rewrite H.
Qed.

Definition field_key (f : extfield) : string := match f with FNum k _ | FColor k _ | FTex k _ => k end.
(** What an extension has at its keys for textures. *)
Definition key_tex (l : list (string * extval)) (k : string) : option nat := match value k l with Some (XTex i) => Some i | _ => None end.

Lemma value_app {A} k (a b : list (string * A)) : value k (a ++ b) = match value k a with Some v => Some v | None => value k b end.
Proof. induction a as [|[k' v] r IH]; cbn; [reflexivity|]. now destruct (String.eqb k k'). Qed.
Lemma value_none {A} k (l : list (string * A)) : ~ In k (map fst l) -> value k l = None.
Proof.
  induction l as [|[k' v] r IH]; cbn; [reflexivity|]. intros H. destruct (String.eqb_spec k k') as [->|]; [exfalso; auto|]. apply IH. auto.
Qed.

Definition tex_names (e : matex2 Q) (fs : list extfield) : list string :=
  flat_map (fun f => match f with FTex _ m => [mapping (exMapping e) m] | _ => [] end) fs.

Lemma field_ok e f used st l st' : inv used st -> Forall (fun n => is_abs n = false) (tex_names e [f]) ->
  ext_field file decode_tga decode resample png jpeg join opts e st f = Some (l, st') ->
  exists used', inv used' st' /\ grows used used' (tex_names e [f]) /\ (forall k, In k (map fst l) -> k = field_key f) /\
    (forall k m, f = FTex k m -> Shows used' (mapping (exMapping e) m) (key_tex l k)).
Proof.
  intros I A E. destruct f as [k p|k p|k m]; cbn [ext_field] in E.
  - injection E as <- <-. exists used. split; [exact I|]. split; [apply grows_refl|]. split; [|discriminate].
    intros k'. destruct (Qeq_bool (float_param e p) 0); cbn; intuition.
  - destruct (color_param e p) as [c|].
    + destruct (length c <? 3)%nat; [discriminate|]. injection E as <- <-. exists used. split; [exact I|]. split; [apply grows_refl|]. split; [|discriminate]. cbn. intuition.
    + injection E as <- <-. exists used. split; [exact I|]. split; [apply grows_refl|]. split; [|discriminate]. cbn. intuition.
  - destruct (try_texture file decode_tga decode resample png jpeg join opts st (mapping (exMapping e) m)) as [t st1] eqn:T. injection E as <- <-.
    cbn [tex_names flat_map app] in *. inversion A as [|? ? A1 _]; subst.
    destruct (try_ok used st _ t st1 I A1 T) as (used' & I' & M & Sh). exists used'. split; [exact I'|]. split; [eapply more_grows; [exact M|now left]|].
    split; [destruct t; cbn; intuition|]. intros k0 m0 [= <- <-]. unfold key_tex. destruct t as [i|]; cbn; [|exact Sh]. now rewrite String.eqb_refl.
Qed.

Lemma fields_ok e fs used st l st' : NoDup (map field_key fs) -> inv used st -> Forall (fun n => is_abs n = false) (tex_names e fs) ->
  ext_fields file decode_tga decode resample png jpeg join opts e st fs = Some (l, st') ->
  exists used', inv used' st' /\ grows used used' (tex_names e fs) /\ (forall k, In k (map fst l) -> In k (map field_key fs)) /\
    (forall k m, In (FTex k m) fs -> Shows used' (mapping (exMapping e) m) (key_tex l k)).
Proof.
  revert used st l st'. induction fs as [|f r IH]; cbn [ext_fields]; intros used st l st' ND I A E.
  { injection E as <- <-. exists used. split; [exact I|]. split; [apply grows_refl|]. split; intros; contradiction. }
  destruct (ext_field file decode_tga decode resample png jpeg join opts e st f) as [[l1 st1]|] eqn:E1; [|discriminate].
  destruct (ext_fields file decode_tga decode resample png jpeg join opts e st1 r) as [[l2 st2]|] eqn:E2; [|discriminate]. injection E as <- <-.
  assert (TN : tex_names e (f :: r) = tex_names e [f] ++ tex_names e r) by (unfold tex_names; cbn [flat_map]; now rewrite app_nil_r).
  rewrite TN in A |- *. apply Forall_app in A as [A1 A2]. cbn [map] in ND. inversion ND as [|? ? N1 N2]; subst.
  destruct (field_ok e f used st l1 st1 I A1 E1) as (u1 & I1 & G1 & K1 & S1).
  destruct (IH u1 st1 l2 st2 N2 I1 A2 E2) as (u2 & I2 & G2 & K2 & S2).
  exists u2. split; [exact I2|]. split; [exact (grows_trans _ _ _ _ _ G1 G2)|]. split.
  - intros k. rewrite map_app, in_app_iff. intros [H|H]; [left; symmetry; now apply K1|right; now apply K2].
  - intros k m [H|H].
    + subst f. assert (V : value k l2 = None). { apply value_none. intros X. apply N1. now apply K2. }
      unfold key_tex. rewrite value_app, V. assert (X := S1 k m eq_refl). apply (shows_grows _ _ _ _ _ G2) in X. unfold key_tex in X.
      destruct (value k l1); exact X.
    + assert (V : value k l1 = None). { apply value_none. intros X. apply K1 in X. apply N1. rewrite <- X. apply in_map_iff. exists (FTex k m). auto. }
      unfold key_tex. rewrite value_app, V. now apply S2.
Qed.

Definition ext_names (xs : list (string * string * list extfield)) : list string := map (fun x => snd (fst x)) xs.
Definition xs_names (e : matex2 Q) (xs : list (string * string * list extfield)) : list string :=
  flat_map (fun x => if bool_param e (fst (fst x)) then tex_names e (snd x) else []) xs.
Definition at_entry (l : list (string * list (string * extval))) (x key : string) : option nat :=
  match value x l with Some f => key_tex f key | None => None end.

Lemma exts_ok e xs used st l st' : NoDup (ext_names xs) -> Forall (fun x => NoDup (map field_key (snd x))) xs -> inv used st ->
  Forall (fun n => is_abs n = false) (xs_names e xs) ->
  mat_exts file decode_tga decode resample png jpeg join opts e st xs = Some (l, st') ->
  exists used', inv used' st' /\ grows used used' (xs_names e xs) /\ (forall k, In k (map fst l) -> In k (ext_names xs)) /\
    (forall flag x fs k m, In (flag, x, fs) xs -> In (FTex k m) fs ->
       if bool_param e flag then Shows used' (mapping (exMapping e) m) (at_entry l x k) else at_entry l x k = None).
Proof.
  revert used st l st'. induction xs as [|[[flag name] fs] r IH]; intros used st l st' ND NF I A E; cbn [mat_exts] in E.
  { injection E as <- <-. exists used. split; [exact I|]. split; [apply grows_refl|]. split; intros; contradiction. }
  cbn [ext_names map fst snd] in ND. inversion ND as [|? ? N1 N2]; subst. inversion NF as [|? ? F1 F2]; subst. cbn [snd] in F1.
  unfold xs_names in A |- *; cbn [flat_map fst snd] in A |- *. destruct (bool_param e flag) eqn:B.
  - destruct (ext_fields file decode_tga decode resample png jpeg join opts e st fs) as [[l1 st1]|] eqn:E1; [|discriminate].
    destruct (mat_exts file decode_tga decode resample png jpeg join opts e st1 r) as [[l2 st2]|] eqn:E2; [|discriminate]. injection E as <- <-.
    apply Forall_app in A as [A1 A2].
    destruct (fields_ok e fs used st l1 st1 F1 I A1 E1) as (u1 & I1 & G1 & K1 & S1).
    destruct (IH u1 st1 l2 st2 N2 F2 I1 A2 E2) as (u2 & I2 & G2 & K2 & S2).
    exists u2. split; [exact I2|]. split; [exact (grows_trans _ _ _ _ _ G1 G2)|]. split.
    + intros k [H|H]; [now left|right; now apply K2].
    + intros flag' x fs' k m [H|H] Hf.
      * injection H as <- <- <-. rewrite B. unfold at_entry. cbn [value]. rewrite String.eqb_refl. eapply shows_grows; [exact G2|]. now apply S1.
      * assert (X := S2 flag' x fs' k m H Hf). unfold at_entry in *. cbn [value].
        destruct (String.eqb_spec x name) as [->|]; [|exact X]. exfalso. apply N1. apply in_map_iff. exists (flag', name, fs'). auto.
  - cbn [app] in A. destruct (IH used st l st' N2 F2 I A E) as (u2 & I2 & G2 & K2 & S2).
    exists u2. split; [exact I2|]. split; [exact G2|]. split; [intros k H; right; now apply K2|].
    intros flag' x fs' k m [H|H] Hf; [|now apply (S2 flag' x fs' k m)].
    injection H as <- <- <-. rewrite B. unfold at_entry. rewrite value_none; [reflexivity|]. intros X. apply N1, K2, X.
Qed.

Lemma table_names e : xs_names e gltf_exts =
  flat_map (fun x => match x with (flag, _, _, mp) => if turned_on e flag then [named mp (exMapping e)] else [] end) extension_textures.
Proof.
  unfold xs_names, gltf_exts, extension_textures. cbn [flat_map fst snd tex_names app]. rewrite !mapping_named, !flag_on.
  destruct (turned_on e "Extensions.SpecularExt"), (turned_on e "Extensions.Clearcoat"), (turned_on e "Extensions.Sheen"), (turned_on e "Extensions.IorExt"),
    (turned_on e "Extensions.Volume"), (turned_on e "Extensions.Transmission"); reflexivity.
Qed.
Ltac nodup := repeat (apply NoDup_cons; [cbn; intuition discriminate|]); apply NoDup_nil.
Lemma table_keys : NoDup (ext_names gltf_exts) /\ Forall (fun x => NoDup (map field_key (snd x))) gltf_exts.
Proof. split; [cbn; nodup|]. unfold gltf_exts. repeat constructor; cbn; intuition discriminate. Qed.
Lemma table_in flag x key mp : In (flag, x, key, mp) extension_textures -> exists fs, In (flag, x, fs) gltf_exts /\ In (FTex key mp) fs.
Proof.
  unfold extension_textures. cbn [In]. intros H.
  repeat match type of H with _ \/ _ => destruct H as [H|H] | False => destruct H end; injection H as <- <- <- <-;
    (eexists; split; [unfold gltf_exts; cbn [In]; first [left; reflexivity|right; left; reflexivity|right; right; left; reflexivity|right; right; right; right; left; reflexivity|right; right; right; right; right; left; reflexivity]|
     cbn [In]; tauto]).
Qed.

Notation Textured := (textured file decode_tga decode resample png jpeg join opts).

Lemma has_alpha_ok used st n rect a st' : inv used st -> has_alpha file decode_tga decode join st n rect = (a, st') -> inv used st'.
Proof.
  intros I E. unfold has_alpha in E. destruct (String.eqb n "" || has_suffix ".jpg" n || has_suffix ".bmp" n); [injection E as <- <-; exact I|].
  destruct (get_image file decode_tga decode join st n) as [r st1] eqn:G. injection E as <- <-. eapply get_image_ok; eassumption.
Qed.

Lemma textured_grows a b l m t : grows a b l -> Textured a m t -> Textured b m t.
Proof.
  intros G (H1 & H2 & H3). split; [eapply shows_grows; eassumption|]. split; [eapply shows_grows; eassumption|].
  intros flag x key mp H. specialize (H3 flag x key mp H). destruct (mtEx2 m) as [e|]; [|exact H3]. destruct (String.eqb (exName e) "glTF" && turned_on e flag); [|exact H3].
  eapply shows_grows; eassumption.
Qed.

Lemma tmat_ok o99 rough used st m rect t st' : inv used st -> Forall (fun n => is_abs n = false) (names_of m) ->
  convert_tmat file decode_tga decode resample png jpeg join opts o99 rough st m rect = Some (t, st') ->
  exists used', inv used' st' /\ grows used used' (names_of m) /\ Textured used' m t.
Proof.
  intros I A E. unfold convert_tmat in E.
  assert (REST : forall al xs used1 st1 r, inv used1 st1 -> grows used used1 (tl (tl (names_of m))) ->
    (let (b, st2) := try_texture file decode_tga decode resample png jpeg join opts st1 (mtTexture m) in
     let (n, st3) := try_texture file decode_tga decode resample png jpeg join opts st2 (mtBump m) in
     (mkTM (convert_material (toForceUnlit opts) o99 rough (fun _ => al) m) b n xs, st3)) = r ->
    (forall flag x key mp, In (flag, x, key, mp) extension_textures ->
       match mtEx2 m with
       | Some e => if String.eqb (exName e) "glTF" && turned_on e flag then Shows used1 (named mp (exMapping e)) (at_entry xs x key) else at_entry xs x key = None
       | None => at_entry xs x key = None
       end) ->
    exists used', inv used' (snd r) /\ grows used used' (names_of m) /\ Textured used' m (fst r)).
  { intros al xs used1 st1 r I1 G1 R X. inversion A as [|? ? A1 A2]; subst x l. inversion A2 as [|? ? A3 A4]; subst x l.
    destruct (try_texture file decode_tga decode resample png jpeg join opts st1 (mtTexture m)) as [b st2] eqn:T1.
    destruct (try_texture file decode_tga decode resample png jpeg join opts st2 (mtBump m)) as [n st3] eqn:T2. subst r. cbn [fst snd].
    destruct (try_ok used1 st1 _ b st2 I1 A1 T1) as (u2 & I2 & M2 & S2).
    destruct (try_ok u2 st2 _ n st3 I2 A3 T2) as (u3 & I3 & M3 & S3).
    assert (G2 : grows used1 u2 [mtTexture m]) by (eapply more_grows; [exact M2|now left]).
    assert (G3 : grows u2 u3 [mtBump m]) by (eapply more_grows; [exact M3|now left]).
    exists u3. split; [exact I3|]. split.
    - eapply grows_incl; [exact (grows_trans _ _ _ _ _ G1 (grows_trans _ _ _ _ _ G2 G3))|]. unfold names_of. cbn [tl]. intros z. rewrite !in_app_iff. cbn [In]. tauto.
    - split; [eapply shows_grows; [exact G3|exact S2]|]. split; [exact S3|].
      intros flag x key mp H. specialize (X flag x key mp H). unfold entry_texture, at_entry, key_tex in *. cbn [tmExts].
      destruct (mtEx2 m) as [e|]; [|exact X]. destruct (String.eqb (exName e) "glTF" && turned_on e flag); [|exact X].
      eapply shows_grows; [exact (grows_trans _ _ _ _ _ G2 G3)|exact X]. }
  destruct (match mtEx2 m with Some e => if String.eqb (exName e) "glTF" then Some e else None | None => None end) as [e|] eqn:Ee.
  - destruct (mtEx2 m) as [e'|] eqn:Em; [|discriminate]. destruct (String.eqb (exName e') "glTF") eqn:Eg; [|discriminate]. injection Ee as ->.
    destruct (mat_exts file decode_tga decode resample png jpeg join opts e st gltf_exts) as [[xs st1]|] eqn:Ex; [|discriminate]. cbn [option_map fst snd] in E.
    assert (NM : tl (tl (names_of m)) = xs_names e gltf_exts) by (unfold names_of; cbn [tl]; rewrite Em, Eg; symmetry; apply table_names).
    assert (A' : Forall (fun n => is_abs n = false) (xs_names e gltf_exts)) by (rewrite <- NM; apply Forall_inv_tail, Forall_inv_tail in A; exact A).
    destruct table_keys as [TK1 TK2]. destruct (exts_ok e gltf_exts used st xs st1 TK1 TK2 I A' Ex) as (u1 & I1 & G1 & K1 & S1).
    match type of E with Some ?r = _ => destruct (REST false xs u1 st1 r I1) as (u' & I' & G' & T') end.
    + rewrite NM. exact G1.
    + reflexivity.
    + intros flag x key mp H. destruct (table_in flag x key mp H) as (fs & H1 & H2). specialize (S1 flag x fs key mp H1 H2). rewrite flag_on, mapping_named in S1. rewrite ?Em, ?Eg. exact S1.
    + injection E as E. rewrite E in I', T'. exists u'. auto.
  - assert (X : forall flag x key mp, In (flag, x, key, mp) extension_textures ->
       match mtEx2 m with
       | Some e => if String.eqb (exName e) "glTF" && turned_on e flag then Shows used (named mp (exMapping e)) (at_entry [] x key) else at_entry [] x key = None
       | None => at_entry [] x key = None
       end).
    { intros flag x key mp _. destruct (mtEx2 m) as [e'|]; [|reflexivity]. destruct (String.eqb (exName e') "glTF"); [discriminate|reflexivity]. }
    destruct (nltb (qw (mtColor m)) o99); [|destruct (toDetect opts)].
    + match type of E with Some ?r = _ => destruct (REST true [] used st r I (grows_refl _ _) eq_refl X) as (u' & I' & G' & T') end.
      injection E as E. rewrite E in I', T'. exists u'. auto.
    + destruct (has_alpha file decode_tga decode join st (mtTexture m) rect) as [a st1] eqn:Ha. assert (I1 := has_alpha_ok used st _ _ _ _ I Ha).
      match type of E with Some ?r = _ => destruct (REST a [] used st1 r I1 (grows_refl _ _) eq_refl X) as (u' & I' & G' & T') end.
      injection E as E. rewrite E in I', T'. exists u'. auto.
    + match type of E with Some ?r = _ => destruct (REST false [] used st r I (grows_refl _ _) eq_refl X) as (u' & I' & G' & T') end.
      injection E as E. rewrite E in I', T'. exists u'. auto.
Qed.

Lemma tmats_ok o99 rough ms : forall used st ts st', inv used st -> Forall (fun n => is_abs n = false) (flat_map (fun p => names_of (fst p)) ms) ->
  convert_tmats file decode_tga decode resample png jpeg join opts o99 rough st ms = Some (ts, st') ->
  exists used', inv used' st' /\ grows used used' (flat_map (fun p => names_of (fst p)) ms) /\ Forall2 (fun p t => Textured used' (fst p) t) ms ts.
Proof.
  induction ms as [|[m r] ms IH]; intros used st ts st' I A E; cbn [convert_tmats] in E.
  { injection E as <- <-. exists used. split; [exact I|]. split; [apply grows_refl|constructor]. }
  destruct (convert_tmat file decode_tga decode resample png jpeg join opts o99 rough st m r) as [[t st1]|] eqn:E1; [|discriminate].
  destruct (convert_tmats file decode_tga decode resample png jpeg join opts o99 rough st1 ms) as [[l st2]|] eqn:E2; [|discriminate]. injection E as <- <-.
  cbn [flat_map fst] in A |- *. apply Forall_app in A as [A1 A2].
  destruct (tmat_ok o99 rough used st m r t st1 I A1 E1) as (u1 & I1 & G1 & T1).
  destruct (IH u1 st1 l st2 I1 A2 E2) as (u2 & I2 & G2 & T2).
  exists u2. split; [exact I2|]. split; [exact (grows_trans _ _ _ _ _ G1 G2)|]. constructor; [|exact T2]. eapply textured_grows; [exact G2|exact T1].
Qed.

Lemma inv_list used st : inv used st -> texture_list file decode_tga decode resample png jpeg join opts used st.
Proof.
  intros [J1 J2 J3 J4 J5 J6]. split; [exact J1|]. split; [now rewrite J2, seq_length|]. split; [exact J3|].
  intros i n H. assert (L : (i < length used)%nat) by (apply nth_error_Some; congruence). destruct (J6 i n H) as (g & G1 & G2).
  exists i, g. rewrite J2. split; [now rewrite (nth_error_nth' _ 0%nat), seq_nth by (rewrite ?seq_length; lia)|]. split; [exact G1|]. split; [exact G2|].
  intros i' H'. assert (L' : (i' < length (seq 0 (length used)))%nat) by (apply nth_error_Some; congruence). rewrite seq_length in L'.
  rewrite (nth_error_nth' _ 0%nat), seq_nth in H' by (rewrite ?seq_length; lia). injection H' as H'. exact H'.
Qed.

Theorem textures_ok o99 rough ms ts st : Forall (fun p => Forall (fun n => is_abs n = false) (names_of (fst p))) ms ->
  convert_tmats file decode_tga decode resample png jpeg join opts o99 rough ts0 ms = Some (ts, st) ->
  exists used, texture_list file decode_tga decode resample png jpeg join opts used st /\ (forall n, In n used -> exists m r, In (m, r) ms /\ In n (names_of m)) /\
    Forall2 (fun p t => Textured used (fst p) t) ms ts.
Proof.
  intros A E. destruct (tmats_ok o99 rough ms [] ts0 ts st inv0) as (used & I & (x & -> & G) & T); [|exact E|].
  - apply Forall_forall. intros n H. apply in_flat_map in H as (p & H1 & H2). rewrite Forall_forall in A. specialize (A p H1). rewrite Forall_forall in A. now apply A.
  - cbn [app] in *. exists x. split; [now apply inv_list|]. split; [|exact T]. intros n H. apply G, in_flat_map in H as ([m r] & H1 & H2). exists m, r. auto.
Qed.
End World.

(** *** Consequences *)
Lemma fit_height_mono opts p h : (0 < toScale opts)%Q -> 0 <= pW p -> 0 <= pH p -> pH p <= pW p -> fit_height opts p h -> h <= fit_width opts p.
Proof.
  intros Hs HW HH L F. assert (G := height_fits opts p Hs HW HH). unfold fit_height in F, G. rewrite <- G in F. subst h.
  rewrite <- (width_fits opts p Hs HW). assert (P := final_pos opts p Hs HW). rewrite !trunc_floor by (apply mul_pos; assumption).
  apply Qfloor_resp_le. rewrite Zle_Qle in L. apply Qmult_le_compat_r; lra.
Qed.
Theorem limit_ok resample opts p q : (0 < toScale opts)%Q -> 0 < toLimit opts -> 0 <= pH p <= pW p -> (forall w h x, pW (resample w h x) = w /\ pH (resample w h x) = h) ->
  fits resample opts p q -> pW q <= toLimit opts /\ pH q <= toLimit opts /\ pW q = Z.min (toLimit opts) (Qfloor (inject_Z (pW p) * toScale opts)).
Proof.
  intros Hs HL [H0 H1] HR F.
  assert (W : fit_width opts p = Z.min (toLimit opts) (Qfloor (inject_Z (pW p) * toScale opts))).
  { unfold fit_width. replace (0 <? toLimit opts) with true by (symmetry; now apply Z.ltb_lt). apply Z.min_comm. }
  destruct F as [(-> & E & F)|(h & F & ->)].
  - assert (L : fit_width opts p <= toLimit opts) by (rewrite W; apply Z.le_min_l). split; [lia|]. split; [lia|]. now rewrite <- W.
  - destruct (HR (fit_width opts p) h p) as [-> ->]. apply fit_height_mono in F; [|assumption|lia|assumption|assumption]. split; [rewrite W; lia|]. split; [rewrite W in F; lia|exact W].
Qed.

Section Doc.
Variables (file : string -> option (list Z)) (decode_tga decode : list Z -> option pic) (resample : Z -> Z -> pic -> pic)
  (png jpeg : pic -> option (list Z)) (join : string -> string) (opts : topts).
Lemma shows_present used n o bytes p : shows file decode_tga decode resample png jpeg join opts used n o -> (forall q, png q <> None /\ jpeg q <> None) ->
  n <> ""%string -> file (join n) = Some bytes -> picture decode_tga decode n bytes = Some p -> exists i, o = Some i /\ nth_error used i = Some n.
Proof.
  intros S E N F P. destruct o as [i|]; [exists i; split; [reflexivity|apply S]|]. exfalso. destruct S as [S|[S|(b & S1 & S2 & S3)]]; [auto|congruence|].
  rewrite F in S1. injection S1 as <-. destruct S3 as [S3|(p' & q & S3 & S4 & S5)]; [congruence|]. unfold encoded in S5. destruct (E q) as [E1 E2]. destruct (jpeg_name n); auto.
Qed.

Lemma tmats_from o99 rough ms : forall st ts st', convert_tmats file decode_tga decode resample png jpeg join opts o99 rough st ms = Some (ts, st') ->
  Forall2 (fun p t => gtName (tmMat t) = mtName (fst p)) ms ts.
Proof.
  induction ms as [|[m r] ms IH]; intros st ts st' E; cbn [convert_tmats] in E; [injection E as <- <-; constructor|].
  destruct (convert_tmat file decode_tga decode resample png jpeg join opts o99 rough st m r) as [[t st1]|] eqn:E1; [|discriminate].
  destruct (convert_tmats file decode_tga decode resample png jpeg join opts o99 rough st1 ms) as [[l st2]|] eqn:E2; [|discriminate]. injection E as <- <-.
  constructor; [|eapply IH, E2]. cbn [fst]. clear -E1.
  assert (NM : forall a, gtName (convert_material (toForceUnlit opts) o99 rough a m) = mtName m).
  { intros a. unfold convert_material. destruct (mtEx2 m) as [e|]; [|reflexivity]. now destruct (String.eqb (exName e) "glTF"). }
  unfold convert_tmat in E1.
  destruct (match mtEx2 m with Some e => if String.eqb (exName e) "glTF" then Some e else None | None => None end) as [e|].
  - destruct (mat_exts file decode_tga decode resample png jpeg join opts e st gltf_exts) as [[xs s1]|]; [|discriminate]. cbn [option_map fst snd] in E1.
    destruct (try_texture file decode_tga decode resample png jpeg join opts s1 (mtTexture m)) as [b s2].
    destruct (try_texture file decode_tga decode resample png jpeg join opts s2 (mtBump m)) as [n s3]. injection E1 as <- <-. apply NM.
  - destruct (nltb (qw (mtColor m)) o99); [|destruct (toDetect opts); [destruct (has_alpha file decode_tga decode join st (mtTexture m) r) as [a s0]|]];
      match type of E1 with context [try_texture ?f ?a ?b ?c ?d ?e ?g ?h ?s (mtTexture m)] => destruct (try_texture f a b c d e g h s (mtTexture m)) as [bb s2] end;
      destruct (try_texture file decode_tga decode resample png jpeg join opts s2 (mtBump m)) as [n s3]; injection E1 as <- <-; apply NM.
Qed.

Theorem document_textures scale centi eps ignore o99 rough d bones sets ts st :
  (0 < toScale opts)%Q -> (forall n b p, picture decode_tga decode n b = Some p -> 0 <= pW p /\ 0 <= pH p) ->
  Forall (fun m => Forall (fun n => is_abs n = false) (names_of m)) (dMaterials d) ->
  export_materials file decode_tga decode resample png jpeg join opts scale centi eps ignore o99 rough d bones sets = Some (ts, st) ->
  exists used, texture_list file decode_tga decode resample png jpeg join opts used st /\ (forall n, In n used -> exists m, In m (dMaterials d) /\ In n (names_of m)) /\
    Forall (fun t => exists m, In m (dMaterials d) /\ gtName (tmMat t) = mtName m /\ textured file decode_tga decode resample png jpeg join opts used m t) ts.
Proof.
  intros Hs Hz A E. unfold export_materials in E.
  destruct (all_bounds scale centi eps bones _ _ []) as [bs|]; [|discriminate].
  match type of E with convert_tmats _ _ _ _ _ _ _ _ _ _ _ ?l = _ => set (ms := l) in * end.
  assert (INC : forall p, In p ms -> In (fst p) (dMaterials d)).
  { intros p H. unfold ms in H. apply in_map_iff in H as ([k m] & <- & H). apply filter_In in H as [H _]. unfold numbered in H. apply in_combine_r in H. exact H. }
  destruct (textures_ok file decode_tga decode resample png jpeg join opts Hs Hz o99 rough ms ts st) as (used & L & U & T).
  - apply Forall_forall. intros p H. rewrite Forall_forall in A. apply A, INC, H.
  - exact E.
  - exists used. split; [exact L|]. split; [intros n H; destruct (U n H) as (m & r & H1 & H2); exists m; split; [exact (INC (m, r) H1)|exact H2]|].
    assert (F := tmats_from o99 rough ms ts0 ts st E). clear -INC T F. revert INC F.
    induction T as [|p t ms ts T1 T2 IH]; intros INC F; [constructor|]. inversion F; subst. constructor.
    + exists (fst p). split; [apply INC; now left|]. auto.
    + apply IH; [intros q H; apply INC; now right|assumption].
Qed.
End Doc.
