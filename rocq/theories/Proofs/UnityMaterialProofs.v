(** Proofs about the materials of Unity scenes. *)
From Coq Require Import String Ascii List ZArith Reals Bool Lia Lra.
From Verif.Model Require Import Num NumR Vec Matrix Mqo MqoDoc UnityYaml UnityPackage UnityProject UnityTexture Unity2Mqo UnityMaterial.
From Verif Require Import Spec.YamlSpec Spec.UnityTextureSpec Spec.ProjectSpec Spec.UnityMaterialSpec.
From Verif Require Props.C51 Props.C114.
Import ListNotations.
Local Open Scope string_scope.
Local Open Scope list_scope.

Lemma key_at_app {A} (c : list (string * A)) k v d : (forall x, ~ In (k, x) c) -> key_at (c ++ (k, v) :: d) k = Some v.
Proof.
  induction c as [|[a x] c IH]; intros H; cbn [key_at app]; [rewrite String.eqb_refl; reflexivity|].
  destruct (String.eqb_spec a k) as [->|_]; [exfalso; apply (H x); left; reflexivity|]. apply IH. intros y Hy. apply (H y). right. exact Hy.
Qed.
Lemma key_at_none {A} (c : list (string * A)) k : (forall x, ~ In (k, x) c) -> key_at c k = None.
Proof.
  induction c as [|[a x] c IH]; intros H; cbn [key_at]; [reflexivity|].
  destruct (String.eqb_spec a k) as [->|_]; [exfalso; apply (H x); left; reflexivity|]. apply IH. intros y Hy. apply (H y). right. exact Hy.
Qed.
Lemma gives_property {A} (l : list (list (string * option A))) k v : gives l k v -> get_property l k = v.
Proof.
  intros (a & b & c & d & -> & Ha & Hc). induction a as [|y a IH]; cbn [get_property app].
  - rewrite key_at_app by exact Hc. reflexivity.
  - cbn [concat] in Ha. rewrite key_at_none; [apply IH|]; intros x Hx; apply (Ha x); apply in_or_app; auto.
Qed.
Lemma lacks_property {A} (l : list (list (string * option A))) k : lacks l k -> get_property l k = None.
Proof.
  induction l as [|y l IH]; intros H; cbn [get_property]; [reflexivity|].
  rewrite key_at_none; [apply IH|]; intros x Hx; apply (H x); cbn [concat]; apply in_or_app; auto.
Qed.

Lemma bytes_eqb_true a b : bytes_eqb a b = true <-> a = b.
Proof. unfold bytes_eqb. destruct (list_eq_dec ascii_dec a b); split; congruence. Qed.
Lemma meaning_not_empty hs d t : Forall head_ok hs -> meaning hs d t -> t <> [].
Proof.
  intros F [(a & b & v & u & -> & _ & ->)|(_ & ->)]; [|discriminate].
  apply Forall_app in F as [_ F]. inversion F as [|? ? H _]; subst. destruct H as (_ & _ & [Hv _] & _). destruct v; [congruence|discriminate].
Qed.

Theorem load_first (asset : string -> option string) read decode hs ds d m guid p :
  Forall head_ok hs -> Forall sdoc_ok ds -> long_end ds -> first_is hs ds d ->
  decode (sdoc_body d) = Some m -> decode (sdoc_body d ++ list_ascii_of_string "---") = Some m ->
  asset guid = Some p -> read p = Some (file_text hs ds) -> load_material asset read decode guid = LMaterial m.
Proof.
  intros H F E (a & b & Ed & Hd & Ha) D1 D2 A R. unfold load_material. rewrite A, R.
  destruct (C51.C51_split_partial hs ds H F) as (out & -> & L & P). { rewrite Ed. destruct a; discriminate. } { exact E. }
  clear A R E F. subst ds. revert P. generalize (length (a ++ d :: b)). intros n. revert out L Ha.
  assert (G : forall k, forall a out, length out = length (a ++ d :: b) -> (forall x t, In x a -> meaning hs x t -> t <> list_ascii_of_string "tag:unity3d.com,2011:21") ->
    (forall i x, nth_error (a ++ d :: b) i = Some x -> exists y, nth_error out i = Some y /\ meaning hs x (yTag y) /\ yID y = sdID x /\
       yBody y = sdoc_body x ++ (if Nat.eqb (S (i + k)) n then [] else list_ascii_of_string "---")) -> first_material decode out = LMaterial m).
  { intros k a'. revert k. induction a' as [|x a' IH]; intros k out L Ha P.
    - destruct (P 0%nat d eq_refl) as (y & Hy & M & _ & B). destruct out as [|y0 out]; [discriminate|]. cbn in Hy. injection Hy as ->.
      cbn [first_material]. apply Hd in M. fold material_tag in M. rewrite M, (proj2 (bytes_eqb_true material_tag material_tag) eq_refl), andb_false_r, B.
      destruct (Nat.eqb _ _); [rewrite app_nil_r, D1|rewrite D2]; reflexivity.
    - destruct (P 0%nat x eq_refl) as (y & Hy & M & _ & B). destruct out as [|y0 out]; [discriminate|]. cbn in Hy. injection Hy as ->.
      cbn [first_material].
      replace (negb (bytes_eqb (yTag y) []) && negb (bytes_eqb (yTag y) material_tag)) with true.
      + apply (IH (S k)); [cbn in L; congruence|intros z t Hz; apply Ha; right; exact Hz|].
        intros i z Hz. destruct (P (S i) z Hz) as (w & Hw & Q). exists w. split; [exact Hw|]. replace (i + S k)%nat with (S i + k)%nat by lia. exact Q.
      + symmetry. apply andb_true_intro. split; apply negb_true_iff, not_true_is_false; intros C; apply (proj1 (bytes_eqb_true _ _)) in C.
        * exact (meaning_not_empty _ _ _ H M C).
        * exact (Ha x _ (or_introl eq_refl) M C). }
  intros out L Ha P. apply (G 0%nat a out L Ha). intros i x Hx. rewrite Nat.add_0_r. apply P. exact Hx.
Qed.

Section Use.
Variables (asset : string -> option string) (save : bool) (open : string -> option (string * bool)) (src : path).

Lemma use_none fs m name : lacks (fmTex m) name -> use_texture asset save open src fs m name = (fs, None).
Proof. intros H. unfold use_texture. rewrite lacks_property by exact H. reflexivity. Qed.
Lemma use_shown fs m name t x : shows_asset asset m name t x ->
  use_texture asset save open src fs m name =
  (if save then let '(fs1, (n, _)) := save_texture open src fs (fst x) (slashed (snd x)) in (fs1, Some (n, t)) else (fs, Some (""%string, t))).
Proof.
  intros (G & r & Et & Hr & Er & Ea). unfold use_texture. rewrite (gives_property _ _ _ G), Et. cbn [ref_valid].
  replace (negb (rFile r =? 0)%Z) with true. 2: { symmetry. apply negb_true_iff, Z.eqb_neq. exact Hr. }
  rewrite Er, Ea. reflexivity.
Qed.

Theorem colors_used fs m guid fs1 u : use_material asset save open src fs m = (fs1, u) ->
  let r := make_material (fun _ => Some u) guid in
  mtName (fst r) = fmName m /\
  (forall c, gives (fmColors m) "_Color" (Some c) -> mtColor (fst r) = c) /\
  (lacks (fmColors m) "_Color" -> mtColor (fst r) = mkV4 1 1 1 1)%R /\
  (forall k, gives (fmColors m) "_EmissionColor" (Some k) ->
     mtEmissionColor (fst r) = None /\ (qx k = 0 /\ qy k = 0 /\ qz k = 0)%R \/
     mtEmissionColor (fst r) = Some (mkV3 (qx k) (qy k) (qz k)) /\ ~ (qx k = 0 /\ qy k = 0 /\ qz k = 0)%R) /\
  (lacks (fmColors m) "_EmissionColor" -> mtEmissionColor (fst r) = None) /\
  (lacks (fmTex m) "_MainTex" -> mtTexture (fst r) = "" /\ snd r = None) /\
  (forall t x, shows_asset asset m "_MainTex" t x -> snd r = Some (teScale t)) /\
  (lacks (fmTex m) "_BumpMap" -> mtBump (fst r) = "").
Proof.
  unfold use_material. destruct (use_texture _ _ _ _ fs m "_MainTex") as [fa main] eqn:Em. destruct (use_texture _ _ _ _ fa m "_BumpMap") as [fb bump] eqn:Eb.
  intros [= <- <-]. unfold make_material. cbn [umName umColor umEmission umMain umBump fst snd mtName mtColor mtEmissionColor mtTexture mtBump].
  split; [reflexivity|]. split; [intros c G; rewrite (gives_property _ _ _ G); reflexivity|]. split; [intros L; rewrite (lacks_property _ _ L); reflexivity|]. split; [|split; [|split; [|split]]].
  - intros k G. rewrite (gives_property _ _ _ G). cbn [option_map vx vy vz].
    pose proof (Rle_0_sqr (qx k)) as Sx. pose proof (Rle_0_sqr (qy k)) as Sy. pose proof (Rle_0_sqr (qz k)) as Sz. unfold Rsqr in Sx, Sy, Sz.
    destruct (Rltb 0 (sqrt (qx k * qx k + qy k * qy k + qz k * qz k))) eqn:Es.
    + right. split; [reflexivity|]. intros (X & Y & Z). rewrite X, Y, Z in Es. replace (0 * 0 + 0 * 0 + 0 * 0)%R with 0%R in Es by ring. rewrite sqrt_0 in Es.
      unfold Rltb in Es. destruct (Rlt_dec 0 0) as [C|C]; [lra|discriminate].
    + left. split; [reflexivity|]. unfold Rltb in Es. destruct (Rlt_dec _ _) as [C|C]; [discriminate|].
      assert (Q : (qx k * qx k + qy k * qy k + qz k * qz k <= 0)%R). { apply Rnot_lt_le. intros P. apply C. apply sqrt_lt_R0. exact P. }
      assert (X : (qx k * qx k = 0)%R) by lra. assert (Y : (qy k * qy k = 0)%R) by lra. assert (Z : (qz k * qz k = 0)%R) by lra.
      split; [|split]; apply Rsqr_0_uniq; assumption.
  - intros L. rewrite (lacks_property _ _ L). reflexivity.
  - intros L. rewrite use_none in Em by exact L. injection Em as _ <-. split; reflexivity.
  - intros t x W. rewrite (use_shown _ _ _ _ _ W) in Em. destruct save.
    + destruct (save_texture _ _ _ _ _) as [f1 [n0 b0]]. injection Em as _ <-. reflexivity.
    + injection Em as _ <-. reflexivity.
  - intros L. rewrite use_none in Eb by exact L. injection Eb as _ <-. reflexivity.
Qed.

(** Both textures are saved by one run of [save_all]. *)
Lemma used_both fs m fs1 u t1 x1 t2 x2 : save = true -> use_material asset save open src fs m = (fs1, u) ->
  shows_asset asset m "_MainTex" t1 x1 -> shows_asset asset m "_BumpMap" t2 x2 ->
  exists n1 b1 n2 b2, save_all open src fs (map given [x1; x2]) = (fs1, [(n1, b1); (n2, b2)]) /\
    umMain u = Some (n1, teScale t1, teOffset t1) /\ umBump u = n2.
Proof.
  intros Sv U W1 W2. unfold use_material in U. pose proof (use_shown fs m _ _ _ W1) as Q1. rewrite Sv in U, Q1. rewrite Q1 in U. cbn [map given save_all].
  destruct (save_texture open src fs (fst x1) (slashed (snd x1))) as [f1 [n1 b1]]. pose proof (use_shown f1 m _ _ _ W2) as Q2. rewrite Sv in Q2. rewrite Q2 in U.
  destruct (save_texture open src f1 (fst x2) (slashed (snd x2))) as [f2 [n2 b2]]. injection U as <- <-. cbn [umMain umBump option_map fst snd].
  exists n1, b1, n2, b2. auto.
Qed.
Lemma used_main fs m fs1 u t1 x1 : save = true -> use_material asset save open src fs m = (fs1, u) ->
  shows_asset asset m "_MainTex" t1 x1 -> lacks (fmTex m) "_BumpMap" ->
  exists n1 b1, save_all open src fs (map given [x1]) = (fs1, [(n1, b1)]) /\ umMain u = Some (n1, teScale t1, teOffset t1).
Proof.
  intros Sv U W1 W2. unfold use_material in U. pose proof (use_shown fs m _ _ _ W1) as Q1. rewrite Sv in U, Q1. rewrite Q1 in U. cbn [map given save_all].
  destruct (save_texture open src fs (fst x1) (slashed (snd x1))) as [f1 [n1 b1]]. pose proof (use_none f1 m _ W2) as Q2. rewrite Sv in Q2. rewrite Q2 in U. injection U as <- <-. cbn [umMain option_map fst snd].
  exists n1, b1. auto.
Qed.
End Use.

Theorem textures_used asset open src fs m guid fs1 u t1 x1 d1 w1 : use_material asset true open src fs m = (fs1, u) ->
  stat fs src = Some FDir -> (forall d, stat fs (src ++ ["saved_textures"]) <> Some (FFile d)) ->
  shows_asset asset m "_MainTex" t1 x1 -> asset_ok x1 -> stat fs (expected src x1) = None -> open (slashed (snd x1)) = Some (d1, w1) ->
  let r := make_material (fun _ => Some u) guid in
  (lacks (fmTex m) "_BumpMap" -> leads fs1 src (mtTexture (fst r)) d1) /\
  (forall t2 x2 d2 w2, shows_asset asset m "_BumpMap" t2 x2 -> asset_ok x2 -> stat fs (expected src x2) = None -> open (slashed (snd x2)) = Some (d2, w2) ->
     (fst x1 = fst x2 -> snd x1 = snd x2) -> leads fs1 src (mtTexture (fst r)) d1 /\ leads fs1 src (mtBump (fst r)) d2).
Proof.
  intros U Hs Hd W1 O1 F1 P1. cbv zeta. split.
  - intros L. destruct (used_main asset true open src fs m fs1 u t1 x1 eq_refl U W1 L) as (n1 & b1 & Sa & Em).
    destruct (C114.C114_saved_partial open src fs [x1] fs1 _ Sa Hs Hd) as [A _].
    { repeat constructor; apply O1. } { intros x y [<-|[]] [<-|[]] _. reflexivity. } { intros x [<-|[]]. exact F1. }
    inversion A as [|? ? ? ? H1 _]; subst. rewrite P1 in H1. destruct H1 as [H1 _]. unfold make_material. rewrite Em. exact H1.
  - intros t2 x2 d2 w2 W2 O2 F2 P2 Same. destruct (used_both asset true open src fs m fs1 u t1 x1 t2 x2 eq_refl U W1 W2) as (n1 & b1 & n2 & b2 & Sa & Em & Eb).
    destruct (C114.C114_saved_partial open src fs [x1; x2] fs1 _ Sa Hs Hd) as [A _].
    { constructor; [exact O1|constructor; [exact O2|constructor]]. }
    { intros x y [<-|[<-|[]]] [<-|[<-|[]]] Q; auto. symmetry. apply Same. symmetry. exact Q. } { intros x [<-|[<-|[]]]; assumption. }
    inversion A as [|? ? ? ? H1 A2]; subst. inversion A2 as [|? ? ? ? H2 _]; subst. rewrite P1 in H1. rewrite P2 in H2.
    unfold make_material. rewrite Em. split; [exact (proj1 H1)|exact (proj1 H2)].
Qed.
Lemma use_invalid asset save open src fs m name : no_texture m name -> use_texture asset save open src fs m name = (fs, None).
Proof.
  unfold use_texture. intros [L|[G|(t & G & H)]]; [rewrite (lacks_property _ _ L); reflexivity|rewrite (gives_property _ _ _ G); reflexivity|]. rewrite (gives_property _ _ _ G).
  destruct H as [H|(r & H & Hz)]; rewrite H; [reflexivity|]. cbn [ref_valid]. rewrite Hz. reflexivity.
Qed.
Theorem invalid_unused asset save open src fs m guid fs1 u : use_material asset save open src fs m = (fs1, u) ->
  let r := make_material (fun _ => Some u) guid in
  (no_texture m "_MainTex" -> mtTexture (fst r) = "" /\ snd r = None) /\ (no_texture m "_BumpMap" -> mtBump (fst r) = "") /\
  (no_texture m "_MainTex" -> no_texture m "_BumpMap" -> fs1 = fs).
Proof.
  unfold use_material. destruct (use_texture _ _ _ _ fs m "_MainTex") as [fa main] eqn:Em. destruct (use_texture _ _ _ _ fa m "_BumpMap") as [fb bump] eqn:Eb.
  intros [= <- <-]. unfold make_material. cbn [umName umColor umEmission umMain umBump fst snd mtTexture mtBump]. split; [|split].
  - intros H. rewrite (use_invalid _ _ _ _ _ _ _ H) in Em. injection Em as _ <-. split; reflexivity.
  - intros H. rewrite (use_invalid _ _ _ _ _ _ _ H) in Eb. injection Eb as _ <-. reflexivity.
  - intros H1 H2. rewrite (use_invalid _ _ _ _ _ _ _ H1) in Em. rewrite (use_invalid _ _ _ _ _ _ _ H2) in Eb. congruence.
Qed.
Theorem material_crash asset read decode save open src fs guid : scene_material asset read decode save open src fs guid = None <->
  exists p b, asset guid = Some p /\ read p = Some b /\ parse_yaml_documents b = None.
Proof.
  assert (F : forall ds, first_material decode ds <> LPanic). { induction ds as [|d ds IH]; cbn; [discriminate|]. destruct (_ && _)%bool; [exact IH|]. destruct (decode _); [discriminate|exact IH]. }
  unfold scene_material, load_material. destruct (asset guid) as [p|]; [|split; [discriminate|intros (p & b & H & _); discriminate]].
  destruct (read p) as [b|] eqn:Er; [|split; [discriminate|intros (q & b & H & H2 & _); injection H as <-; congruence]].
  destruct (parse_yaml_documents b) as [ds|] eqn:Ep.
  - split; [|intros (q & c & H & H2 & H3); injection H as <-; congruence]. specialize (F ds). destruct (first_material decode ds) as [| |m]; [congruence|discriminate|]. destruct (use_material _ _ _ _ _ _) as [f1 u]. discriminate.
  - split; [intros _; exists p, b; auto|reflexivity].
Qed.
