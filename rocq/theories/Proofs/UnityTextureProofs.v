(** Proofs about saved textures: C114. *)
From Coq Require Import String Ascii List Bool Arith Lia.
From Verif.Model Require Import Cli UnityPackage UnityProject UnityTexture.
From Verif.Spec Require Import PackageSpec ProjectSpec UnityTextureSpec.
From Verif.Proofs Require Import PackageProofs ProjectProofs.
Import ListNotations.
Local Open Scope string_scope.
Local Open Scope list_scope.

Lemma cut_eq x a b c d : without x a -> without x b -> (a ++ String x c = b ++ String x d)%string -> a = b /\ c = d.
Proof.
  revert b. induction a as [|y a IH]; intros [|z b] A B H; cbn in *.
  - now injection H as <-.
  - injection H as -> H. now destruct B.
  - injection H as -> H. now destruct A.
  - injection H as -> H. destruct (IH b (proj2 A) (proj2 B) H) as [-> ->]. now split.
Qed.
Lemma last_ok (p : path) : p <> [] -> Forall name_ok p -> name_ok (last p "").
Proof. intros N F. rewrite (app_removelast_last "" N) in F. apply Forall_app in F. destruct F as [_ F]. now inversion F. Qed.
Lemma saved_ok x : asset_ok x -> name_ok (saved_name (fst x) (slashed (snd x))) /\ saved_name (fst x) (slashed (snd x)) = (fst x ++ "_" ++ last (snd x) "")%string.
Proof.
  intros (A & B & C & D). assert (L := last_ok _ C D). destruct (name_plain _ D) as (_ & _ & E). unfold saved_name, base_of. rewrite split_slashed by assumption.
  split; [|reflexivity]. destruct L as (L1 & L2 & L3 & L4). split; [|split; [|split]].
  - destruct (fst x); discriminate.
  - destruct (fst x) as [|c s]; [discriminate|]. destruct s; discriminate.
  - destruct (fst x) as [|c s]; [discriminate|]. destruct s as [|c2 s]; [discriminate|]. destruct s; discriminate.
  - rewrite !has_sep_app, B, L4. reflexivity.
Qed.
Lemma textures_ok : name_ok "saved_textures".
Proof. repeat split; discriminate. Qed.
Lemma dir_join src : join src "saved_textures" = src ++ ["saved_textures"].
Proof. apply (join_slashed src ["saved_textures"]); [discriminate|]. constructor; [apply textures_ok|constructor]. Qed.
Lemma place_join src x : asset_ok x -> join (src ++ ["saved_textures"]) (saved_name (fst x) (slashed (snd x))) = expected src x.
Proof.
  intro A. destruct (saved_ok x A) as [B C]. unfold expected. rewrite <- C. assert (J := join_slashed (src ++ ["saved_textures"]) [saved_name (fst x) (slashed (snd x))]). cbn [slashed] in J. rewrite J.
  - now rewrite <- app_assoc.
  - discriminate.
  - now constructor.
Qed.
Lemma ref_join src x : asset_ok x -> join src (texture_ref (fst x) (slashed (snd x))) = expected src x.
Proof.
  intro A. destruct (saved_ok x A) as [B C]. unfold expected, texture_ref. rewrite <- C.
  apply (join_slashed src ["saved_textures"; saved_name (fst x) (slashed (snd x))]); [discriminate|]. constructor; [apply textures_ok|]. now constructor.
Qed.
Lemma expected_inj src x y : asset_ok x -> asset_ok y -> expected src x = expected src y -> fst x = fst y.
Proof.
  intros (A & _) (B & _) H. unfold expected in H. apply app_inv_head in H. injection H as H. now destruct (cut_eq _ _ _ _ _ A B H).
Qed.
Lemma expected_len src x : expected src x <> src ++ ["saved_textures"].
Proof. unfold expected. intro H. apply app_inv_head in H. discriminate. Qed.
Lemma removelast_expected src x : removelast (expected src x) = src ++ ["saved_textures"].
Proof. unfold expected. change (["saved_textures"; (fst x ++ "_" ++ last (snd x) "")%string]) with (["saved_textures"] ++ [(fst x ++ "_" ++ last (snd x) "")%string]). rewrite app_assoc. apply removelast_last. Qed.

Lemma mkdir_stat fs src : stat fs src = Some FDir -> (forall d, stat fs (src ++ ["saved_textures"]) <> Some (FFile d)) ->
  stat (mkdir fs (src ++ ["saved_textures"])) (src ++ ["saved_textures"]) = Some FDir /\
  forall q, q <> src ++ ["saved_textures"] -> stat (mkdir fs (src ++ ["saved_textures"])) q = stat fs q.
Proof.
  intros S0 F. unfold mkdir. destruct (stat fs (src ++ ["saved_textures"])) as [[|d]|] eqn:E.
  - split; [exact E|reflexivity].
  - now destruct (F d).
  - rewrite removelast_last, S0. split.
    + rewrite stat_cons by apply app_one_nil. now rewrite path_eqb_refl.
    + intros q Q. rewrite stat_cons by apply app_one_nil. destruct (path_eqb _ q) eqn:X; [|reflexivity]. apply path_eqb_spec in X. congruence.
Qed.

Section Save.
Variable open : string -> option (string * bool).
Variable src : path.
Definition saved (fs : fsys) (x : string * path) : Prop :=
  stat fs (expected src x) = None \/ exists d w, open (slashed (snd x)) = Some (d, w) /\ stat fs (expected src x) = Some (FFile d).
Definition outcome (fs : fsys) (x : string * path) (r : string * bool) : Prop :=
  match open (slashed (snd x)) with
  | Some (d, w) => fst r = texture_ref (fst x) (slashed (snd x)) /\ leads fs src (fst r) d /\ (w = true -> snd r = true)
  | None => r = ("", false) /\ stat fs (expected src x) = None
  end.

Lemma save_one fs x fs' r : asset_ok x -> stat fs src = Some FDir -> (forall d, stat fs (src ++ ["saved_textures"]) <> Some (FFile d)) -> saved fs x ->
  save_texture open src fs (fst x) (slashed (snd x)) = (fs', r) ->
  outcome fs' x r /\ stat fs' (src ++ ["saved_textures"]) = Some FDir /\ (forall q, q <> src ++ ["saved_textures"] -> q <> expected src x -> stat fs' q = stat fs q) /\
  (stat fs (expected src x) <> None -> stat fs' (expected src x) = stat fs (expected src x)).
Proof.
  intros A S0 F V H. unfold save_texture in H. rewrite dir_join, place_join in H by exact A. destruct (mkdir_stat fs src S0 F) as [M1 M2].
  set (fs1 := mkdir fs (src ++ ["saved_textures"])) in *. clearbody fs1. rewrite (M2 _ (expected_len src x)) in H. destruct V as [V|(d & w & V1 & V2)].
  - rewrite V in H. destruct (open (slashed (snd x))) as [[d w]|] eqn:O.
    + assert (C : create fs1 (expected src x) d = Some ((expected src x, FFile d) :: fs1)).
      { unfold create. rewrite (M2 _ (expected_len src x)), V, removelast_expected, M1. reflexivity. }
      rewrite C in H. injection H as <- <-. assert (NE : expected src x <> []) by (unfold expected; destruct src; discriminate).
      split; [|split; [|split]].
      * unfold outcome. rewrite O. cbn [fst snd]. split; [reflexivity|]. split; [|tauto]. unfold leads. rewrite ref_join by exact A. rewrite stat_cons by exact NE. now rewrite path_eqb_refl.
      * rewrite stat_cons by exact NE. destruct (path_eqb _ _) eqn:X; [|exact M1]. apply path_eqb_spec in X. now destruct (expected_len src x).
      * intros q Q1 Q2. rewrite stat_cons by exact NE. destruct (path_eqb _ _) eqn:X; [apply path_eqb_spec in X; congruence|now apply M2].
      * congruence.
    + injection H as <- <-. split; [|split; [|split]].
      * unfold outcome. rewrite O. split; [reflexivity|]. now rewrite (M2 _ (expected_len src x)).
      * exact M1.
      * intros q Q1 _. now apply M2.
      * congruence.
  - rewrite V2 in H. injection H as <- <-. split; [|split; [|split]].
    + unfold outcome. rewrite V1. cbn [fst snd]. split; [reflexivity|]. split; [|reflexivity]. unfold leads. rewrite ref_join by exact A. now rewrite (M2 _ (expected_len src x)).
    + exact M1.
    + intros q Q1 _. now apply M2.
    + intros _. now apply M2, expected_len.
Qed.

Lemma save_list l : forall fs fs' rs, save_all open src fs (map given l) = (fs', rs) -> stat fs src = Some FDir -> (forall d, stat fs (src ++ ["saved_textures"]) <> Some (FFile d)) ->
  Forall asset_ok l -> (forall x y, In x l -> In y l -> fst x = fst y -> snd x = snd y) -> Forall (saved fs) l ->
  Forall2 (outcome fs') l rs /\ (forall q, q <> src ++ ["saved_textures"] -> (forall x, In x l -> q <> expected src x) -> stat fs' q = stat fs q) /\
  (forall x, In x l -> saved fs' x) /\ (forall x, asset_ok x -> (forall y, In y l -> fst x = fst y -> snd x = snd y) -> stat fs (expected src x) <> None -> stat fs' (expected src x) = stat fs (expected src x)) /\
  (forall x, In x l -> open (slashed (snd x)) = None -> stat fs (expected src x) = None -> stat fs' (expected src x) = None).
Proof.
  induction l as [|x l IH]; intros fs fs' rs H S0 F A U V; cbn [map save_all given] in H.
  - injection H as <- <-. split; [constructor|]. split; [reflexivity|]. split; [intros x []|]. split; [reflexivity|intros x []].
  - destruct (save_texture open src fs (fst x) (slashed (snd x))) as [fs1 r] eqn:E. change (map (fun x => given x) l) with (map given l) in H.
    destruct (save_all open src fs1 (map given l)) as [fs2 xs] eqn:E2. injection H as <- <-.
    inversion A as [|? ? A1 A2]; subst. inversion V as [|? ? V1 V2]; subst.
    destruct (save_one fs x fs1 r A1 S0 F V1 E) as (O1 & O2 & O3 & O4).
    assert (S1 : stat fs1 src = Some FDir).
    { rewrite O3; [exact S0| |]. - intro X. apply (f_equal (@length string)) in X. rewrite app_length in X. cbn in X. lia. - intro X. apply (f_equal (@length string)) in X. unfold expected in X. rewrite app_length in X. cbn in X. lia. }
    assert (SX : saved fs1 x).
    { unfold saved. unfold outcome in O1. destruct (open (slashed (snd x))) as [[d w]|] eqn:O; [|left; apply O1]. right. exists d, w. split; [reflexivity|].
      destruct O1 as (L1 & L2 & _). unfold leads in L2. rewrite L1, ref_join in L2 by exact A1. exact L2. }
    assert (keep : forall y, asset_ok y -> (fst x = fst y -> snd x = snd y) -> y = x \/ stat fs1 (expected src y) = stat fs (expected src y)).
    { intros y Y1 Y2. destruct (string_dec (fst x) (fst y)) as [e|n].
      - left. destruct x, y; cbn in *. f_equal; [congruence|]. symmetry. now apply Y2.
      - right. apply O3; [apply expected_len|]. intro X. apply n. symmetry. now apply (expected_inj src y x). }
    assert (F1 : forall d, stat fs1 (src ++ ["saved_textures"]) <> Some (FFile d)) by (intro d; congruence).
    assert (V3 : Forall (saved fs1) l).
    { apply Forall_forall. intros y Y. rewrite Forall_forall in A2, V2. destruct (keep y (A2 y Y)) as [->|K].
      - intro Z. apply U; [now left|now right|exact Z].
      - exact SX.
      - unfold saved. rewrite K. now apply V2. }
    destruct (IH fs1 fs2 xs E2 S1 F1 A2) as (I1 & I2 & I3 & I4 & I5); [intros; apply U; try (now right); assumption|exact V3|].
    assert (UX : forall y, In y l -> fst x = fst y -> snd x = snd y) by (intros y Y Z; apply U; [now left|now right|exact Z]).
    assert (NX : open (slashed (snd x)) = None -> stat fs2 (expected src x) = None).
    { intro O. unfold outcome in O1. rewrite O in O1. destruct O1 as [_ O1].
      destruct (in_dec string_dec (fst x) (map fst l)) as [i|n].
      - apply in_map_iff in i. destruct i as (y & Y1 & Y2). assert (y = x) by (destruct x, y; cbn in *; f_equal; [exact Y1|symmetry; apply (UX _ Y2); now symmetry]). subst y. now apply I5.
      - rewrite I2; [exact O1|apply expected_len|]. intros y Y X. apply n. rewrite Forall_forall in A2. rewrite (expected_inj src x y A1 (A2 y Y) X). now apply in_map. }
    assert (EX : forall d w, open (slashed (snd x)) = Some (d, w) -> stat fs2 (expected src x) = Some (FFile d)).
    { intros d w O. unfold outcome in O1. rewrite O in O1. destruct O1 as (L1 & L2 & _). unfold leads in L2. rewrite L1, ref_join in L2 by exact A1.
      rewrite (I4 x A1 UX); [exact L2|congruence]. }
    split; [|split; [|split; [|split]]].
    + constructor; [|exact I1]. unfold outcome in O1 |- *. destruct (open (slashed (snd x))) as [[d w]|] eqn:O.
      * destruct O1 as (L1 & _ & L3). split; [exact L1|]. split; [|exact L3]. unfold leads. rewrite L1, ref_join by exact A1. now apply (EX d w).
      * split; [apply O1|now apply NX].
    + intros q Q1 Q2. rewrite I2; [|exact Q1|intros y Y; apply Q2; now right]. apply O3; [exact Q1|apply Q2; now left].
    + intros y [<-|Y]; [|now apply I3]. unfold saved. destruct (open (slashed (snd x))) as [[d w]|] eqn:O; [right; exists d, w; split; [reflexivity|now apply (EX d w)]|left; now apply NX].
    + intros y Y1 Y2 Y3. destruct (keep y Y1) as [->|K].
      * intro Z. symmetry. apply Y2; [now left|now symmetry].
      * assert (Z := O4 Y3). rewrite <- Z. apply (I4 x A1 UX). congruence.
      * rewrite <- K. apply (I4 y Y1); [intros z Z; apply Y2; now right|congruence].
    + intros y [<-|Y] O Z; [now apply NX|]. rewrite Forall_forall in A2. destruct (keep y (A2 y Y)) as [->|K].
      * intro W. apply U; [now left|now right|exact W].
      * now apply NX.
      * apply I5; [exact Y|exact O|congruence].
Qed.
End Save.

Lemma save_fresh open src fs l fs' rs : save_all open src fs (map given l) = (fs', rs) -> stat fs src = Some FDir -> (forall d, stat fs (src ++ ["saved_textures"]) <> Some (FFile d)) ->
  Forall asset_ok l -> (forall x y, In x l -> In y l -> fst x = fst y -> snd x = snd y) -> (forall x, In x l -> stat fs (expected src x) = None) ->
  Forall2 (fun x r => match open (slashed (snd x)) with
                      | Some (d, w) => leads fs' src (fst r) d /\ (w = true -> snd r = true)
                      | None => r = ("", false) /\ stat fs' (expected src x) = None
                      end) l rs /\
  (forall q, q <> src ++ ["saved_textures"] -> (forall x, In x l -> q <> expected src x) -> stat fs' q = stat fs q).
Proof.
  intros H S0 F A U V. destruct (save_list open src l fs fs' rs H S0 F A U) as (I1 & I2 & _).
  - apply Forall_forall. intros x X. left. now apply V.
  - split; [|exact I2]. clear -I1. induction I1 as [|x r l rs H _ IH]; constructor; [|exact IH]. unfold outcome in H. destruct (open (slashed (snd x))) as [[d w]|]; tauto.
Qed.
Lemma refs_differ x y : asset_ok x -> asset_ok y -> fst x <> fst y -> forall src, join src (texture_ref (fst x) (slashed (snd x))) <> join src (texture_ref (fst y) (slashed (snd y))).
Proof. intros A B N src H. rewrite !ref_join in H by assumption. apply N. now apply (expected_inj src). Qed.
Lemma base_same input : (trim_suffix ".unitypackage" input <> None /\ split2 "#" input = None /\ lower (ext input) = ".unitypackage") \/
  (trim_suffix ".unitypackage" input = None /\ lower (ext input) <> ".unitypackage" /\ (split2 "#" input <> None \/ before_first "Assets/" input <> None)) ->
  base_input input = Some (fst (unity_names input)).
Proof.
  unfold base_input, unity_names. intros [(A & B & C)|(A & C & B)].
  - destruct (trim_suffix ".unitypackage" input); [|congruence]. rewrite B, C. now destruct (before_first "Assets/" input).
  - rewrite A. destruct (split2 "#" input) as [ab|]; [reflexivity|]. destruct B as [B|B]; [congruence|]. destruct (before_first "Assets/" input) as [d|]; [|congruence].
    apply String.eqb_neq in C. now rewrite C.
Qed.
