(** Skipping the unknown parts of MQO texts. *)
From Coq Require Import String Ascii List ZArith Bool Arith Lia.
From Verif.Model Require Import Num Vec Matrix Mqo MqoDoc MqoText.
From Verif.Spec Require Import TextSpec SkipSpec.
From Verif.Proofs Require Import MqoTextProofs MqoTextMore.
Import ListNotations.
Local Open Scope string_scope.
Local Open Scope list_scope.

Lemma skip_block_nl F l ts : skip_block F (St l (TNL :: ts)) = skip_block F (St (S l) ts).
Proof. destruct F; reflexivity. Qed.
Lemma scan_tok l t r : t <> TNL -> t <> TEOF -> scan (St l (t :: r)) = (t, St l r).
Proof. intros A B. destruct t; try reflexivity; contradiction. Qed.
Lemma not_eof t : t <> TEOF -> is_eof t = false.
Proof. destruct t; try reflexivity; contradiction. Qed.

Lemma skip_balanced ts : balanced ts -> forall F l r, length ts < F ->
  exists l', skip_block F (St l (ts ++ TCh "}" :: r)) = Some (St l' r).
Proof.
  induction 1 as [|t ts H1 H2 H3 _ IH|a b _ IHa _ IHb]; intros F l r L.
  - destruct F; [cbn in L; lia|]. exists l. reflexivity.
  - cbn [app length] in *. destruct t as [s|i s|s|c| |]; try contradiction.
    5:{ rewrite skip_block_nl. apply IH. lia. }
    all: destruct F as [|F]; [lia|]; cbn [skip_block]; rewrite scan_tok by discriminate; cbn [is_eof];
      apply String.eqb_neq in H1; apply String.eqb_neq in H2; rewrite H2, H1; apply IH; lia.
  - cbn [app length] in *. rewrite app_length in L. cbn [length] in L. destruct F as [|F]; [lia|].
    cbn [skip_block]. rewrite scan_tok by discriminate. cbn [is_eof text String.eqb Ascii.eqb Bool.eqb].
    rewrite <- app_assoc. cbn [app]. destruct (IHa F l (b ++ TCh "}" :: r)) as [l1 E]; [lia|]. rewrite E.
    apply IHb. lia.
Qed.

Section Main.
Context {T : Type} {N : Num T} {X : TextNum T}.

Lemma main_quiet F n (d : text_doc T) t l r : quiet t -> t <> TNL ->
  main_loop F (S n) d (St l (t :: r)) = main_loop F n d (St l r).
Proof.
  intros [Q1 Q2] Nl. cbn [main_loop]. rewrite scan_tok by assumption.
  destruct t; try reflexivity; try contradiction. specialize (Q2 s eq_refl). unfold known_chunks in Q2. cbn [In] in Q2.
  repeat match goal with |- context [String.eqb s ?k] => destruct (String.eqb_spec s k) as [->|]; [exfalso; apply Q2; tauto|] end.
  reflexivity.
Qed.
(** Tokens of the end do not occur in texts; a scan passes them all the same. *)
Lemma skip_words ws l r : (forall w, In w ws -> w <> TNL) -> skip_n (length ws) (St l (ws ++ r)) = St l r.
Proof.
  induction ws as [|w ws IH]; intros H; [reflexivity|]. cbn [length skip_n app].
  unfold skip, scan. cbn [ln rest]. replace (scan_from l (w :: ws ++ r)) with (w, St l (ws ++ r)).
  - apply IH. intros; apply H; right; assumption.
  - specialize (H w (or_introl eq_refl)). destruct w; try reflexivity. contradiction.
Qed.
Lemma main_ignore F ts : ignorable ts -> forall n (d : text_doc T) l r x, length ts < F ->
  (forall l, main_loop F n d (St l r) = Some x) -> main_loop F (length ts + n) d (St l (ts ++ r)) = Some x.
Proof.
  induction 1 as [|t ts Q _ IH|ws b ts Lw Hw Hb _ IH]; intros n d l r x L H.
  - apply H.
  - cbn [length app Nat.add] in *. destruct t as [s|i s|s|c| |]; try (rewrite main_quiet by (exact Q || discriminate); apply IH; [lia | exact H]).
    rewrite main_nl. apply main_mono. apply IH; [lia | exact H].
  - cbn [length app] in *. rewrite !app_length in *. cbn [length] in *. rewrite app_length in *. cbn [length] in *.
    cbn [Nat.add main_loop]. rewrite scan_tok by discriminate. cbn [String.eqb Ascii.eqb Bool.eqb].
    rewrite <- app_assoc, <- Lw, skip_words by exact Hw. cbn [app]. rewrite <- app_assoc. cbn [app].
    change (skip (St l (TCh "{" :: b ++ TCh "}" :: ts ++ r))) with (St l (b ++ TCh "}" :: ts ++ r)).
    destruct (skip_balanced b Hb F l (ts ++ r)) as [l' E]; [lia|]. rewrite E.
    apply (main_le F (length ts + n)); [lia|]. apply IH; [lia | exact H].
Qed.

(** The written text with something ignorable after every chunk. *)
Definition with_notes (d : text_doc T) (c0 c1 c2 c3 : list tok) (cs : list (list tok)) (c4 : list tok) : list tok :=
  toks_of w_header ++ c0 ++ toks_of (opt (tdInclude d) w_include) ++ c1 ++ toks_of (opt (tdScene d) w_scene) ++ c2 ++
  toks_of (w_materials (dMaterials (tdDoc d))) ++ c3 ++
  concat (map (fun p => toks_of (w_object (fst p)) ++ snd p) (combine (dObjects (tdDoc d)) cs)) ++ TId "Eof" :: c4.

Lemma main_objects_notes F (n : nat) (x : text_doc T) r : 40 <= F -> forall (os : list (object T)) cs d l,
  length cs = length os -> Forall (text_object plain) os -> (forall c, In c cs -> ignorable c /\ length c < F) ->
  (forall l, main_loop F n (fold_left put_obj os d) (St l r) = Some x) ->
  main_loop F (length os + length (concat cs) + n) d
    (St l (concat (map (fun p => toks_of (w_object (fst p)) ++ snd p) (combine os cs)) ++ r)) = Some x.
Proof.
  intro HF. induction os as [|o os IH]; intros cs d l L Ho Hc H; destruct cs as [|c cs]; try discriminate; [apply H|].
  inversion Ho as [|? ? Ho1 Ho2]; subst. destruct (Hc c (or_introl eq_refl)) as [Ic Lc].
  cbn [combine map concat fst snd length]. rewrite app_length, w_object_head, <- !app_assoc. cbn [Nat.add app main_loop].
  unfold scan; cbn [ln rest scan_from].
  change (String.eqb "Object" "Material") with false. change (String.eqb "Object" "Object") with true. cbn iota.
  set (rr := concat (map (fun p => toks_of (w_object (fst p)) ++ snd p) (combine os cs)) ++ r).
  destruct (read_object_ok F o l (c ++ rr) HF Ho1) as [l' E]. rewrite E, main_nl.
  replace (length os + (length c + length (concat cs)) + n) with (length c + (length os + length (concat cs) + n)) by lia.
  apply main_ignore; [exact Ic | exact Lc|]. intro l2. apply IH; [cbn in L; lia | exact Ho2 | intros; apply Hc; right; assumption | exact H].
Qed.
Lemma length_objects_notes (os : list (object T)) : forall cs, length cs = length os ->
  length os + length (concat cs) <= length (concat (map (fun p => toks_of (w_object (fst p)) ++ snd p) (combine os cs))).
Proof.
  induction os as [|o os IH]; intros [|c cs] L; try discriminate; [cbn; lia|].
  cbn [combine map concat fst snd length]. rewrite !app_length, w_object_head. cbn [length]. specialize (IH cs). cbn in L. lia.
Qed.
Lemma in_concat_le {A} (c : list A) cs : In c cs -> length c <= length (concat cs).
Proof. induction cs as [|a cs IH]; [intros []|]. cbn. rewrite app_length. intros [->|I]; [lia|]. specialize (IH I). lia. Qed.

Lemma ignorable_app a b : ignorable a -> ignorable b -> ignorable (a ++ b).
Proof.
  intros A B. induction A as [|t ts Q _ IH|ws c ts Lw Hw Hb _ IH]; [exact B | constructor; assumption|].
  cbn [app]. rewrite <- app_assoc. cbn [app]. rewrite <- app_assoc. cbn [app]. constructor; assumption.
Qed.
Lemma header_length : length (toks_of w_header) = 12.
Proof. reflexivity. Qed.
Lemma header_ignorable : ignorable (toks_of w_header).
Proof.
  unfold w_header. cbn. repeat (apply ig_tok; [split; [discriminate|]; intros w E; try discriminate E; injection E as <-;
    unfold known_chunks; cbn; intuition discriminate |]). constructor.
Qed.
Theorem parse_notes (d : text_doc T) c0 c1 c2 c3 cs c4 : text_dom plain plain plain d ->
  length cs = length (dObjects (tdDoc d)) -> (forall c, In c (c0 :: c1 :: c2 :: c3 :: cs) -> ignorable c) ->
  parse_toks (with_notes d c0 c1 c2 c3 cs c4) = Some (kept_doc d).
Proof.
  intros (Hi & Hm & Ho) L Ic. unfold parse_toks. set (F := 100 + length (with_notes d c0 c1 c2 c3 cs c4)).
  set (os := dObjects (tdDoc d)) in *. pose proof (length_objects_notes os cs L) as Lo.
  assert (LF : 100 + length c0 + length c1 + length c2 + length c3 + (length os + length (concat cs)) <= F).
  { unfold F, with_notes. rewrite !app_length. fold os. lia. }
  apply (main_le F (20 + (length c0 + (1 + (length c1 + (1 + (length c2 + (2 + (length c3 + (length os + length (concat cs) + 2))))))))));
    [lia|]. unfold with_notes. fold os.
  rewrite app_assoc.
  apply (main_le F (length (toks_of w_header ++ c0) + (1 + (length c1 + (1 + (length c2 + (2 + (length c3 + (length os + length (concat cs) + 2)))))))));
    [rewrite app_length, header_length; lia|].
  apply main_ignore; [apply ignorable_app; [exact header_ignorable | apply Ic; cbn; tauto] | rewrite app_length, header_length; lia|]. intro l0.
  apply main_include; [reflexivity | exact Hi|]. intro l1.
  apply main_ignore; [apply Ic; cbn; tauto | lia|]. intro l2.
  apply main_scene; [lia | reflexivity|]. intro l3.
  apply main_ignore; [apply Ic; cbn; tauto | lia|]. intro l4.
  apply main_materials; [lia | exact Hm | reflexivity|]. intro l5.
  apply main_ignore; [apply Ic; cbn; tauto | lia|]. intro l6.
  apply main_objects_notes; [lia | exact L | exact Ho | |].
  - intros c I. split; [apply Ic; cbn; tauto|]. pose proof (in_concat_le c cs I). lia.
  - intro l7. rewrite fold_obj. destruct d as [inc sc [ms os']]. reflexivity.
Qed.
(** An empty name of a plugin file is none. *)
Theorem parse_no_include (d : text_doc T) : text_dom plain plain plain d -> tdInclude d = None ->
  parse_toks (toks_of w_header ++ [TId "IncludeXml"; TStr ""; TNL] ++ toks_of (opt (tdScene d) w_scene) ++
    toks_of (w_materials (dMaterials (tdDoc d))) ++ toks_of (concat (map w_object (dObjects (tdDoc d)))) ++ [TId "Eof"; TNL]) = Some (kept_doc d).
Proof.
  intros (Hi & Hm & Ho) En. unfold parse_toks. match goal with |- main_loop ?f _ _ _ = _ => set (F := f) end.
  set (os := dObjects (tdDoc d)) in *. pose proof (objects_tokens os) as Lo.
  assert (LF : 100 + length os <= F) by (unfold F; rewrite !app_length; lia).
  apply (main_le F (length (toks_of w_header) + (1 + (1 + (2 + (length os + 2)))))); [rewrite header_length; lia|].
  apply main_ignore; [exact header_ignorable | rewrite header_length; lia|]. intro l0. cbn [Nat.add app].
  match goal with |- main_loop F (S ?n) ?d0 (St _ (_ :: _ :: TNL :: ?ts)) = _ =>
    change (main_loop F n d0 (St l0 (TNL :: ts)) = Some (kept_doc d)) end.
  rewrite main_nl. apply main_scene; [lia | reflexivity|]. intro l3.
  apply main_materials; [lia | exact Hm | reflexivity|]. intro l5.
  apply main_objects; [lia | exact Ho|]. intro l7. rewrite fold_obj. destruct d as [inc sc [ms os']]. cbn in En. subst inc. reflexivity.
Qed.
End Main.

(** Items of blocks *)
Lemma obj_words {A} F (h : handlers A) ws : (forall t, In t ws -> unknown_word h t) -> forall n a l r,
  exists l' k, k <= length ws /\ obj_loop F (k + n) h a (St l (ws ++ r)) = obj_loop F n h a (St l' r).
Proof.
  induction ws as [|t ws IH]; intros H n a l r; [exists l, 0; split; [cbn; lia | reflexivity]|].
  destruct (H t (or_introl eq_refl)) as [H1 [H2 [H3 H4]]]. specialize (IH (fun t I => H t (or_intror I))).
  destruct t as [s|i s|s|c| |]; try contradiction.
  5:{ destruct (IH n a (S l) r) as [l' [k [Lk E]]]. exists l', k. split; [cbn [length]; lia|].
      cbn [app]. rewrite obj_nl. exact E. }
  all: destruct H4 as [H4|H4]; [discriminate|]; destruct (IH n a l r) as [l' [k [Lk E]]]; exists l', (S k);
    (split; [cbn [length]; lia|]); cbn [app Nat.add obj_loop]; rewrite scan_tok by discriminate; cbn [is_eof];
    apply String.eqb_neq in H1; apply String.eqb_neq in H2; rewrite H2, H1, H4; exact E.
Qed.
Lemma skip_item {A} F (h : handlers A) it : unknown_item h it -> length it < F -> forall n a l r,
  exists l' k, k <= length it /\ obj_loop F (k + n) h a (St l (it ++ r)) = obj_loop F n h a (St l' r).
Proof.
  intros H L n a l r. destruct H as [ws H|ws b H Hb].
  - apply obj_words; exact H.
  - rewrite app_length in *. cbn [length] in *. rewrite app_length in *. cbn [length] in *.
    rewrite <- app_assoc. cbn [app]. rewrite <- app_assoc. cbn [app].
    destruct (obj_words F h ws H (S n) a l (TCh "{" :: b ++ TCh "}" :: r)) as [l1 [k [Lk E]]].
    destruct (skip_balanced b Hb F l1 r) as [l2 E2]; [lia|].
    exists l2, (S k). split; [lia|]. replace (S k + n) with (k + S n) by lia. rewrite E.
    cbn [obj_loop]. rewrite scan_tok by discriminate. cbn [is_eof text String.eqb Ascii.eqb Bool.eqb]. rewrite E2. reflexivity.
Qed.
(** An item in a block changes neither what is read nor where the reading goes on. *)
Lemma skip_item_value {A} F (h : handlers A) it n a l r x q : unknown_item h it -> length it < F ->
  (forall l, leaves (obj_loop F n h a (St l r)) x q) ->
  leaves (obj_loop F (length it + n) h a (St l (it ++ r))) x q.
Proof.
  intros H L Q. destruct (skip_item F h it H L n a l r) as [l' [k [Lk E]]]. destruct (Q l') as [l2 E2]. exists l2.
  apply (obj_loop_le F (k + n)); [lia|]. rewrite E. exact E2.
Qed.
(** An unknown attribute of a line. *)
Lemma skip_attribute {A} F n (h : handlers A) k ps l a r y : h k = None -> length ps < F ->
  (forall p, In p ps -> match p with TNL => False | TEOF => False | t => text t <> ")" end) ->
  attrs_after F n h l a (St l r) = Some y ->
  attrs_after F (S n) h l a (St l (TId k :: TCh "(" :: ps ++ TCh ")" :: r)) = Some y.
Proof.
  intros Hk L Hp H. unfold attrs_after at 1. cbn [at_eol rest attrs_loop]. rewrite scan_tok by discriminate. cbn [ln].
  rewrite Nat.eqb_refl. cbn [negb orb is_eof text]. rewrite Hk.
  change (skip (St l (TCh "(" :: ps ++ TCh ")" :: r))) with (St l (ps ++ TCh ")" :: r)).
  rewrite skip_attr_pieces by assumption. exact H.
Qed.
