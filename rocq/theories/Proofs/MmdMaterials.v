(** Materials between PMX and MQO, and their morphs. *)
From Coq Require Import String Ascii List ZArith Bool Arith Lia Reals.
From Verif.Model Require Import Num NumR Vec Mqo MqoDoc MmdMaterials.
From Verif Require Import Spec.MmdMaterialsSpec.
From Verif.Proofs Require Import MorphProofs MorphBase.
Import ListNotations.
Local Open Scope nat_scope.
Local Open Scope list_scope.

Section Look.
Context {T : Type} {N : Num T}.
Variable ambient : T.

Lemma texture_at_some texs i : (0 <= i)%Z -> texture_at texs i = nth_error texs (Z.to_nat i).
Proof. intro H. unfold texture_at. apply Z.ltb_ge in H. rewrite H. reflexivity. Qed.

Lemma from_mmat_none texs (x : mmat T) : from_mmat ambient texs x = None <-> (Z.of_nat (length texs) <= xmTexture x)%Z.
Proof.
  unfold from_mmat. destruct (Z.leb_spec 0 (xmTexture x)) as [H|H].
  - rewrite texture_at_some by exact H. destruct (nth_error texs (Z.to_nat (xmTexture x))) as [t|] eqn:E.
    + split; [discriminate|]. intro C. assert (Z.to_nat (xmTexture x) < length texs) by (apply nth_error_Some; congruence). lia.
    + split; [|reflexivity]. intros _. apply nth_error_None in E. lia.
  - split; [discriminate|]. intro. lia.
Qed.
Lemma from_mmat_look texs (x : mmat T) m : from_mmat ambient texs x = Some m -> same_look texs x m /\ same_sides x m /\
  exists e, mtEx2 m = Some e /\ exParams e = [("Edge"%string, PBool (nltb nzero (xmEdge x)))].
Proof.
  unfold from_mmat. intro E. destruct (if (0 <=? xmTexture x)%Z then _ else _) as [t|] eqn:Et; [|discriminate].
  injection E as <-. unfold same_look, same_sides. cbn [mtName mtColor mtPower mtTexture mtDouble mtEx2].
  try rewrite Z.bit0_odd. split; [|split; [reflexivity|]].
  - repeat split. unfold shows. destruct (Z.leb_spec 0 (xmTexture x)) as [H|H].
    + right. rewrite texture_at_some in Et by exact H. auto.
    + left. injection Et as <-. auto.
  - eexists. split; reflexivity.
Qed.
Lemma from_mmats_some texs (xs : list (mmat T)) ms : from_mmats ambient texs xs = Some ms ->
  Forall2 (fun x m => from_mmat ambient texs x = Some m) xs ms.
Proof.
  revert ms; induction xs as [|x xs IH]; intros ms E; cbn in E; [injection E as <-; constructor|].
  destruct (from_mmat ambient texs x) as [m|] eqn:Ex; [|discriminate].
  destruct (from_mmats ambient texs xs) as [l|]; [|discriminate]. injection E as <-. constructor; auto.
Qed.
Lemma from_mmats_none texs (xs : list (mmat T)) :
  from_mmats ambient texs xs = None <-> ~ textures_ok texs xs.
Proof.
  unfold textures_ok. induction xs as [|x xs IH]; cbn.
  - split; [discriminate|]. intro H. exfalso. apply H. intros x [].
  - destruct (from_mmat ambient texs x) as [m|] eqn:Ex.
    + assert (Hx : (xmTexture x < Z.of_nat (length texs))%Z).
      { destruct (Z.lt_ge_cases (xmTexture x) (Z.of_nat (length texs))) as [H|H]; [exact H|].
        apply (proj2 (from_mmat_none texs x)) in H. congruence. }
      destruct (from_mmats ambient texs xs) as [l|].
      * split; [discriminate|]. intro H. exfalso. assert (~ None = Some l) as _ by discriminate.
        destruct IH as [_ IH]. enough (Some l = None) by discriminate. apply IH. intro Q. apply H.
        intros y [<-|I]; [exact Hx | apply Q; exact I].
      * split; [|reflexivity]. intros _ Q. apply (proj1 IH eq_refl). intros y I. apply Q. right; exact I.
    + split; [|reflexivity]. intros _ Q. apply from_mmat_none in Ex. specialize (Q x (or_introl eq_refl)). lia.
Qed.
Lemma from_mmats_look texs (xs : list (mmat T)) : textures_ok texs xs ->
  exists ms, from_mmats ambient texs xs = Some ms /\
    Forall2 (fun x m => same_look texs x m /\ same_sides x m /\
      exists e, mtEx2 m = Some e /\ exParams e = [("Edge"%string, PBool (nltb nzero (xmEdge x)))]) xs ms.
Proof.
  intro H. destruct (from_mmats ambient texs xs) as [ms|] eqn:E.
  - exists ms. split; [reflexivity|]. apply from_mmats_some in E. clear H. induction E; constructor; auto.
    apply from_mmat_look. assumption.
  - apply from_mmats_none in E. contradiction.
Qed.

(** MQO to PMX *)
Lemma to_mmats_texs (ms : list (material T * Z)) : forall texs, exists t, snd (to_mmats ms texs) = texs ++ t.
Proof.
  induction ms as [|[m n] r IH]; intro texs; cbn; [exists []; rewrite app_nil_r; reflexivity|].
  destruct (String.eqb (mtTexture m) EmptyString).
  - destruct (to_mmats r texs) as [l t] eqn:E. specialize (IH texs). rewrite E in IH. exact IH.
  - destruct (to_mmats r (texs ++ [mtTexture m])) as [l t] eqn:E. specialize (IH (texs ++ [mtTexture m])). rewrite E in IH.
    destruct IH as [t' IH]. exists (mtTexture m :: t'). cbn in *. rewrite IH, <- app_assoc. reflexivity.
Qed.
Lemma to_mmats_look (ms : list (material T * Z)) : forall texs,
  let (xs, all) := to_mmats ms texs in
  Forall2 (fun mn x => same_look all x (fst mn) /\ xmCount x = (3 * snd mn)%Z /\ (xmTexture x < Z.of_nat (length all))%Z) ms xs.
Proof.
  induction ms as [|[m n] r IH]; intro texs; cbn [to_mmats]; [constructor|].
  destruct (String.eqb_spec (mtTexture m) EmptyString) as [Et|Et].
  - specialize (IH texs). destruct (to_mmats r texs) as [l t] eqn:E. constructor; [|exact IH].
    unfold same_look, to_mmat. cbn [xmName xmColor xmSpecularity xmTexture xmCount fst snd].
    split; [repeat split; left; split; [reflexivity | exact Et]|]. split; lia.
  - specialize (IH (texs ++ [mtTexture m])). pose proof (to_mmats_texs r (texs ++ [mtTexture m])) as [t' Ht].
    destruct (to_mmats r (texs ++ [mtTexture m])) as [l t] eqn:E. cbn in Ht. constructor; [|exact IH].
    unfold same_look, to_mmat. cbn [xmName xmColor xmSpecularity xmTexture xmCount fst snd].
    split; [repeat split|].
    + right. split; [lia|]. rewrite Nat2Z.id, Ht, <- app_assoc. rewrite nth_error_app2 by lia. rewrite Nat.sub_diag. reflexivity.
    + split; [lia|]. rewrite Ht, !app_length. cbn. lia.
Qed.
Lemma shows_fun texs id f g : shows texs id f -> shows texs id g -> f = g.
Proof. intros [[A ->]|[A B]] [[C ->]|[C D]]; try lia; congruence. Qed.

Lemma back_mqo (ms : list (material T * Z)) :
  exists ms', from_mmats ambient (snd (to_mmats ms [])) (fst (to_mmats ms [])) = Some ms' /\
  Forall2 (fun mn m' => mtName m' = mtName (fst mn) /\ mtColor m' = mtColor (fst mn) /\ mtPower m' = mtPower (fst mn) /\
     mtTexture m' = mtTexture (fst mn) /\ mtDouble m' = false) ms ms'.
Proof.
  pose proof (to_mmats_look ms []) as H. destruct (to_mmats ms []) as [xs all] eqn:E. cbn [fst snd].
  assert (S : Forall (fun x => xmFlags x = 0%Z) xs).
  { clear H. revert xs all E. generalize (@nil string). induction ms as [|[m n] r IH]; intros texs xs all E; cbn in E.
    - injection E as <- <-. constructor.
    - destruct (if String.eqb _ _ then _ else _) as [id texs']. destruct (to_mmats r texs') as [l t] eqn:El.
      injection E as <- <-. constructor; [reflexivity | eapply IH; exact El]. }
  destruct (from_mmats_look all xs) as [ms' [E' L]].
  - intros x I. clear - H I. induction H; [destruct I|]. destruct I as [<-|I]; [tauto | auto].
  - exists ms'. split; [exact E'|]. clear E E'. revert ms' L S. induction H as [|[m n] x r xs [A [_ _]] H IH]; intros ms' L S.
    + inversion L; subst. constructor.
    + inversion L as [|? y ? l Hy Hl]; subst. inversion S; subst. constructor; [|apply IH; assumption].
      destruct Hy as [[B1 [B2 [B3 B4]]] [B5 _]]. destruct A as [A1 [A2 [A3 A4]]]. cbn in *.
      repeat split; try congruence.
      * exact (shows_fun _ _ _ _ B4 A4).
      * rewrite B5. replace (xmFlags x) with 0%Z by congruence. reflexivity.
Qed.
Lemma back_pmx texs (xs : list (mmat T)) ms cs : from_mmats ambient texs xs = Some ms -> length cs = length ms ->
  let (xs', texs') := to_mmats (combine ms cs) [] in
  Forall2 (fun x x' => alike texs x texs' x') xs xs'.
Proof.
  intros E Lc. pose proof (to_mmats_look (combine ms cs) []) as H.
  destruct (to_mmats (combine ms cs) []) as [xs' texs'].
  apply from_mmats_some in E. revert cs Lc xs' H. induction E as [|x m xs ms Ex E IH]; intros cs Lc xs' H.
  - destruct cs; [|discriminate]. inversion H; subst. constructor.
  - destruct cs as [|c cs]; [discriminate|]. cbn in H. inversion H as [|? x' ? l A B]; subst.
    constructor; [|apply (IH cs); [cbn in Lc; lia | exact B]].
    apply from_mmat_look in Ex. destruct Ex as [[B1 [B2 [B3 B4]]] _]. destruct A as [[A1 [A2 [A3 A4]]] _]. cbn in *.
    unfold alike. repeat split; try congruence. intros f F. rewrite (shows_fun _ _ _ _ F B4). exact A4.
Qed.
End Look.

(** ** Morphs *)
Lemma app_cancel p s t : (p ++ s = p ++ t)%string -> s = t.
Proof. induction p as [|a p IH]; cbn; intro E; [exact E | injection E as E; exact (IH E)]. Qed.
Lemma colon_split a b x y : no_colon a -> no_colon b -> (a ++ ":" ++ x = b ++ ":" ++ y)%string -> a = b /\ x = y.
Proof.
  revert b; induction a as [|c a IH]; intros [|d b] A B E; cbn in *.
  - injection E as E; auto.
  - injection E as E1 E2. destruct B as [B _]. congruence.
  - injection E as E1 E2. destruct A as [A _]. congruence.
  - injection E as <- E. destruct (IH b) as [-> ->]; tauto.
Qed.
Lemma sapp_assoc a b c : ((a ++ b) ++ c = a ++ b ++ c)%string.
Proof. induction a as [|x a IH]; cbn; [reflexivity | now rewrite IH]. Qed.

Section Morph.
Context {T : Type} {N : Num T}.
Variable ambient : T.
Implicit Types (bs ms e : list (material T)).

Definition made bs (nm : string) (o : mmorph T) : list (material T) :=
  match nth_error bs (Z.to_nat (moTarget o)) with Some m => [morphed ambient nm o m] | None => [] end.
Definition ext bs (mos : list (mmorphs T)) : list (material T) :=
  flat_map (fun mo => flat_map (made bs (moName mo)) (moMats mo)) mos.
Definition in_range (n : nat) (mos : list (mmorphs T)) : Prop :=
  forall mo o, In mo mos -> In o (moMats mo) -> (0 <= moTarget o < Z.of_nat n)%Z.

Lemma add_inner bs nm os : forall e, (forall o, In o os -> (0 <= moTarget o < Z.of_nat (length bs))%Z) ->
  fold_left (add_morph ambient nm) os (bs ++ e) = bs ++ e ++ flat_map (made bs nm) os.
Proof.
  induction os as [|o os IH]; intros e H; cbn; [rewrite app_nil_r; reflexivity|].
  assert (Ho := H o (or_introl eq_refl)). unfold add_morph at 2. unfold made at 1.
  destruct (Z.ltb_spec (moTarget o) 0); [lia|].
  destruct (nth_error bs (Z.to_nat (moTarget o))) as [m|] eqn:E.
  2:{ apply nth_error_None in E. lia. }
  rewrite nth_error_app1 by lia. rewrite E. rewrite <- app_assoc. rewrite IH by (intros; apply H; right; assumption).
  rewrite <- !app_assoc. reflexivity.
Qed.
Lemma add_ext bs mos : forall e, in_range (length bs) mos ->
  fold_left (fun ms mo => fold_left (add_morph ambient (moName mo)) (moMats mo) ms) mos (bs ++ e) = bs ++ e ++ ext bs mos.
Proof.
  induction mos as [|mo mos IH]; intros e H; cbn; [rewrite app_nil_r; reflexivity|].
  rewrite add_inner by (intros o I; apply (H mo); [left; reflexivity | exact I]).
  rewrite IH by (intros mo' o I; apply H; right; exact I). unfold ext. cbn. rewrite <- !app_assoc. reflexivity.
Qed.
Lemma add_morphs_ext bs mos : in_range (length bs) mos -> add_morphs ambient bs mos = bs ++ ext bs mos.
Proof. intro H. unfold add_morphs. rewrite <- (app_nil_r bs) at 1. rewrite add_ext by exact H. reflexivity. Qed.

(** The loop over the morph materials only changes the materials of the model. *)
Definition step (names : list string) pre v bs (m : material T) : list (material T) :=
  match strip_prefix pre (mtName m) with
  | None => bs
  | Some tn => match mat_by_name names tn with
               | Some k => list_upd bs k (fun t => set_mat_color t (blend v (mtColor t) (mtColor m)))
               | None => bs end
  end.
Lemma list_upd_app1 {A} (a b : list A) k f : k < length a -> list_upd (a ++ b) k f = list_upd a k f ++ b.
Proof.
  intro H. unfold list_upd. rewrite firstn_app, skipn_app. replace (k - length a) with 0 by lia. cbn [firstn skipn].
  rewrite app_nil_r, <- app_assoc. f_equal. destruct (skipn k a) eqn:E; [|reflexivity].
  exfalso. assert (L := skipn_length k a). rewrite E in L. cbn in L. lia.
Qed.
Lemma loop_step names pre v n : forall e2 e1 bs, length bs = n ->
  (forall m tn, In m e2 -> strip_prefix pre (mtName m) = Some tn -> exists k, mat_by_name names tn = Some k /\ k < n) ->
  material_morph_loop names pre v (seq (n + length e1) (length e2)) (bs ++ e1 ++ e2) =
  Some (fold_left (step names pre v) e2 bs ++ e1 ++ e2).
Proof.
  induction e2 as [|m e2 IH]; intros e1 bs L H; [reflexivity|].
  cbn [seq length material_morph_loop fold_left].
  assert (En : nth_error (bs ++ e1 ++ m :: e2) (n + length e1) = Some m).
  { rewrite nth_error_app2 by lia. rewrite nth_error_app2 by lia. replace (n + length e1 - length bs - length e1) with 0 by lia. reflexivity. }
  rewrite En.
  assert (Eq : forall b : list (material T), b ++ e1 ++ m :: e2 = b ++ (e1 ++ [m]) ++ e2) by (intro; rewrite <- !app_assoc; reflexivity).
  assert (El : S (n + length e1) = n + length (e1 ++ [m])) by (rewrite app_length; cbn; lia).
  unfold step at 2. destruct (strip_prefix pre (mtName m)) as [tn|] eqn:Es.
  - destruct (H m tn (or_introl eq_refl) Es) as [k [Ek Lk]]. rewrite Ek.
    rewrite list_upd_app1 by lia. rewrite !Eq, El. apply IH; [rewrite list_upd_length; exact L|].
    intros m' tn' I. apply H. right; exact I.
  - rewrite !Eq, El. apply IH; [exact L|]. intros m' tn' I. apply H. right; exact I.
Qed.

Lemma nodup_index bs e k m : NoDup (map mtName bs) -> nth_error bs k = Some m ->
  (forall m', In m' e -> mtName m' <> mtName m) -> mat_by_name (map mtName (bs ++ e)) (mtName m) = Some k.
Proof.
  intros ND E H. destruct (mat_by_name (map mtName (bs ++ e)) (mtName m)) as [j|] eqn:Ej.
  - destruct (last_index_some _ _ _ Ej) as [[x [Ex Px]] _]. apply String.eqb_eq in Px. subst x.
    rewrite nth_error_map in Ex. destruct (nth_error (bs ++ e) j) as [m'|] eqn:Em; [|discriminate]. injection Ex as Ex.
    destruct (Nat.lt_ge_cases j (length bs)) as [L|L].
    + rewrite nth_error_app1 in Em by exact L. f_equal. apply (proj1 (NoDup_nth_error (map mtName bs)) ND).
      * rewrite map_length; exact L.
      * rewrite !nth_error_map, E, Em. cbn. rewrite Ex. reflexivity.
    + rewrite nth_error_app2 in Em by exact L. apply nth_error_In in Em. exfalso. exact (H _ Em Ex).
  - apply mat_by_name_none in Ej. exfalso. apply Ej. apply in_map. apply in_or_app. left. eapply nth_error_In; exact E.
Qed.

Lemma in_ext bs mos m : In m (ext bs mos) -> exists mo o b, In mo mos /\ In o (moMats mo) /\
  nth_error bs (Z.to_nat (moTarget o)) = Some b /\ m = morphed ambient (moName mo) o b.
Proof.
  unfold ext. intro I. apply in_flat_map in I. destruct I as [mo [Im I]]. apply in_flat_map in I. destruct I as [o [Io I]].
  unfold made in I. destruct (nth_error bs (Z.to_nat (moTarget o))) as [b|] eqn:E; [|destruct I].
  destruct I as [<-|[]]. exists mo, o, b. auto.
Qed.

Definition upd_of v nm (b0 : list (material T)) bs (o : mmorph T) : list (material T) :=
  match nth_error b0 (Z.to_nat (moTarget o)) with
  | Some m => list_upd bs (Z.to_nat (moTarget o)) (fun t => set_mat_color t (blend v (mtColor t) (mtColor (morphed ambient nm o m))))
  | None => bs
  end.
Lemma fold_skip names pre v e : forall bs, (forall m, In m e -> strip_prefix pre (mtName m) = None) ->
  fold_left (step names pre v) e bs = bs.
Proof.
  induction e as [|m e IH]; intros bs H; [reflexivity|]. cbn. unfold step at 2. rewrite (H m (or_introl eq_refl)).
  apply IH. intros; apply H; right; assumption.
Qed.
Lemma upd_of_length v nm b0 os : forall bs, length (fold_left (upd_of v nm b0) os bs) = length bs.
Proof.
  induction os as [|o os IH]; intro bs; [reflexivity|]. cbn. rewrite IH. unfold upd_of.
  destruct (nth_error b0 _); [apply list_upd_length | reflexivity].
Qed.
Lemma upd_of_other v nm b0 os k : forall bs, (forall o, In o os -> (0 <= moTarget o)%Z /\ moTarget o <> Z.of_nat k) ->
  nth_error (fold_left (upd_of v nm b0) os bs) k = nth_error bs k.
Proof.
  induction os as [|o os IH]; intros bs H; [reflexivity|]. cbn. rewrite IH by (intros; apply H; right; assumption).
  unfold upd_of. destruct (nth_error b0 _); [|reflexivity]. rewrite list_upd_nth.
  destruct (Nat.eqb_spec k (Z.to_nat (moTarget o))) as [E|]; [|reflexivity].
  destruct (H o (or_introl eq_refl)). lia.
Qed.
Lemma upd_of_one v nm b0 os o k m : forall bs, NoDup (map moTarget os) -> (forall o, In o os -> (0 <= moTarget o)%Z) ->
  In o os -> moTarget o = Z.of_nat k -> nth_error b0 k = Some m -> nth_error bs k = Some m ->
  nth_error (fold_left (upd_of v nm b0) os bs) k =
  Some (set_mat_color m (blend v (mtColor m) (mtColor (morphed ambient nm o m)))).
Proof.
  induction os as [|o' os IH]; intros bs ND H I E E0 Eb; [destruct I|].
  cbn in ND. inversion ND as [|? ? Nin ND']; subst. cbn. destruct I as [->|I].
  - rewrite upd_of_other.
    + unfold upd_of. rewrite E, Nat2Z.id, E0. rewrite list_upd_nth, Nat.eqb_refl, Eb. reflexivity.
    + intros o2 I2. split; [apply H; right; exact I2|]. intro C. apply Nin. rewrite E, <- C. apply in_map; exact I2.
  - apply IH; try assumption; [intros; apply H; right; assumption|].
    unfold upd_of. destruct (nth_error b0 (Z.to_nat (moTarget o'))); [|exact Eb]. rewrite list_upd_nth.
    destruct (Nat.eqb_spec k (Z.to_nat (moTarget o'))) as [C|]; [|exact Eb].
    exfalso. apply Nin. assert (0 <= moTarget o')%Z by (apply H; left; reflexivity).
    replace (moTarget o') with (moTarget o) by lia. apply in_map; exact I.
Qed.

Definition plain bs : Prop := forall m s, In m bs -> mtName m <> ("$MORPH:" ++ s)%string.

Lemma morph_all bs l1 M l2 v :
  NoDup (map mtName bs) -> plain bs -> in_range (length bs) (l1 ++ M :: l2) ->
  (forall mo, In mo (l1 ++ M :: l2) -> no_colon (moName mo)) ->
  (forall mo, In mo (l1 ++ l2) -> moName mo <> moName M) ->
  apply_material_morph (add_morphs ambient bs (l1 ++ M :: l2)) (moName M) v =
  Some (fold_left (upd_of v (moName M) bs) (moMats M) bs ++ ext bs (l1 ++ M :: l2)).
Proof.
  intros ND P R NC U. rewrite add_morphs_ext by exact R. set (e := ext bs (l1 ++ M :: l2)).
  unfold apply_material_morph. set (names := map mtName (bs ++ e)). set (pre := morph_prefix (moName M)).
  assert (He : forall m, In m e -> exists s, mtName m = ("$MORPH:" ++ s)%string).
  { intros m I. apply in_ext in I. destruct I as [mo [o [b [_ [_ [_ ->]]]]]]. cbn [morphed mtName]. eexists; reflexivity. }
  assert (Hk : forall k b, nth_error bs k = Some b -> mat_by_name names (mtName b) = Some k).
  { intros k b E. apply nodup_index; [exact ND | exact E|]. intros m' I C. destruct (He m' I) as [s Es].
    apply (P b s); [eapply nth_error_In; exact E | congruence]. }
  assert (Hs : forall (mo : mmorphs T) o b, strip_prefix pre (mtName (morphed ambient (moName mo) o b)) =
      if String.eqb (moName mo) (moName M) then Some (mtName b) else strip_prefix pre (mtName (morphed ambient (moName mo) o b))).
  { intros mo o b. destruct (String.eqb_spec (moName mo) (moName M)) as [->|]; [|reflexivity].
    unfold pre, morph_prefix. cbn [morphed mtName].
    replace ("$MORPH:" ++ moName M ++ ":" ++ mtName b)%string with (("$MORPH:" ++ moName M ++ ":") ++ mtName b)%string
      by (rewrite !sapp_assoc; reflexivity). apply strip_append. }
  assert (Hn : forall mo o b, In mo (l1 ++ M :: l2) -> moName mo <> moName M ->
      strip_prefix pre (mtName (morphed ambient (moName mo) o b)) = None).
  { intros mo o b I D. destruct (strip_prefix pre _) as [tn|] eqn:Es; [|reflexivity]. exfalso. apply strip_some in Es.
    unfold pre, morph_prefix in Es. cbn [morphed mtName] in Es. rewrite sapp_assoc in Es. apply app_cancel in Es.
    rewrite sapp_assoc in Es. apply colon_split in Es; [|apply NC; exact I|apply NC; apply in_or_app; right; left; reflexivity].
    apply D. tauto. }
  rewrite app_length, seq_app, mat_loop_app.
  rewrite mat_loop_skip.
  2:{ intros j Hj. apply in_seq in Hj. destruct (nth_error bs j) as [m|] eqn:Ej; [|apply nth_error_None in Ej; lia].
      exists (mtName m). split; [rewrite nth_error_map, nth_error_app1 by lia; rewrite Ej; reflexivity|].
      destruct (strip_prefix pre (mtName m)) as [tn|] eqn:Es; [|reflexivity]. exfalso. apply strip_some in Es.
      unfold pre, morph_prefix in Es. rewrite sapp_assoc in Es. apply (P m _ (nth_error_In _ _ Ej) Es). }
  pose proof (loop_step names pre v (length bs) e [] bs eq_refl) as Q. cbn [length app] in Q. rewrite Nat.add_0_r in Q. cbn [Nat.add].
  rewrite Q; clear Q.
  2:{ intros m tn I Es. apply in_ext in I. destruct I as [mo [o [b [I1 [I2 [Eb ->]]]]]]. rewrite Hs in Es.
      destruct (String.eqb_spec (moName mo) (moName M)) as [|D]; [|rewrite Hn in Es by assumption; discriminate].
      injection Es as <-. exists (Z.to_nat (moTarget o)). split; [apply Hk; exact Eb|]. apply nth_error_Some. congruence. }
  f_equal. f_equal. unfold e, ext. rewrite flat_map_app. cbn [flat_map]. rewrite !fold_left_app.
  assert (Hskip : forall l, (forall mo, In mo l -> In mo (l1 ++ M :: l2) /\ moName mo <> moName M) -> forall b,
     fold_left (step names pre v) (flat_map (fun mo => flat_map (made bs (moName mo)) (moMats mo)) l) b = b).
  { intros l Hl b. apply fold_skip. intros m I. apply (in_ext bs l) in I. destruct I as [mo [o [b' [I1 [_ [_ ->]]]]]].
    destruct (Hl mo I1). apply Hn; assumption. }
  rewrite Hskip.
  2:{ intros mo I. split; [apply in_or_app; right; right; exact I | apply U; apply in_or_app; right; exact I]. }
  rewrite Hskip.
  2:{ intros mo I. split; [apply in_or_app; left; exact I | apply U; apply in_or_app; left; exact I]. }
  clear Hskip. generalize bs at 2 4 as b. induction (moMats M) as [|o os IH]; intro b; [reflexivity|].
  cbn [flat_map fold_left]. rewrite fold_left_app, IH. f_equal. unfold made, upd_of.
  destruct (nth_error bs (Z.to_nat (moTarget o))) as [m|] eqn:Em; [|reflexivity].
  cbn [fold_left]. unfold step. rewrite Hs, String.eqb_refl, (Hk _ _ Em). reflexivity.
Qed.
End Morph.

Lemma odd_land z : (Z.land z 1 =? 1)%Z = Z.odd z.
Proof.
  change 1%Z with (Z.ones 1) at 1. rewrite Z.land_ones by lia. change (2 ^ 1)%Z with 2%Z. rewrite Zmod_odd.
  destruct (Z.odd z); reflexivity.
Qed.
Lemma blend_color (ambient v : R) nm (o : mmorph R) (m : material R) :
  blend v (mtColor m) (mtColor (morphed ambient nm o m)) = color_at o v (mtColor m).
Proof.
  rewrite blend_between. unfold morphed, color_at, at_value. cbn [mtColor]. rewrite odd_land.
  destruct (Z.odd (moFlags o)); unfold v4add, hadamard4; cbn [qx qy qz qw nadd nmul RNum];
  match goal with |- mkV4 ?a ?b ?c ?d = mkV4 ?a' ?b' ?c' ?d' =>
    replace a with a' by ring; replace b with b' by ring; replace c with c' by ring; replace d with d' by ring end; reflexivity.
Qed.

Lemma morph_colors (ambient : R) texs (xs : list (mmat R)) l1 M l2 v ms :
  mqo_materials ambient texs xs (l1 ++ M :: l2) = Some ms ->
  NoDup (map xmName xs) -> (forall x s, In x xs -> xmName x <> ("$MORPH:" ++ s)%string) ->
  (forall mo o, In mo (l1 ++ M :: l2) -> In o (moMats mo) -> (0 <= moTarget o < Z.of_nat (length xs))%Z) ->
  (forall mo, In mo (l1 ++ M :: l2) -> no_colon (moName mo)) ->
  (forall mo, In mo (l1 ++ l2) -> moName mo <> moName M) ->
  NoDup (map moTarget (moMats M)) ->
  exists ms', apply_material_morph ms (moName M) v = Some ms' /\ length ms' = length ms /\
    (forall k x, nth_error xs k = Some x -> exists m, nth_error ms k = Some m /\ same_look texs x m /\
       (forall o, In o (moMats M) -> about o k -> nth_error ms' k = Some (set_mat_color m (color_at o v (xmColor x)))) /\
       ((forall o, In o (moMats M) -> ~ about o k) -> nth_error ms' k = Some m)) /\
    (forall k, length xs <= k -> nth_error ms' k = nth_error ms k).
Proof.
  unfold mqo_materials. intros E ND P R NC U NT. destruct (from_mmats ambient texs xs) as [bs|] eqn:Eb; [|discriminate].
  cbn in E. injection E as <-. apply from_mmats_some in Eb.
  assert (Lb : length bs = length xs) by (clear - Eb; induction Eb; cbn; congruence).
  assert (En : map mtName bs = map xmName xs).
  { clear - Eb. induction Eb as [|x m xs bs A E IH]; [reflexivity|]. cbn. rewrite IH. apply from_mmat_look in A.
    destruct A as [[-> _] _]. reflexivity. }
  assert (R' : in_range (length bs) (l1 ++ M :: l2)) by (intros mo o; rewrite Lb; apply R).
  assert (P' : plain bs).
  { intros m s I C. assert (In (mtName m) (map xmName xs)) as H by (rewrite <- En; apply in_map; exact I).
    apply in_map_iff in H. destruct H as [x [Ex Ix]]. apply (P x s Ix). congruence. }
  assert (HM : In M (l1 ++ M :: l2)) by (apply in_or_app; right; left; reflexivity).
  eexists. split; [apply morph_all; try assumption; rewrite En; exact ND|].
  rewrite add_morphs_ext by exact R'. split; [rewrite !app_length, upd_of_length; reflexivity|]. split.
  - intros k x Ex. assert (Lk : k < length xs) by (apply nth_error_Some; congruence).
    assert (Hm : exists m, nth_error bs k = Some m /\ from_mmat ambient texs x = Some m).
    { clear - Eb Ex. revert k Ex. induction Eb as [|y m ys bs A B IH]; intros [|k] Ex; cbn in *; try discriminate.
      - injection Ex as ->. eauto.
      - apply IH; exact Ex. }
    destruct Hm as [m [Em Fm]]. apply from_mmat_look in Fm. destruct Fm as [L _]. exists m.
    split; [rewrite nth_error_app1 by lia; exact Em|]. split; [exact L|].
    rewrite nth_error_app1 by (rewrite upd_of_length; lia). split.
    + intros o I [A|A]; [|specialize (R M o HM I); lia].
      rewrite (upd_of_one ambient v (moName M) bs (moMats M) o k m); try assumption.
      * destruct L as [_ [<- _]]. rewrite blend_color. reflexivity.
      * intros o' I'. apply (R M o' HM I').
    + intro H. rewrite upd_of_other; [exact Em|]. intros o I. split; [apply (R M o HM I)|].
      intro C. apply (H o I). left. exact C.
  - intros k Lk. rewrite !nth_error_app2 by (rewrite ?upd_of_length; lia). rewrite upd_of_length. reflexivity.
Qed.

(** *** The copies *)

Section Copies.
Context {T : Type} {N : Num T}.
Variable ambient : T.
Definition grows (a b : list (material T)) : Prop := exists e, b = a ++ e.
Lemma grows_refl a : grows a a.
Proof. exists []. now rewrite app_nil_r. Qed.
Lemma grows_trans a b c : grows a b -> grows b c -> grows a c.
Proof. intros [e ->] [e' ->]. exists (e ++ e'). now rewrite app_assoc. Qed.
Lemma grows_at a b k x : grows a b -> nth_error a k = Some x -> nth_error b k = Some x.
Proof. intros [e ->] H. rewrite nth_error_app1; [exact H|]. apply nth_error_Some. congruence. Qed.
Lemma add_morph_grows name ms o : grows ms (add_morph ambient name ms o).
Proof. unfold add_morph. destruct (_ <? _)%Z; [apply grows_refl|]. destruct (nth_error _ _); [eexists; reflexivity|apply grows_refl]. Qed.
Lemma inner_grows name os : forall ms, grows ms (fold_left (add_morph ambient name) os ms).
Proof. induction os as [|o os IH]; intros ms; [apply grows_refl|]. cbn [fold_left]. eapply grows_trans; [apply add_morph_grows|apply IH]. Qed.
Lemma outer_grows mos : forall ms, grows ms (fold_left (fun ms mo => fold_left (add_morph ambient (moName mo)) (moMats mo) ms) mos ms).
Proof. induction mos as [|mo mos IH]; intros ms; [apply grows_refl|]. cbn [fold_left]. eapply grows_trans; [apply inner_grows|apply IH]. Qed.
Lemma inner_copy name os o k m : In o os -> moTarget o = Z.of_nat k -> forall ms, nth_error ms k = Some m -> In (morphed ambient name o m) (fold_left (add_morph ambient name) os ms).
Proof.
  induction os as [|x os IH]; intros I E ms H; [destruct I|]. cbn [fold_left]. destruct I as [->|I].
  - destruct (inner_grows name os (add_morph ambient name ms o)) as [e ->]. apply in_or_app. left. unfold add_morph. rewrite E. destruct (Z.ltb_spec (Z.of_nat k) 0); [lia|]. rewrite Nat2Z.id, H. apply in_or_app. right. left. reflexivity.
  - apply IH; [exact I|exact E|]. eapply grows_at; [apply add_morph_grows|exact H].
Qed.
Lemma outer_copy mos mo o k m : In mo mos -> In o (moMats mo) -> moTarget o = Z.of_nat k -> forall ms, nth_error ms k = Some m -> In (morphed ambient (moName mo) o m) (add_morphs ambient ms mos).
Proof.
  unfold add_morphs. induction mos as [|x mos IH]; intros I Io E ms H; [destruct I|]. cbn [fold_left]. destruct I as [->|I].
  - match goal with |- In _ (fold_left ?f mos ?a) => destruct (outer_grows mos a) as [e ->] end. apply in_or_app. left. eapply inner_copy; eassumption.
  - apply IH; [exact I|exact Io|exact E|]. eapply grows_at; [apply inner_grows|exact H].
Qed.
Lemma morph_copies texs (xs : list (mmat T)) mos ms mo o k m : mqo_materials ambient texs xs mos = Some ms -> In mo mos -> In o (moMats mo) -> moTarget o = Z.of_nat k -> (k < length xs)%nat -> nth_error ms k = Some m ->
  exists c, In c ms /\ mtName c = ("$MORPH:" ++ moName mo ++ ":" ++ mtName m)%string /\ mtPower c = moSpecularity o /\
    mtDiffuse c = none /\ mtAmbient c = ambient /\ mtSpecular c = nzero /\
    mtEmission c = mtEmission m /\ mtTexture c = mtTexture m /\ mtBump c = mtBump m /\ mtAlpha c = mtAlpha m /\ mtDouble c = mtDouble m /\ mtShader c = mtShader m /\ mtEx2 c = mtEx2 m.
Proof.
  unfold mqo_materials. destruct (from_mmats ambient texs xs) as [l|] eqn:El; [|discriminate]. intros [= <-] Im Io Et L H.
  assert (Hl : nth_error l k = Some m).
  { destruct (outer_grows mos l) as [e He]. unfold add_morphs in H. rewrite He in H. pose proof (from_mmats_some _ _ _ _ El) as FS.
    assert (LL : length l = length xs) by (clear - El; revert l El; induction xs as [|x xs IH]; intros l E; cbn [from_mmats] in E; [injection E as <-; reflexivity|]; destruct (from_mmat ambient texs x); [|discriminate]; destruct (from_mmats ambient texs xs) as [r|]; [|discriminate]; injection E as <-; cbn [length]; f_equal; apply IH; reflexivity).
    rewrite nth_error_app1 in H by lia. exact H. }
  exists (morphed ambient (moName mo) o m). split; [eapply outer_copy; eassumption|]. repeat split.
Qed.
Lemma from_mmat_light texs (x : mmat T) m : from_mmat ambient texs x = Some m -> mtDiffuse m = none /\ mtAmbient m = ambient /\ mtSpecular m = nzero /\ mtEmission m = nzero.
Proof. unfold from_mmat. intros E. repeat match type of E with context [match ?x with _ => _ end] => destruct x eqn:?; try discriminate E end; injection E as <-; repeat split. Qed.
End Copies.
