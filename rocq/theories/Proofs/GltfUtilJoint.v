(** Proofs about [FixJointComponentType] of gltfutil. *)
From Coq Require Import List ZArith Bool Lia.
From Verif.Model Require Import Num Vec Matrix Mqo GltfUtil.
From Verif.Spec Require Import GltfUtilSpec.
From Verif.Proofs Require Import Mmd2MqoFaces Mmd2MqoProofs.
Import ListNotations.
Local Open Scope list_scope.
Local Open Scope Z_scope.

Lemma widen_length l : length (widen l) = (2 * length l)%nat.
Proof. induction l as [|b l IH]; [reflexivity|]. cbn [widen flat_map app length]. fold (widen l). rewrite IH. lia. Qed.
Lemma widen_even l : forall i, nth_error (widen l) (2 * i) = nth_error l i.
Proof.
  induction l as [|b l IH]; intros i; [destruct i; reflexivity|]. destruct i as [|i]; [reflexivity|].
  replace (2 * S i)%nat with (S (S (2 * i))) by lia. cbn [widen flat_map app nth_error]. apply IH.
Qed.
Lemma widen_odd l : forall i, (i < length l)%nat -> nth_error (widen l) (2 * i + 1) = Some 0.
Proof.
  induction l as [|b l IH]; intros i H; [inversion H|]. destruct i as [|i]; [reflexivity|].
  replace (2 * S i + 1)%nat with (S (S (2 * i + 1))) by lia. cbn [widen flat_map app nth_error]. apply IH. cbn [length] in H. lia.
Qed.
Lemma nth_skipn {A} (l : list A) : forall k i, nth_error (skipn k l) i = nth_error l (k + i).
Proof. induction l as [|x l IH]; intros [|k] i; try reflexivity; [destruct i; reflexivity|]. cbn [skipn Nat.add nth_error]. apply IH. Qed.
Lemma nth_firstn {A} (l : list A) : forall k i, (i < k)%nat -> nth_error (firstn k l) i = nth_error l i.
Proof. induction l as [|x l IH]; intros [|k] [|i] H; try reflexivity; try lia. cbn [firstn nth_error]. apply IH. lia. Qed.

Lemma slice_spec data off len src : slice data off len = Some src ->
  0 <= off /\ 0 <= len /\ off + len <= Z.of_nat (length data) /\ length src = Z.to_nat len /\
  forall i, 0 <= i < len -> nth_error src (Z.to_nat i) = nth_error data (Z.to_nat (off + i)).
Proof.
  unfold slice. destruct (_ && _) eqn:E; [|discriminate]. intros H. injection H as <-. apply andb_true_iff in E as (E & E3). apply andb_true_iff in E as (E1 & E2).
  apply Z.leb_le in E1, E2, E3. repeat split; try assumption.
  - rewrite firstn_length, skipn_length. lia.
  - intros i Hi. rewrite nth_firstn by lia. rewrite nth_skipn. f_equal. lia.
Qed.
Lemma slice_total data off len : 0 <= off -> 0 <= len -> off + len <= Z.of_nat (length data) -> exists src, slice data off len = Some src.
Proof. intros A B C. unfold slice. apply Z.leb_le in A, B, C. rewrite A, B, C. eexists. reflexivity. Qed.

(** What has happened when the views [seen] are converted. *)
Definition view_now (seen : list nat) (d0 d : jdoc) (v : nat) (bv0 bv : bview) : Prop :=
  bvBuf bv = bvBuf bv0 /\
  (~ In v seen -> bv = bv0) /\
  (In v seen -> exists data0 data src, nth_error (jdBufs d0) (bvBuf bv0) = Some data0 /\ nth_error (jdBufs d) (bvBuf bv0) = Some data /\
     slice data0 (bvOff bv0) (bvLen bv0) = Some src /\ bvLen bv = 2 * bvLen bv0 /\ bvStride bv = 2 * bvStride bv0 /\
     slice data (bvOff bv) (bvLen bv) = Some (widen src)).
Definition state (all done seen : list nat) (d0 d : jdoc) : Prop :=
  length (jdAccs d) = length (jdAccs d0) /\
  (forall a x0, nth_error (jdAccs d0) a = Some x0 -> exists x, nth_error (jdAccs d) a = Some x /\ jaView x = jaView x0 /\ jaOff x = jaOff x0 /\
     (jaType x0 = 2 -> In a done -> jaType x = 4 /\ forall v, jaView x0 = Some v -> In v seen) /\ (jaType x0 = 2 -> ~ In a done -> jaType x = 2) /\ (jaType x0 <> 2 -> jaType x = jaType x0)) /\
  length (jdViews d) = length (jdViews d0) /\
  (forall v bv0, nth_error (jdViews d0) v = Some bv0 -> exists bv, nth_error (jdViews d) v = Some bv /\ view_now seen d0 d v bv0 bv) /\
  length (jdBufs d) = length (jdBufs d0) /\
  (forall b data0, nth_error (jdBufs d0) b = Some data0 -> exists more, nth_error (jdBufs d) b = Some (data0 ++ more)) /\
  (forall v, In v seen -> byte_view all d0 v).

Lemma nth_app_l {A} (l m : list A) i x : nth_error l i = Some x -> nth_error (l ++ m) i = Some x.
Proof. intros H. rewrite nth_error_app1; [exact H|]. apply nth_error_Some. congruence. Qed.
Lemma slice_app data more off len src : slice data off len = Some src -> slice (data ++ more) off len = Some src.
Proof.
  intros H. destruct (slice_spec _ _ _ _ H) as (A & B & C & L & V). destruct (slice_total (data ++ more) off len A B) as (s & Hs); [rewrite app_length; lia|].
  rewrite Hs. f_equal. destruct (slice_spec _ _ _ _ Hs) as (_ & _ & _ & L' & V'). apply nth_error_ext. intros i. destruct (lt_dec i (Z.to_nat len)) as [Hi|Hi].
  - specialize (V (Z.of_nat i) ltac:(lia)). specialize (V' (Z.of_nat i) ltac:(lia)). rewrite Nat2Z.id in V, V'. rewrite V, V'. rewrite nth_error_app1 by lia. reflexivity.
  - rewrite !(proj2 (nth_error_None _ _)) by lia. reflexivity.
Qed.
Lemma slice_end data w : slice (data ++ w) (Z.of_nat (length data)) (Z.of_nat (length w)) = Some w.
Proof.
  unfold slice. rewrite app_length. replace (0 <=? _) with true by (symmetry; apply Z.leb_le; lia). replace (0 <=? _) with true by (symmetry; apply Z.leb_le; lia).
  replace (_ <=? _) with true by (symmetry; apply Z.leb_le; lia). cbn [andb]. rewrite !Nat2Z.id, skipn_app, skipn_all, Nat.sub_diag. cbn [skipn app]. rewrite firstn_all. reflexivity.
Qed.

Lemma step_state all done seen d0 d a seen1 d1 : In a all -> views_ok d0 -> state all done seen d0 d -> fix_attr a seen d = Some (seen1, d1) -> state all (a :: done) seen1 d0 d1.
Proof.
  intros Ha VO ST H. unfold fix_attr in H. destruct ST as (LA & SA & LV & SV & LB & SB & SS).
  destruct (nth_error (jdAccs d) a) as [acc|] eqn:Ea; [|discriminate].
  assert (exists x0, nth_error (jdAccs d0) a = Some x0) as (x0 & Ex0).
  { destruct (nth_error (jdAccs d0) a) eqn:E; [eauto|]. apply nth_error_None in E. rewrite <- LA in E. apply nth_error_None in E. congruence. }
  destruct (SA a x0 Ex0) as (x & Ex & X1 & X2 & X3 & X4 & X5). rewrite Ea in Ex. injection Ex as <-.
  destruct (Z.eqb_spec (jaType acc) 2) as [E2|E2]; cbn [negb] in H.
  2:{ injection H as <- <-. split; [exact LA|]. split; [|split; [exact LV|split; [exact SV|split; [exact LB|split; [exact SB|exact SS]]]]].
      intros b y0 Hy. destruct (SA b y0 Hy) as (y & Ey & Y1 & Y2 & Y3 & Y4 & Y5). exists y. split; [exact Ey|]. split; [exact Y1|]. split; [exact Y2|]. split; [|split].
      - intros T2 [<-|Hd]; [|apply (Y3 T2 Hd)]. rewrite Ea in Ey. injection Ey as <-. destruct (in_dec Nat.eq_dec a done) as [Hd|Hd]; [apply (Y3 T2 Hd)|]. contradiction (E2 (Y4 T2 Hd)).
      - intros T2 Hd. apply Y4; [exact T2|]. intros Hd'. apply Hd. right. exact Hd'.
      - exact Y5. }
  assert (T0 : jaType x0 = 2). { destruct (Z.eq_dec (jaType x0) 2) as [T0|T0]; [exact T0|]. rewrite (X5 T0) in E2. contradiction. }
  destruct (jaView acc) as [v|] eqn:Ev; [|discriminate]. destruct (nth_error (jdViews d) v) as [bv|] eqn:Ebv; [|discriminate].
  destruct (nth_error (jdBufs d) (bvBuf bv)) as [data|] eqn:Ed; [|discriminate]. symmetry in X1.
  assert (Hla : (a < length (jdAccs d))%nat) by (apply nth_error_Some; congruence).
  assert (ACC : forall seen2, (forall w, In w seen -> In w seen2) -> In v seen2 -> forall b y0, nth_error (jdAccs d0) b = Some y0 -> exists y, nth_error (list_set (jdAccs d) a (mkJA (Some v) (jaOff acc) 4)) b = Some y /\
     jaView y = jaView y0 /\ jaOff y = jaOff y0 /\ (jaType y0 = 2 -> In b (a :: done) -> jaType y = 4 /\ forall w, jaView y0 = Some w -> In w seen2) /\
     (jaType y0 = 2 -> ~ In b (a :: done) -> jaType y = 2) /\ (jaType y0 <> 2 -> jaType y = jaType y0)).
  { intros seen2 Hinc Hv b y0 Hy. rewrite (list_set_nth _ _ _ _ Hla). destruct (Nat.eqb_spec b a) as [->|Hne].
    - rewrite Ex0 in Hy. injection Hy as <-. eexists. split; [reflexivity|]. cbn [jaView jaOff jaType]. split; [congruence|]. split; [exact X2|]. split; [|split].
      + intros _ _. split; [reflexivity|]. intros w Hw. replace w with v by congruence. exact Hv.
      + intros _ Hn. contradiction Hn. left. reflexivity.
      + intros Hn. contradiction.
    - destruct (SA b y0 Hy) as (y & Ey & Y1 & Y2 & Y3 & Y4 & Y5). exists y. split; [exact Ey|]. split; [exact Y1|]. split; [exact Y2|]. split; [|split].
      + intros T2 [Hd|Hd]; [congruence|]. destruct (Y3 T2 Hd) as (F1 & F2). split; [exact F1|]. intros w Hw. apply Hinc, F2, Hw.
      + intros T2 Hd. apply Y4; [exact T2|]. intros Hd'. apply Hd. right. exact Hd'.
      + exact Y5. }
  destruct (existsb (Nat.eqb v) seen) eqn:Es.
  - apply existsb_exists in Es as (w & Hw & Ew). apply Nat.eqb_eq in Ew as <-. injection H as <- <-. unfold state. cbn [jdAccs jdViews jdBufs]. rewrite list_set_length.
    split; [exact LA|]. split; [apply ACC; [auto|exact Hw]|]. split; [exact LV|]. split; [exact SV|]. split; [exact LB|]. split; [exact SB|exact SS].
  - assert (Hnv : ~ In v seen). { intros Hin. assert (existsb (Nat.eqb v) seen = true) by (apply existsb_exists; exists v; split; [exact Hin|apply Nat.eqb_refl]). congruence. }
    destruct (slice data (bvOff bv) (bvLen bv)) as [src|] eqn:Esl; [|discriminate]. injection H as <- <-. unfold state. cbn [jdAccs jdViews jdBufs]. rewrite !list_set_length.
    assert (Hlv : (v < length (jdViews d))%nat) by (apply nth_error_Some; congruence).
    assert (Hlb : (bvBuf bv < length (jdBufs d))%nat) by (apply nth_error_Some; congruence).
    split; [exact LA|]. split; [apply ACC; [intros; right; assumption|left; reflexivity]|]. split; [exact LV|].
    split; [|split; [exact LB|split]].
    + intros w bw0 Hw. destruct (SV w bw0 Hw) as (bw & Ebw & B1 & B2 & B3). rewrite (list_set_nth _ _ _ _ Hlv). destruct (Nat.eqb_spec w v) as [->|Hne].
      * rewrite Ebv in Ebw. injection Ebw as <-. pose proof (B2 Hnv) as ->. clear B2 B3. eexists. split; [reflexivity|]. split; [reflexivity|]. split; [intros Hn; contradiction Hn; left; reflexivity|].
        intros _. destruct VO as (_ & VO). rewrite Forall_forall in VO. destruct (VO bw0 (nth_error_In _ _ Hw)) as (data0 & Ed0 & R1 & R2 & R3).
        destruct (SB _ _ Ed0) as (more & Em). rewrite Ed in Em. injection Em as ->. destruct (slice_total data0 _ _ R1 R2 R3) as (src0 & Es0).
        pose proof (slice_app _ more _ _ _ Es0) as Es1. rewrite Esl in Es1. injection Es1 as ->. cbn [jdBufs bvOff bvLen bvStride].
        exists data0, ((data0 ++ more) ++ widen src0), src0. split; [exact Ed0|]. split; [rewrite (list_set_nth _ _ _ _ Hlb), Nat.eqb_refl; reflexivity|]. split; [exact Es0|].
        split; [lia|]. split; [lia|]. destruct (slice_spec _ _ _ _ Es0) as (_ & _ & _ & L0 & _). replace (bvLen bw0 * 2) with (Z.of_nat (length (widen src0))) by (rewrite widen_length, L0; lia).
        apply slice_end.
      * exists bw. split; [exact Ebw|]. split; [exact B1|]. split.
        -- intros Hn. apply B2. intros Hin. apply Hn. right. exact Hin.
        -- intros [Hin|Hin]; [congruence|]. destruct (B3 Hin) as (data0 & data1 & s & C1 & C2 & C3 & C4 & C5 & C6). cbn [jdBufs].
           rewrite (list_set_nth _ _ _ _ Hlb). destruct (Nat.eqb_spec (bvBuf bw0) (bvBuf bv)) as [Eb|Eb].
           ++ exists data0, (data ++ widen src), s. split; [exact C1|]. split; [reflexivity|]. split; [exact C3|]. split; [exact C4|]. split; [exact C5|]. rewrite <- Eb, C2 in Ed. injection Ed as <-. apply slice_app, C6.
           ++ exists data0, data1, s. repeat split; assumption.
    + intros b data0 Hb. destruct (SB b data0 Hb) as (more & Em). rewrite (list_set_nth _ _ _ _ Hlb). destruct (Nat.eqb_spec b (bvBuf bv)) as [->|_]; [|eauto].
      rewrite Ed in Em. injection Em as ->. exists (more ++ widen src). rewrite app_assoc. reflexivity.
    + intros w [<-|Hw]; [|apply SS, Hw]. exists a, x0. split; [exact Ha|]. split; [exact Ex0|]. split; [exact T0|congruence].
Qed.

Lemma steps_state all attrs : forall done seen d0 d d1, incl attrs all -> views_ok d0 -> state all done seen d0 d -> fix_attrs attrs seen d = Some d1 -> exists done1 seen1, state all done1 seen1 d0 d1 /\ incl attrs done1 /\ incl done done1.
Proof.
  induction attrs as [|a r IH]; intros done seen d0 d d1 I VO ST H; cbn [fix_attrs] in H.
  - injection H as <-. exists done, seen. split; [exact ST|]. split; [intros x []|apply incl_refl].
  - destruct (fix_attr a seen d) as [[seen1 d2]|] eqn:E; [|discriminate].
    pose proof (step_state _ _ _ _ _ _ _ _ (I a (or_introl eq_refl)) VO ST E) as ST1.
    destruct (IH (a :: done) seen1 d0 d2 d1) as (done1 & seen2 & ST2 & I1 & I2); try assumption.
    { intros x Hx. apply I. right. exact Hx. }
    exists done1, seen2. split; [exact ST2|]. split.
    + intros x [<-|Hx]; [apply I2; left; reflexivity|apply I1, Hx].
    + intros x Hx. apply I2. right. exact Hx.
Qed.
Lemma init_state all d : views_ok d -> state all [] [] d d.
Proof.
  intros VO. split; [reflexivity|]. split; [|split; [reflexivity|split; [|split; [reflexivity|split]]]].
  - intros a x Hx. exists x. split; [exact Hx|]. split; [reflexivity|]. split; [reflexivity|]. split; [intros _ []|]. split; [auto|auto].
  - intros v bv Hb. exists bv. split; [exact Hb|]. split; [reflexivity|]. split; [reflexivity|intros []].
  - intros b data Hb. exists []. rewrite app_nil_r. exact Hb.
  - intros v [].
Qed.

Lemma byte_app (data more : list Z) i x : (if i <? 0 then None else nth_error data (Z.to_nat i)) = Some x -> (if i <? 0 then None else nth_error (data ++ more) (Z.to_nat i)) = Some x.
Proof. destruct (i <? 0); [discriminate|]. apply nth_app_l. Qed.

(** Accessors elsewhere keep their values. *)
Theorem fix_others attrs d d' : views_ok d -> fix_joint_type attrs d = Some d' -> forall a acc v, nth_error (jdAccs d) a = Some acc -> jaView acc = Some v -> ~ byte_view attrs d v ->
  nth_error (jdAccs d') a = Some acc /\ forall k c x, joint_at d a k c = Some x -> joint_at d' a k c = Some x.
Proof.
  intros VO H a acc v Ea Ev NB. destruct (steps_state attrs attrs [] [] d d d' (incl_refl _) VO (init_state _ _ VO) H) as (done & seen & ST & I & _).
  destruct ST as (LA & SA & LV & SV & LB & SB & SS). destruct (SA a acc Ea) as (x & Ex & X1 & X2 & X3 & X4 & X5).
  assert (Hx : x = acc).
  { assert (jaType x = jaType acc). { destruct (Z.eq_dec (jaType acc) 2) as [T|T]; [|apply X5, T]. destruct (in_dec Nat.eq_dec a done) as [Hd|Hd]; [|rewrite (X4 T Hd); congruence].
      exfalso. apply NB, SS. apply (X3 T Hd). exact Ev. }
    destruct x, acc. cbn in *. congruence. }
  subst x. split; [exact Ex|]. intros k c y. unfold joint_at. rewrite Ea, Ex, Ev. destruct (nth_error (jdViews d) v) as [bv0|] eqn:Ebv; [|discriminate].
  destruct (SV v bv0 Ebv) as (bv & Ebv' & B1 & B2 & _). rewrite Ebv'. rewrite (B2 (fun Hs => NB (SS v Hs))). destruct (nth_error (jdBufs d) (bvBuf bv0)) as [data|] eqn:Ed; [|discriminate].
  destruct (SB _ _ Ed) as (more & ->). cbv zeta. destruct (jaType acc =? 4).
  - intros E. match type of E with match ?p with _ => _ end = _ => destruct p as [lo|] eqn:E1; [|discriminate] end. match type of E with match ?p with _ => _ end = _ => destruct p as [hi|] eqn:E3; [|discriminate] end.
    rewrite (byte_app _ more _ _ E1), (byte_app _ more _ _ E3). exact E.
  - apply byte_app.
Qed.

Theorem fix_keeps attrs d d' : views_ok d -> own_views attrs d -> fix_joint_type attrs d = Some d' ->
  forall a acc v bv, In a attrs -> nth_error (jdAccs d) a = Some acc -> jaType acc = 2 -> jaView acc = Some v -> nth_error (jdViews d) v = Some bv ->
  (exists acc', nth_error (jdAccs d') a = Some acc' /\ jaType acc' = 4) /\ forall k c, in_view bv k c -> exists x, joint_at d a k c = Some x /\ joint_at d' a k c = Some x.
Proof.
  intros VO OV H a acc v bv0 Ha Ea T Ev Ebv. destruct (steps_state attrs attrs [] [] d d d' (incl_refl _) VO (init_state _ _ VO) H) as (done & seen & ST & I & _).
  destruct ST as (LA & SA & LV & SV & LB & SB & SS). destruct (SA a acc Ea) as (x & Ex & X1 & X2 & X3 & X4 & X5). destruct (X3 T (I a Ha)) as (T4 & Hs). split; [eauto|].
  assert (Hv : byte_view attrs d v) by (exists a, acc; auto). destruct (OV a acc v Ea Ev Hv) as (_ & _ & Off). intros k c (K1 & K2 & K3 & K4).
  destruct (SV v bv0 Ebv) as (bv & Ebv' & B1 & _ & B3). destruct (B3 (Hs v Ev)) as (data0 & data & src & D0 & D1 & S0 & L1 & L2 & S1).
  destruct (slice_spec _ _ _ _ S0) as (P1 & P2 & P3 & P4 & P5). destruct (slice_spec _ _ _ _ S1) as (Q1 & Q2 & Q3 & Q4 & Q5).
  set (st := if bvStride bv0 =? 0 then 4 else bvStride bv0) in *. set (i := k * st + c) in *.
  assert (Hst : 0 <= st) by (unfold st; destruct (bvStride bv0 =? 0); lia). assert (Hi : 0 <= i < bvLen bv0) by (unfold i; nia).
  assert (exists b, nth_error src (Z.to_nat i) = Some b) as (b & Eb). { destruct (nth_error src (Z.to_nat i)) eqn:E; [eauto|]. apply nth_error_None in E. lia. }
  exists b. unfold joint_at. rewrite Ea, Ex, X1, Ev, Ebv, Ebv', B1, D0, D1, T, T4, X2, Off. cbn [Z.eqb Pos.eqb]. cbv zeta. split.
  - replace (bvOff bv0 + 0 + k * (if bvStride bv0 =? 0 then 4 * 1 else bvStride bv0) + c * 1) with (bvOff bv0 + i) by (unfold i, st; destruct (bvStride bv0 =? 0); lia).
    destruct (Z.ltb_spec (bvOff bv0 + i) 0); [lia|]. rewrite <- P5 by lia. exact Eb.
  - rewrite L2. replace (bvOff bv + 0 + k * (if 2 * bvStride bv0 =? 0 then 4 * 2 else 2 * bvStride bv0) + c * 2) with (bvOff bv + 2 * i).
    2:{ unfold i, st. destruct (Z.eqb_spec (bvStride bv0) 0), (Z.eqb_spec (2 * bvStride bv0) 0); lia. }
    destruct (Z.ltb_spec (bvOff bv + 2 * i) 0); [lia|]. destruct (Z.ltb_spec (bvOff bv + 2 * i + 1) 0); [lia|]. rewrite <- Q5 by lia. rewrite <- Z.add_assoc, <- Q5 by lia.
    replace (Z.to_nat (2 * i)) with (2 * Z.to_nat i)%nat by lia. replace (Z.to_nat (2 * i + 1)) with (2 * Z.to_nat i + 1)%nat by lia.
    rewrite widen_even, Eb, widen_odd by lia. f_equal. lia.
Qed.

Lemma step_total all done seen d0 d a : In a all -> views_ok d0 -> state all done seen d0 d -> (a < length (jdAccs d0))%nat -> exists r, fix_attr a seen d = Some r.
Proof.
  intros Ha VO ST La. destruct ST as (LA & SA & LV & SV & LB & SB & SS). destruct (nth_error (jdAccs d0) a) as [x0|] eqn:E0; [|apply nth_error_None in E0; lia].
  destruct (SA a x0 E0) as (x & Ex & X1 & X2 & X3 & X4 & X5). unfold fix_attr. rewrite Ex. destruct (Z.eqb_spec (jaType x) 2) as [T|T]; cbn [negb]; [|eauto].
  assert (T0 : jaType x0 = 2). { destruct (Z.eq_dec (jaType x0) 2) as [T0|T0]; [exact T0|]. rewrite (X5 T0) in T. contradiction. }
  destruct VO as (VA & VV). rewrite Forall_forall in VA, VV. pose proof (VA x0 (nth_error_In _ _ E0)) as HV. rewrite X1. destruct (jaView x0) as [v|]; [|contradiction].
  destruct (nth_error (jdViews d0) v) as [bv0|] eqn:Ebv; [|apply nth_error_None in Ebv; lia]. destruct (SV v bv0 Ebv) as (bv & Ebv' & B1 & B2 & B3). rewrite Ebv', B1.
  destruct (VV bv0 (nth_error_In _ _ Ebv)) as (data0 & Ed & R1 & R2 & R3). destruct (SB _ _ Ed) as (more & ->). destruct (existsb (Nat.eqb v) seen) eqn:Es; [eauto|].
  assert (Hnv : ~ In v seen). { intros Hin. assert (existsb (Nat.eqb v) seen = true) by (apply existsb_exists; exists v; split; [exact Hin|apply Nat.eqb_refl]). congruence. }
  rewrite (B2 Hnv). destruct (slice_total (data0 ++ more) (bvOff bv0) (bvLen bv0) R1 R2) as (s & ->); [rewrite app_length; lia|eauto].
Qed.
Theorem fix_total attrs d : views_ok d -> Forall (fun a => (a < length (jdAccs d))%nat) attrs -> exists d', fix_joint_type attrs d = Some d'.
Proof.
  intros VO F. unfold fix_joint_type. assert (G : forall r done seen d1, incl r attrs -> state attrs done seen d d1 -> exists d', fix_attrs r seen d1 = Some d').
  { induction r as [|a r IH]; intros done seen d1 I ST; [eexists; reflexivity|]. cbn [fix_attrs]. rewrite Forall_forall in F.
    destruct (step_total attrs done seen d d1 a (I a (or_introl eq_refl)) VO ST (F a (I a (or_introl eq_refl)))) as ((s1 & d2) & E). rewrite E.
    apply (IH (a :: done)); [intros x Hx; apply I; right; exact Hx|]. eapply step_state; eauto. apply I. left. reflexivity. }
  apply (G attrs [] [] d (incl_refl _) (init_state _ _ VO)).
Qed.
