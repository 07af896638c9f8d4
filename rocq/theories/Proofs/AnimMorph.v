(** Morph channels of exported animations (C86). *)
From Coq Require Import String List ZArith Reals Lra Lia Bool.
From Verif.Model Require Import Num NumR Vec MqoDoc GlbAnim.
From Verif.Spec Require Import GeomSpec AnimSpec.
From Verif.Proofs Require Import MatrixLemmas Mqo2MmdProofs AnimProofs BoneTurnSums.
Import ListNotations.

Lemma combine_seq_in {A} (l : list A) i x : In (i, x) (combine (seq 0 (length l)) l) <-> nth_error l i = Some x.
Proof.
  split.
  - intros H. apply In_nth_error in H as [k H]. pose proof (index_list_nth l k) as E. unfold MqoTransform.index_list in E. rewrite E in H. destruct (nth_error l k) eqn:Ek; [|discriminate]. injection H as -> ->. exact Ek.
  - intros H. apply (nth_error_In _ i). pose proof (index_list_nth l i) as E. unfold MqoTransform.index_list in E. rewrite E, H. reflexivity.
Qed.
Lemma all_targets_in nodes name n ti size : In (name, (n, ti, size)) (all_targets nodes) <-> has_target nodes name n ti size.
Proof.
  unfold all_targets, has_target. rewrite in_flat_map. split.
  - intros ([k o] & H1 & H2). apply combine_seq_in in H1. cbn [fst snd] in H2. destruct o as [names|]; [|destruct H2]. apply in_map_iff in H2 as ([i x] & E & H2). apply combine_seq_in in H2. cbn [fst snd] in E. injection E as -> -> -> <-. exists names. auto.
  - intros (names & H1 & H2 & ->). exists (n, Some names). split; [apply combine_seq_in; exact H1|]. cbn [fst snd]. apply in_map_iff. exists (ti, name). split; [reflexivity|apply combine_seq_in; exact H2].
Qed.
Lemma target_of_some nodes name n ti size : target_of nodes name = Some (n, ti, size) -> has_target nodes name n ti size.
Proof.
  unfold target_of. destruct (last_index _ _) as [i|] eqn:E; [|discriminate]. apply last_index_Some in E as (a & [nm x] & r & E & <- & Q & _). rewrite E at 1. rewrite nth_error_app2, Nat.sub_diag by lia. cbn. intros H. injection H as ->.
  apply String.eqb_eq in Q. cbn in Q. subst nm. apply all_targets_in. rewrite E. apply in_elt.
Qed.
Lemma target_of_none nodes name : target_of nodes name = None -> forall n ti s, ~ has_target nodes name n ti s.
Proof.
  unfold target_of. destruct (last_index _ _) as [i|] eqn:E.
  - apply last_index_Some in E as (a & x & r & E & <- & _ & _). rewrite E at 1. rewrite nth_error_app2, Nat.sub_diag by lia. discriminate.
  - intros _ n ti s H. apply last_index_None in E. rewrite Forall_forall in E. apply all_targets_in in H. specialize (E _ H). cbn in E. rewrite String.eqb_refl in E. discriminate.
Qed.
Lemma target_of_unique nodes name n ti size : unique_targets nodes -> has_target nodes name n ti size -> target_of nodes name = Some (n, ti, size).
Proof.
  intros U H. destruct (target_of nodes name) as [[[n' ti'] s']|] eqn:E; [|exfalso; exact (target_of_none _ _ E _ _ _ H)]. apply target_of_some in E. destruct (U _ _ _ _ _ _ _ H E) as [<- <-].
  destruct H as (l & H1 & _ & ->), E as (l' & H1' & _ & ->). rewrite H1 in H1'. injection H1' as ->. reflexivity.
Qed.
Lemma on_node_iff nodes n m : unique_targets nodes -> (on_node nodes n m = true <-> exists ti s, has_target nodes (mcTarget m) n ti s).
Proof.
  intros U. unfold on_node. split.
  - destruct (target_of nodes (mcTarget m)) as [[[k ti] s]|] eqn:E; [|discriminate]. intros H. apply Nat.eqb_eq in H. subst k. exists ti, s. apply target_of_some. exact E.
  - intros (ti & s & H). rewrite (target_of_unique _ _ _ _ _ U H). apply Nat.eqb_refl.
Qed.

Definition put1 (k : nat) (x : Z) (t : list Z) : list Z := firstn k t ++ x :: skipn (S k) t.
Lemma put1_length k x t : (k < length t)%nat -> length (put1 k x t) = length t.
Proof. intros H. unfold put1. rewrite app_length, firstn_length. cbn [length]. rewrite skipn_length. lia. Qed.
Lemma put1_same k x t : (k < length t)%nat -> nth_error (put1 k x t) k = Some x.
Proof. intros H. unfold put1. rewrite nth_error_app2; rewrite firstn_length; [|lia]. replace (k - Nat.min k (length t))%nat with 0%nat by lia. reflexivity. Qed.
Lemma put1_other k x t j : (k < length t)%nat -> j <> k -> nth_error (put1 k x t) j = nth_error t j.
Proof.
  revert t j. induction k as [|k IH]; intros [|y t] j L Ne; cbn in L; try lia; unfold put1 in *; cbn [firstn skipn app].
  - destruct j; [lia|]. reflexivity.
  - destruct j; [reflexivity|]. cbn [nth_error]. apply IH; lia.
Qed.
Lemma cell_unique size f i g j : (i < size)%nat -> (j < size)%nat -> (f * size + i = g * size + j)%nat -> f = g /\ i = j.
Proof. intros Hi Hj E. assert (f = g) by (destruct (Nat.lt_trichotomy f g) as [H|[H|H]]; [exfalso|exact H|exfalso]; nia). subst. lia. Qed.
Definition byte_of (v : R) : Z := to_u8 (v * 255).
Lemma put_weights_ok size ti count : (ti < size)%nat -> forall ws f t, (f + length ws <= count)%nat -> length t = (size * count)%nat -> exists t', put_weights size ti f ws t = Some t' /\ length t' = (size * count)%nat /\
  (forall k v, nth_error ws k = Some v -> nth_error t' ((f + k) * size + ti) = Some (byte_of v)) /\
  (forall g i, (g < count)%nat -> (i < size)%nat -> (i <> ti \/ (g < f)%nat) -> nth_error t' (g * size + i) = nth_error t (g * size + i)).
Proof.
  intros Ht. induction ws as [|v ws IH]; intros f t L Lt; cbn [put_weights].
  - exists t. split; [reflexivity|]. split; [exact Lt|]. split; [intros [|k] v; discriminate|reflexivity].
  - cbn [length] in L. assert (B : (f * size + ti < length t)%nat) by nia. rewrite (proj2 (Nat.ltb_lt _ _) B). fold (put1 (f * size + ti) (to_u8 (v * 255)) t). fold (byte_of v).
    destruct (IH (S f) (put1 (f * size + ti) (byte_of v) t)) as (t' & E & L' & A & O); [lia|rewrite put1_length; assumption|]. exists t'. split; [exact E|]. split; [exact L'|]. split.
    + intros [|k] w Hk; cbn in Hk.
      * injection Hk as <-. rewrite Nat.add_0_r, O; [apply put1_same; exact B|lia|exact Ht|right; lia].
      * replace (f + S k)%nat with (S f + k)%nat by lia. apply A. exact Hk.
    + intros g i Hg Hi Hd. rewrite O; [|exact Hg|exact Hi|destruct Hd; [left; assumption|right; lia]]. apply put1_other; [exact B|]. intros Eq. apply cell_unique in Eq; [|exact Hi|exact Ht]. lia.
Qed.
Lemma put_all_ok nodes n size count : unique_targets nodes -> forall mm t, NoDup (map mcTarget mm) -> length t = (size * count)%nat ->
  Forall (fun m => length (mcFrames m) = count /\ length (mcWeights m) = count /\ exists ti, has_target nodes (mcTarget m) n ti size) mm ->
  exists t', put_all nodes count size mm t = Some t' /\ length t' = (size * count)%nat /\
  (forall m ti f v, In m mm -> has_target nodes (mcTarget m) n ti size -> nth_error (mcWeights m) f = Some v -> nth_error t' (f * size + ti) = Some (byte_of v)) /\
  (forall g i, (g < count)%nat -> (i < size)%nat -> (forall m, In m mm -> ~ has_target nodes (mcTarget m) n i size) -> nth_error t' (g * size + i) = nth_error t (g * size + i)).
Proof.
  intros U. induction mm as [|m mm IH]; intros t N Lt F; cbn [put_all].
  - exists t. split; [reflexivity|]. split; [exact Lt|]. split; [intros m ti f v []|reflexivity].
  - inversion F as [|? ? (L1 & L2 & ti & Hti) F2]; subst. inversion N as [|? ? N1 N2]; subst. rewrite Nat.eqb_refl, (target_of_unique _ _ _ _ _ U Hti).
    assert (Bt : (ti < size)%nat) by (destruct Hti as (l & _ & H & ->); apply nth_error_Some; congruence).
    destruct (put_weights_ok size ti (length (mcFrames m)) Bt (mcWeights m) 0 t) as (t1 & E1 & Len1 & A1 & O1); [lia|exact Lt|]. rewrite E1.
    destruct (IH t1 N2 Len1 F2) as (t2 & E2 & Len2 & A2 & O2). exists t2. split; [exact E2|]. split; [exact Len2|]. split.
    + intros m' ti' f v [<-|Hm] Ht Hv.
      * destruct (U _ _ _ _ _ _ _ Hti Ht) as [_ <-]. assert (Bf : (f < length (mcFrames m))%nat) by (rewrite <- L2; apply nth_error_Some; congruence).
        rewrite O2; [apply (A1 f v Hv)|exact Bf|exact Bt|]. intros m' Hm Ht'. apply N1. assert (E : mcTarget m' = mcTarget m).
        { destruct Ht' as (l & H1 & H2 & _), Ht as (l' & H1' & H2' & _). rewrite H1 in H1'. injection H1' as ->. congruence. }
        rewrite <- E. apply in_map. exact Hm.
      * exact (A2 m' ti' f v Hm Ht Hv).
    + intros g i Hg Hi Hn. rewrite O2; [|exact Hg|exact Hi|intros m' Hm; apply Hn; right; exact Hm]. apply O1; [exact Hg|exact Hi|]. left. intros ->. apply (Hn m (or_introl eq_refl) Hti).
Qed.
Lemma to_u8_range v : (0 <= to_u8 v <= 255)%Z.
Proof. unfold to_u8. pose proof (Z.mod_pos_bound (if Rltb v 0 then - Int_part (- v) else Int_part v)%Z 256 ltac:(lia)). lia. Qed.
Lemma byte_ok v : is_byte v (byte_of v).
Proof.
  split; [apply to_u8_range|]. intros [H0 H1]. unfold byte_of, to_u8. assert (Q : Rltb (v * 255) 0 = false) by (apply Rltb_false; lra). rewrite Q. destruct (base_Int_part (v * 255)) as [A B].
  assert (Z1 : (Int_part (v * 255) < 256)%Z) by (apply lt_IZR; lra). assert (Z0 : (-1 < Int_part (v * 255))%Z) by (apply lt_IZR; lra). rewrite Z.mod_small by lia. lra.
Qed.
Lemma morph_node_ok nodes morphs n s es : unique_targets nodes -> NoDup (map mcTarget morphs) -> same_keys nodes morphs -> Forall (fun m => length (mcWeights m) = length (mcFrames m)) morphs -> plays s es ->
  exists s' e x, morph_node nodes (filter (on_node nodes n) morphs) n s = Some s' /\ plays s' (es ++ e) /\ asAccs s' = asAccs s ++ x /\ node_exported nodes morphs n e.
Proof.
  intros U N K F P. unfold morph_node. destruct (filter (on_node nodes n) morphs) as [|m0 mm] eqn:Ef.
  - exists s, [], []. rewrite !app_nil_r. split; [reflexivity|]. split; [exact P|]. split; [reflexivity|]. left. split; [reflexivity|]. intros m ti sz Hm Ht. assert (X : In m (filter (on_node nodes n) morphs)); [|rewrite Ef in X; destruct X].
    apply filter_In. split; [exact Hm|]. apply on_node_iff; [exact U|]. eauto.
  - assert (In1 : forall m, In m (m0 :: mm) <-> In m morphs /\ exists ti sz, has_target nodes (mcTarget m) n ti sz) by (intros m; rewrite <- Ef, filter_In, on_node_iff by exact U; tauto).
    destruct (proj1 (In1 m0) (or_introl eq_refl)) as (Hm0 & ti0 & size & Ht0). rewrite (target_of_unique _ _ _ _ _ U Ht0).
    assert (Sz : forall m ti sz, has_target nodes (mcTarget m) n ti sz -> sz = size).
    { intros m ti sz (l & A & _ & ->). destruct Ht0 as (l' & A' & _ & ->). rewrite A in A'. injection A' as ->. reflexivity. }
    destruct (put_all_ok nodes n size (length (mcFrames m0)) U (m0 :: mm) (repeat 0%Z (size * length (mcFrames m0)))) as (t & E & Lt & A & O).
    + rewrite <- Ef. clear - N. induction morphs as [|m l IH]; [constructor|]. inversion N; subst. cbn. destruct (on_node nodes n m); [|apply IH; assumption]. cbn. constructor; [|apply IH; assumption].
      intros X. apply H1. apply in_map_iff in X as (y & Ey & Hy). apply filter_In in Hy as [Hy _]. rewrite <- Ey. apply in_map. exact Hy.
    + apply repeat_length.
    + apply Forall_forall. intros m Hm. apply In1 in Hm as (Hm & ti & sz & Ht). rewrite Forall_forall in F. rewrite (F m Hm). rewrite (K m m0 n ti sz ti0 size Hm Hm0 Ht Ht0). split; [reflexivity|]. split; [reflexivity|]. exists ti. rewrite <- (Sz m ti sz Ht). exact Ht.
    + rewrite E. cbn [write]. eexists _, [(Z.of_nat n, PWeights, seconds (mcFrames m0), ABytes t)], _. split; [reflexivity|]. split; [|split].
      * apply plays_add; [|cbn [asAccs]; apply nth_app_some; rewrite nth_error_app2, Nat.sub_diag by lia; reflexivity|cbn [asAccs]; rewrite nth_error_app2, Nat.sub_diag by lia; reflexivity].
        apply (plays_write (mkAS (asAccs s ++ [AKeys (key_times (mcFrames m0))]) (asAnim s)) (ABytes t)). apply (plays_write s (AKeys (key_times (mcFrames m0)))). exact P.
      * cbn [add_channel asAccs]. rewrite <- app_assoc. reflexivity.
      * right. exists (mcFrames m0), size, t. split; [reflexivity|]. split; [split; [exact Lt|]|split].
        -- intros f ti Hf Hti. split.
           ++ intros m v Hm Ht Hv. exists (byte_of v). split; [|apply byte_ok]. apply (A m ti f v); [apply In1; eauto|exact Ht|exact Hv].
           ++ intros Hn. rewrite O; [|exact Hf|exact Hti|intros m Hm; apply Hn; apply In1 in Hm; tauto]. assert (B : (f * size + ti < size * length (mcFrames m0))%nat) by nia. revert B. generalize (f * size + ti)%nat (size * length (mcFrames m0))%nat. clear.
              intros i k. revert i. induction k as [|k IH]; intros [|i] B; try lia; [reflexivity|]. cbn. apply IH. lia.
        -- exists m0, ti0. auto.
        -- intros m ti sz Hm Ht. apply (K m m0 n ti sz ti0 size); assumption.
Qed.
Lemma morph_channels_ok nodes morphs s es : unique_targets nodes -> NoDup (map mcTarget morphs) -> same_keys nodes morphs -> Forall (fun m => length (mcWeights m) = length (mcFrames m)) morphs -> plays s es ->
  exists s' ess x, add_morph_channels nodes morphs s = Some s' /\ plays s' (es ++ concat ess) /\ asAccs s' = asAccs s ++ x /\ Forall2 (node_exported nodes morphs) (seq 0 (length nodes)) ess.
Proof.
  intros U N K F. unfold add_morph_channels. generalize (seq 0 (length nodes)). intros l. revert s es. induction l as [|n l IH]; intros s es P; cbn [fold_left].
  - exists s, [], []. cbn. rewrite !app_nil_r. split; [reflexivity|]. split; [exact P|]. split; [reflexivity|constructor].
  - destruct (morph_node_ok nodes morphs n s es U N K F P) as (s1 & e & x & -> & P1 & X1 & H1). destruct (IH s1 _ P1) as (s2 & ess & x2 & E & P2 & X2 & H2). exists s2, (e :: ess), (x ++ x2). cbn [concat]. rewrite !app_assoc. rewrite X2, X1 in *. auto.
Qed.
Lemma Int_part_IZR z : Int_part (IZR z) = z.
Proof. destruct (base_Int_part (IZR z)) as [A B]. assert (Int_part (IZR z) <= z)%Z by (apply le_IZR; exact A). assert (z - 1 < Int_part (IZR z))%Z by (apply lt_IZR; rewrite minus_IZR; lra). lia. Qed.
Lemma to_u8_IZR z : (0 <= z)%Z -> to_u8 (IZR z) = (z mod 256)%Z.
Proof. intros H. unfold to_u8. assert (Q : Rltb (IZR z) 0 = false) by (apply Rltb_false; apply IZR_le in H; lra). rewrite Q, Int_part_IZR. reflexivity. Qed.
