(** Bones from MQO to PMX and back. *)
From Coq Require Import String List ZArith Bool Lia.
From Verif.Model Require Import Num Vec Matrix Mqo MqoDoc Mmd2Mqo Normals Mqo2Mmd.
From Verif Require Import Spec.MmdConvSpec Spec.Mqo2MmdSpec Proofs.MqoObjProofs Proofs.MqoDocProofs Proofs.Mmd2MqoFaces Proofs.Mmd2MqoProofs Proofs.Mqo2MmdProofs.
Import ListNotations.
Local Open Scope Z_scope.
Local Open Scope list_scope.

Section Bones.
Context {T : Type} {N : Num T}.
Variable scale : T.

Definition kept (a b : pbone T) : Prop := pbName b = pbName a /\ pbPos b = pbPos a /\ pbInherit b = pbInherit a.

Lemma set_parent_spec (bs : list (pbone T)) i p k a : zidx bs k = Some a ->
  exists b, zidx (set_parent bs i p) k = Some b /\ kept a b /\ pbParent b = if k =? i then p else pbParent a.
Proof.
  intros H. unfold set_parent. destruct (zidx bs i) as [x|] eqn:E.
  - pose proof (zidx_bound _ _ _ E) as B. rewrite list_set_zidx by exact B. destruct (Z.eqb_spec k i) as [->|].
    + rewrite E in H. injection H as ->. eexists. split; [reflexivity|]. repeat split; reflexivity.
    + exists a. split; [exact H|]. repeat split; reflexivity.
  - exists a. split; [exact H|]. split; [repeat split|]. destruct (Z.eqb_spec k i) as [->|]; [congruence|reflexivity].
Qed.
Lemma set_tail_spec (bs : list (pbone T)) i p k a : zidx bs k = Some a ->
  exists b, zidx (set_tail bs i p) k = Some b /\ kept a b /\ pbParent b = pbParent a.
Proof.
  intros H. unfold set_tail. destruct (zidx bs i) as [x|] eqn:E.
  - pose proof (zidx_bound _ _ _ E) as B. rewrite list_set_zidx by exact B. destruct (Z.eqb_spec k i) as [->|].
    + rewrite E in H. injection H as ->. eexists. split; [reflexivity|]. repeat split; reflexivity.
    + exists a. split; [exact H|]. repeat split; reflexivity.
  - exists a. split; [exact H|]. repeat split; reflexivity.
Qed.
Lemma kept_trans a b c : kept a b -> kept b c -> kept a c.
Proof. unfold kept. intuition congruence. Qed.

Lemma link_bones_spec bones l : forall i out k a, 0 <= i -> zidx out k = Some a ->
  exists b, zidx (link_bones (T := T) bones i l out) k = Some b /\ kept a b /\
    pbParent b = match (if i <=? k then zidx l (k - i) else None) with
                 | Some x => if 0 <? bParent x then bone_index bones (bParent x) else pbParent a
                 | None => pbParent a
                 end.
Proof.
  induction l as [|x l IH]; intros i out k a Hi H; cbn [link_bones].
  - exists a. split; [exact H|]. split; [repeat split|]. destruct (i <=? k); [|reflexivity].
    destruct (zidx (@nil (bone T)) (k - i)) eqn:E; [|reflexivity]. apply zidx_bound in E. cbn in E. lia.
  - assert (Z1 : forall d, d <> 0 -> (if i <=? k then zidx (x :: l) (k - i) else None) = (if i + 1 <=? k then zidx l (k - (i + 1)) else None) \/ k = i).
    { intros _ _. destruct (Z.eq_dec k i) as [->|Ne]; [auto|]. left. destruct (Z.leb_spec i k), (Z.leb_spec (i + 1) k); try lia; [|reflexivity].
      destruct (zidx l (k - (i + 1))) as [y|] eqn:E.
      - apply zidx_Some in E as (E1 & E2). apply zidx_Some. split; [lia|]. replace (Z.to_nat (k - i)) with (S (Z.to_nat (k - (i + 1)))) by lia. exact E2.
      - apply zidx_None in E. apply zidx_None. cbn [length]. lia. }
    specialize (Z1 1 ltac:(lia)).
    assert (G : exists a', zidx (if 0 <? bParent x then let p := bone_index bones (bParent x) in set_tail (set_parent out i p) p i else out) k = Some a' /\
                kept a a' /\ pbParent a' = if (k =? i) && (0 <? bParent x) then bone_index bones (bParent x) else pbParent a).
    { destruct (0 <? bParent x).
      - cbn zeta. destruct (set_parent_spec out i (bone_index bones (bParent x)) k a H) as (a1 & E1 & K1 & P1).
        destruct (set_tail_spec _ (bone_index bones (bParent x)) i k a1 E1) as (a2 & E2 & K2 & P2). exists a2. split; [exact E2|].
        split; [eapply kept_trans; eassumption|]. rewrite P2, P1, andb_true_r. reflexivity.
      - exists a. split; [exact H|]. split; [repeat split|]. rewrite andb_false_r. reflexivity. }
    destruct G as (a' & E' & K' & P'). destruct (IH (i + 1) _ k a' ltac:(lia) E') as (b & Eb & Kb & Pb). exists b. split; [exact Eb|].
    split; [eapply kept_trans; eassumption|]. rewrite Pb. destruct Z1 as [Z1| ->].
    + rewrite Z1. rewrite P'. destruct (Z.eqb_spec k i) as [->|]; [|reflexivity].
      destruct (Z.leb_spec (i + 1) i); [lia|]. destruct (Z.leb_spec i i); [|lia].
      rewrite Z.sub_diag in Z1. cbn in Z1. discriminate Z1.
    + destruct (Z.leb_spec (i + 1) i); [lia|]. destruct (Z.leb_spec i i); [|lia]. rewrite Z.sub_diag. cbn [zidx]. rewrite P', Z.eqb_refl. cbn [andb]. reflexivity.
Qed.
Lemma set_parent_length (bs : list (pbone T)) i p : length (set_parent bs i p) = length bs.
Proof. unfold set_parent. destruct (zidx bs i); [apply list_set_length|reflexivity]. Qed.
Lemma set_tail_length (bs : list (pbone T)) i p : length (set_tail bs i p) = length bs.
Proof. unfold set_tail. destruct (zidx bs i); [apply list_set_length|reflexivity]. Qed.
Lemma link_bones_length bones l : forall i out, length (link_bones (T := T) bones i l out) = length out.
Proof.
  induction l as [|x l IH]; intros i out; [reflexivity|]. cbn [link_bones]. rewrite IH. destruct (0 <? bParent x); [|reflexivity].
  cbn zeta. rewrite set_tail_length, set_parent_length. reflexivity.
Qed.

Theorem to_mmd_bones_spec (bones : list (bone T)) : length (to_mmd_bones scale bones) = length bones /\
  forall i b, nth_error bones i = Some b -> exists pb, nth_error (to_mmd_bones scale bones) i = Some pb /\
    pbName pb = bName b /\ pbPos pb = scaled scale (bPos b) /\ pbInherit pb = None /\
    pbParent pb = if 0 <? bParent b then bone_index bones (bParent b) else -1.
Proof.
  unfold to_mmd_bones. split; [rewrite link_bones_length; apply map_length|]. intros i b H.
  assert (H' : zidx (map (conv_bone scale) bones) (Z.of_nat i) = Some (conv_bone scale b)).
  { apply zidx_Some. split; [lia|]. rewrite Nat2Z.id. apply map_nth_error. exact H. }
  destruct (link_bones_spec bones bones 0 _ _ _ ltac:(lia) H') as (pb & E & (K1 & K2 & K3) & P). exists pb.
  apply zidx_Some in E as (_ & E). rewrite Nat2Z.id in E. split; [exact E|]. split; [exact K1|]. split; [exact K2|]. split; [exact K3|]. rewrite P.
  destruct (Z.leb_spec 0 (Z.of_nat i)); [|lia]. rewrite Z.sub_0_r.
  assert (zidx bones (Z.of_nat i) = Some b) as -> by (apply zidx_Some; split; [lia|rewrite Nat2Z.id; exact H]). reflexivity.
Qed.

(** Every parent id exists. *)
Definition parents_exist (bones : list (bone T)) : Prop := Forall (fun b => 0 < bParent b -> In (bParent b) (map (@bID T) bones)) bones.

Lemma bone_index_in (bones : list (bone T)) id : In id (map (@bID T) bones) ->
  exists q, nth_error bones (Z.to_nat (bone_index bones id)) = Some q /\ bID q = id /\ 0 <= bone_index bones id.
Proof.
  intros H. unfold bone_index, bone_by_id. destruct (last_index _ bones) as [i|] eqn:E.
  - apply last_index_Some in E as (a & x & b & -> & <- & Q & _). exists x. rewrite Nat2Z.id, nth_error_app2, Nat.sub_diag by lia.
    split; [reflexivity|]. split; [apply Z.eqb_eq; exact Q|lia].
  - apply last_index_None in E. exfalso. apply in_map_iff in H as (x & <- & H). rewrite Forall_forall in E. specialize (E x H).
    rewrite Z.eqb_refl in E. discriminate.
Qed.

Theorem to_mmd_bones_tree (bones : list (bone T)) : parents_exist bones ->
  Forall2 (fun b pb => pbName pb = bName b /\ pbPos pb = scaled scale (bPos b) /\ parent_position bones b (pbParent pb)) bones (to_mmd_bones scale bones).
Proof.
  intros PE. destruct (to_mmd_bones_spec bones) as (L & S0).
  assert (G : forall l l', (forall i b, nth_error l i = Some b -> exists pb, nth_error l' i = Some pb /\
    pbName pb = bName b /\ pbPos pb = scaled scale (bPos b) /\ parent_position bones b (pbParent pb)) -> length l' = length l ->
    Forall2 (fun b pb => pbName pb = bName b /\ pbPos pb = scaled scale (bPos b) /\ parent_position bones b (pbParent pb)) l l').
  { induction l as [|b l IH]; intros [|pb l'] H Ll; try discriminate; constructor.
    - destruct (H 0%nat b eq_refl) as (pb' & E & H'). injection E as <-. exact H'.
    - apply IH; [|cbn in Ll; lia]. intros i x E. destruct (H (S i) x E) as (pb' & E' & H'). exists pb'. auto. }
  apply G; [|exact L]. intros i b E. destruct (S0 i b E) as (pb & E1 & E2 & E3 & E4 & E5). exists pb. split; [exact E1|]. split; [exact E2|]. split; [exact E3|].
  rewrite E5. unfold parent_position. destruct (Z.ltb_spec 0 (bParent b)) as [Lt|Ge]; [|left; split; [lia|reflexivity]]. right. split; [exact Lt|].
  unfold parents_exist in PE. rewrite Forall_forall in PE. destruct (bone_index_in bones (bParent b) (PE b (nth_error_In _ _ E) Lt)) as (q & Q1 & Q2 & Q3).
  split; [exact Q3|]. exists q. auto.
Qed.

(** Back again, when no bone inherits. *)
Lemma from_mmd_plain known thr (bs all : list (pbone T)) : Forall (fun b => pbInherit b = None) bs -> forall i,
  from_mmd_loop known thr all i bs =
  Some (map (fun e => mkBone (i + Z.of_nat (fst e) + 1) (pbName (snd e)) (pbParent (snd e) + 1) (flip_z (pbPos (snd e))) []) (combine (seq 0 (length bs)) bs)).
Proof.
  intros H. induction H as [|b bs Hb H IH]; intros i; cbn [from_mmd_loop]; [reflexivity|]. unfold from_mmd_parent. rewrite Hb, IH.
  cbn [length seq combine map fst snd]. rewrite Z.add_0_r. f_equal. f_equal. rewrite <- seq_shift.
  assert (G : forall (f : Z -> pbone T -> bone T) s, map (fun e => f (i + 1 + Z.of_nat (fst e)) (snd e)) (combine s bs) =
                     map (fun e => f (i + Z.of_nat (fst e)) (snd e)) (combine (map S s) bs)).
  { clear. intros f s. revert s. induction bs as [|b bs IH]; intros [|n s]; try reflexivity. cbn [map combine fst snd]. rewrite IH.
    replace (i + 1 + Z.of_nat n) with (i + Z.of_nat (S n)) by lia. reflexivity. }
  apply (G (fun k b => mkBone (k + 1) (pbName b) (pbParent b + 1) (flip_z (pbPos b)) [])).
Qed.

Theorem bones_round_trip known thr (bones : list (bone T)) : parents_exist bones ->
  exists bs, from_mmd_bones known thr (to_mmd_bones scale bones) = Some bs /\ length bs = length bones /\
    forall i b, nth_error bones i = Some b -> exists b', nth_error bs i = Some b' /\ bID b' = Z.of_nat i + 1 /\ bName b' = bName b /\
      bPos b' = flip_z (scaled scale (bPos b)) /\ parent_position bones b (bParent b' - 1).
Proof.
  intros PE. destruct (to_mmd_bones_spec bones) as (L & S0). unfold from_mmd_bones. rewrite from_mmd_plain.
  2:{ apply Forall_forall. intros x Hx. apply In_nth_error in Hx as (i & Hi). destruct (nth_error bones i) as [b|] eqn:E.
      - destruct (S0 i b E) as (pb & E1 & _ & _ & E4 & _). congruence.
      - apply nth_error_None in E. assert (i < length (to_mmd_bones scale bones))%nat by (apply nth_error_Some; congruence). lia. }
  eexists. split; [reflexivity|]. split; [rewrite map_length, combine_length, seq_length; lia|]. intros i b E.
  destruct (S0 i b E) as (pb & E1 & E2 & E3 & E4 & E5).
  assert (C : nth_error (combine (seq 0 (length (to_mmd_bones scale bones))) (to_mmd_bones scale bones)) i = Some (i, pb)).
  { assert (i < length (to_mmd_bones scale bones))%nat by (apply nth_error_Some; congruence).
    rewrite Mmd2MqoProofs.nth_error_combine, E1, (nth_error_nth' _ 0%nat) by (rewrite seq_length; lia). rewrite seq_nth by lia. reflexivity. }
  rewrite (map_nth_error _ _ _ C). cbn [fst snd]. eexists. split; [reflexivity|]. cbn [bID bName bPos bParent]. split; [reflexivity|]. split; [exact E2|].
  split; [rewrite E3; reflexivity|]. rewrite Z.add_simpl_r.
  pose proof (to_mmd_bones_tree bones PE) as F. apply (Mqo2MmdProofs.forall2_nth _ _ _ F) in E as (pb' & E1' & _ & _ & P). congruence.
Qed.

(** Without inheritance a forest stays a forest. *)
Theorem from_mmd_forest known thr (bs : list (pbone T)) : Forall (fun b => pbInherit b = None) bs -> forest (map pbParent bs) ->
  exists out, from_mmd_bones known thr bs = Some out /\ forest (map (fun b => bParent b - 1) out).
Proof.
  intros H (rank & R). unfold from_mmd_bones. rewrite from_mmd_plain by exact H. eexists. split; [reflexivity|]. exists rank.
  rewrite map_map. cbn [bParent]. intros i p E.
  assert (map (fun e => pbParent (snd e) + 1 - 1) (combine (seq 0 (length bs)) bs) = map pbParent bs) as Em.
  { clear. generalize 0%nat. induction bs as [|b bs IH]; intros n; [reflexivity|]. cbn [length seq combine map snd]. rewrite IH. f_equal. lia. }
  rewrite Em in E. apply R. exact E.
Qed.
End Bones.
